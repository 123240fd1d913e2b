{"id": "C01", "title": "Exact line layout", "statement": "The string returned by prettyPrint is the '\\n'-join (no trailing newline) of one line per displayed entry, in depth-first order with children in display order; each line is the concatenation, for every proper ancestor level, of the continuation symbol (ancestor has a later sibling) or the empty symbol (it has none) plus one space, then the non-last/last branch symbol plus one space, then the entry's label; the root line has no prefix.", "quantifier": "every tree of displayed entries (any width, depth, names), every tree format, every total emoji mapping and line-extension function, compaction on or off", "why_tests_cant": "Trees are unbounded in width and depth and the prefix of each line depends on the sibling position of all ancestors; a test samples a few shapes.", "anchors": ["jfiletreeprettyprinter-core/src/main/java/io/github/computerdaddyguy/jfiletreeprettyprinter/renderer/DefaultTreeEntryRenderer.java#renderDirectory", "jfiletreeprettyprinter-core/src/main/java/io/github/computerdaddyguy/jfiletreeprettyprinter/renderer/DefaultTreeFormatter.java#format", "jfiletreeprettyprinter-core/src/main/java/io/github/computerdaddyguy/jfiletreeprettyprinter/renderer/Depth.java#append", "jfiletreeprettyprinter-core/src/main/java/io/github/computerdaddyguy/jfiletreeprettyprinter/renderer/DefaultLineRenderer.java"]}
{"id": "C02", "title": "The output determines the displayed tree", "statement": "If the branch symbols of the tree format differ from its continuation and empty symbols (and all four have equal length), and no label contains a newline, then the depth and the label of every line, hence the whole displayed tree, can be recovered from the returned string alone: two different displayed trees never produce the same text.", "quantifier": "all pairs of displayed trees with newline-free labels, all tree formats satisfying the symbol condition (both built-in ones do)", "why_tests_cant": "Injectivity compares all pairs of trees, including adversarial names that contain the tree symbols themselves.", "anchors": ["jfiletreeprettyprinter-core/src/main/java/io/github/computerdaddyguy/jfiletreeprettyprinter/renderer/DefaultTreeFormatter.java#format", "jfiletreeprettyprinter-core/src/main/java/io/github/computerdaddyguy/jfiletreeprettyprinter/renderer/DefaultTreeEntryRenderer.java#renderDirectory", "jfiletreeprettyprinter-core/src/main/java/io/github/computerdaddyguy/jfiletreeprettyprinter/options/TreeFormats.java"]}
{"id": "C03", "title": "Alignment and symbol-width validation", "statement": "Constructing a TreeFormat succeeds exactly when the four symbols have the same length and otherwise throws IllegalArgumentException; for every constructed format the prefix of a line at depth d has length d*(w+1), w being the symbol width, so entries at the same depth start at the same column.", "quantifier": "all 4-tuples of strings; all displayed trees", "why_tests_cant": "The claim is for all symbol strings and all depths.", "anchors": ["jfiletreeprettyprinter-core/src/main/java/io/github/computerdaddyguy/jfiletreeprettyprinter/options/TreeFormat.java#ensureAllSameLength", "jfiletreeprettyprinter-core/src/main/java/io/github/computerdaddyguy/jfiletreeprettyprinter/options/TreeFormats.java", "jfiletreeprettyprinter-core/src/main/java/io/github/computerdaddyguy/jfiletreeprettyprinter/renderer/DefaultTreeFormatter.java#format"]}
{"id": "C04", "title": "Connectors never dangle", "statement": "In the output, a vertical connector (non-last branch or continuation symbol) in a column is always continued on the very next line, in the same column, by a continuation or a branch symbol; a column closed by a last-branch or empty symbol is never continued by a connector on the next line at that column.", "quantifier": "all displayed trees, all pairs of consecutive lines, all columns", "why_tests_cant": "Relates every pair of adjacent lines of arbitrarily large outputs.", "anchors": ["jfiletreeprettyprinter-core/src/main/java/io/github/computerdaddyguy/jfiletreeprettyprinter/renderer/DefaultTreeFormatter.java#format", "jfiletreeprettyprinter-core/src/main/java/io/github/computerdaddyguy/jfiletreeprettyprinter/renderer/DefaultTreeEntryRenderer.java#renderDirectory"]}
{"id": "C05", "title": "Exactly the accepted paths are displayed", "statement": "On a readable file system with no child limit, the set of displayed paths is exactly: the root, plus every path at most maxDepth levels below the root such that it and all its ancestors strictly below the root pass the filter (directories the directory filter, other files the file filter); each is displayed exactly once; the root is never filtered; a directory none of whose children pass is still displayed.", "quantifier": "all file-system trees, all directory and file filters, all max depths, all sort orders", "why_tests_cant": "Soundness and completeness over all trees and all predicates.", "anchors": ["jfiletreeprettyprinter-core/src/main/java/io/github/computerdaddyguy/jfiletreeprettyprinter/scanner/DefaultPathToTreeScanner.java#handle", "jfiletreeprettyprinter-core/src/main/java/io/github/computerdaddyguy/jfiletreeprettyprinter/scanner/DefaultPathToTreeScanner.java#handleDirectory", "jfiletreeprettyprinter-core/src/main/java/io/github/computerdaddyguy/jfiletreeprettyprinter/scanner/DefaultPathToTreeScanner.java#handleDirectoryChildren", "jfiletreeprettyprinter-core/src/main/java/io/github/computerdaddyguy/jfiletreeprettyprinter/options/PrettyPrintOptions.java#pathFilter"]}
{"id": "C06", "title": "Siblings are displayed in comparator order", "statement": "The displayed children of every directory are strictly increasing for the configured comparator refined by the alphabetical (UTF-16 code unit) order of their names; with no sort option they are strictly increasing alphabetically.", "quantifier": "all file systems, all directories displayed, all comparators satisfying the Comparator contract", "why_tests_cant": "Must hold for every comparator and every directory content.", "anchors": ["jfiletreeprettyprinter-core/src/main/java/io/github/computerdaddyguy/jfiletreeprettyprinter/scanner/DefaultPathToTreeScanner.java#directoryStreamToIterator", "jfiletreeprettyprinter-core/src/main/java/io/github/computerdaddyguy/jfiletreeprettyprinter/options/PrettyPrintOptions.java#sort", "jfiletreeprettyprinter-core/src/main/java/io/github/computerdaddyguy/jfiletreeprettyprinter/options/PathSorts.java#ALPHABETICAL"]}
{"id": "C07", "title": "Output does not depend on the order in which the OS lists directories", "statement": "For two file systems that differ only in the order in which directory entries are enumerated, prettyPrint returns the same string, for any sort comparator satisfying the Comparator contract.", "quantifier": "all pairs of file systems with permuted listings, all options with a contract-abiding comparator", "why_tests_cant": "Listing order is chosen by the OS; tests run on one order.", "anchors": ["jfiletreeprettyprinter-core/src/main/java/io/github/computerdaddyguy/jfiletreeprettyprinter/options/PrettyPrintOptions.java#sort", "jfiletreeprettyprinter-core/src/main/java/io/github/computerdaddyguy/jfiletreeprettyprinter/scanner/DefaultPathToTreeScanner.java#directoryStreamToIterator", "jfiletreeprettyprinter-core/src/main/java/io/github/computerdaddyguy/jfiletreeprettyprinter/options/PathSorts.java"]}
{"id": "C08", "title": "Child limit is exact", "statement": "For every directory displayed above the max depth whose child-limit function returns n >= 0, the displayed children are exactly the first n (in display order) of its children that pass the filter (all of them if there are at most n); with a negative limit all of them are displayed.", "quantifier": "all directories, all limits, all filters and comparators", "why_tests_cant": "Off-by-one boundaries must be right for every n and every child count.", "anchors": ["jfiletreeprettyprinter-core/src/main/java/io/github/computerdaddyguy/jfiletreeprettyprinter/scanner/DefaultPathToTreeScanner.java#handleDirectoryChildren"]}
{"id": "C09", "title": "Skip marker exactly when children were omitted", "statement": "A directory above the max depth shows one extra '...' line, as its last child, if and only if its limit n >= 0 and strictly more than n of its children pass the filter; filtered-out children never cause it.", "quantifier": "all directories, limits and filters", "why_tests_cant": "Equivalence over all sizes; the boundary (exactly n children) matters.", "anchors": ["jfiletreeprettyprinter-core/src/main/java/io/github/computerdaddyguy/jfiletreeprettyprinter/scanner/DefaultPathToTreeScanner.java#handleDirectoryChildren", "jfiletreeprettyprinter-core/src/main/java/io/github/computerdaddyguy/jfiletreeprettyprinter/renderer/DefaultFileFormatter.java#formatChildLimitReached"]}
{"id": "C10", "title": "Max depth is exact", "statement": "With maxDepth m >= 0, a directory at depth m below the root is displayed with the single child '...' and nothing else; directories at depth < m never show that marker; no path deeper than m is displayed.", "quantifier": "all file systems, all m >= 0", "why_tests_cant": "Ranges over all depths and trees.", "anchors": ["jfiletreeprettyprinter-core/src/main/java/io/github/computerdaddyguy/jfiletreeprettyprinter/scanner/DefaultPathToTreeScanner.java#handleDirectory", "jfiletreeprettyprinter-core/src/main/java/io/github/computerdaddyguy/jfiletreeprettyprinter/options/PrettyPrintOptions.java#withMaxDepth"]}
{"id": "C11", "title": "Negative max depth means unlimited", "statement": "As documented by withMaxDepth and by the CLI options schema, a negative maxDepth removes the depth limit: the output shows the directory's content.", "quantifier": "all negative depths and all non-empty directories", "why_tests_cant": "Documented for every negative value; no test uses one.", "anchors": ["jfiletreeprettyprinter-core/src/main/java/io/github/computerdaddyguy/jfiletreeprettyprinter/options/PrettyPrintOptions.java#withMaxDepth", "jfiletreeprettyprinter-core/src/main/java/io/github/computerdaddyguy/jfiletreeprettyprinter/scanner/DefaultPathToTreeScanner.java#handleDirectory"]}
{"id": "C12", "title": "Scanning always terminates within the depth bound", "statement": "Whatever the file system answers (including infinitely deep or self-containing directories and answers that change between calls), prettyPrint with maxDepth m returns or throws after finitely many steps, and never opens a directory m or more levels below the root (directories that the user's own callbacks open aside).", "quantifier": "all file-system behaviours (arbitrary history-dependent answers), all maxDepth values, all options", "why_tests_cant": "Quantifies over adversarial, infinite file systems.", "anchors": ["jfiletreeprettyprinter-core/src/main/java/io/github/computerdaddyguy/jfiletreeprettyprinter/scanner/DefaultPathToTreeScanner.java#handleDirectory", "jfiletreeprettyprinter-core/src/main/java/io/github/computerdaddyguy/jfiletreeprettyprinter/scanner/DefaultPathToTreeScanner.java#handle"]}
{"id": "C13", "title": "Excluded directories are never opened", "statement": "A directory is opened only if it is the root or passed the filter, is above the max depth, and is among the displayed children of its parent; in particular no attribute is read from and no directory is opened under a child that was filtered out or cut by the child limit (callbacks supplied by the user aside).", "quantifier": "all file systems, filters, limits, depths; every event of every run", "why_tests_cant": "A claim about all events of all runs, not about the output.", "anchors": ["jfiletreeprettyprinter-core/src/main/java/io/github/computerdaddyguy/jfiletreeprettyprinter/scanner/DefaultPathToTreeScanner.java#handleDirectoryChildren", "jfiletreeprettyprinter-core/src/main/java/io/github/computerdaddyguy/jfiletreeprettyprinter/scanner/DefaultPathToTreeScanner.java#handleDirectory"]}
{"id": "C14", "title": "A zero child limit avoids listing the directory", "statement": "As documented ('Useful to avoid listing known-ahead huge directories'), a directory whose child limit is 0 is not listed.", "quantifier": "all directories with limit 0", "why_tests_cant": "Effect-level claim; the printed output is the same either way.", "anchors": ["jfiletreeprettyprinter-core/src/main/java/io/github/computerdaddyguy/jfiletreeprettyprinter/options/PrettyPrintOptions.java#withChildLimit", "jfiletreeprettyprinter-core/src/main/java/io/github/computerdaddyguy/jfiletreeprettyprinter/scanner/DefaultPathToTreeScanner.java#handleDirectory"]}
{"id": "C15", "title": "Directory handles are always released", "statement": "Every directory stream opened during prettyPrint is closed again, in last-opened-first-closed order, whatever the outcome: success, I/O failure at any point, or an exception from any user callback.", "quantifier": "all file-system behaviours, all failure points, all callbacks", "why_tests_cant": "Failure can strike at any step of any run.", "anchors": ["jfiletreeprettyprinter-core/src/main/java/io/github/computerdaddyguy/jfiletreeprettyprinter/scanner/DefaultPathToTreeScanner.java#handleDirectory", "jfiletreeprettyprinter-core/src/main/java/io/github/computerdaddyguy/jfiletreeprettyprinter/options/PathMatchers.java#testDescendants"]}
{"id": "C16", "title": "Symbolic links are never followed", "statement": "A symbolic link is displayed as a leaf, never as a directory with children, and it is never opened, even if it points to a directory (so link cycles are harmless).", "quantifier": "all file systems with links, all options", "why_tests_cant": "All link structures including cycles.", "anchors": ["jfiletreeprettyprinter-core/src/main/java/io/github/computerdaddyguy/jfiletreeprettyprinter/scanner/DefaultPathToTreeScanner.java#handle", "jfiletreeprettyprinter-core/src/main/java/io/github/computerdaddyguy/jfiletreeprettyprinter/options/PathMatchers.java#isDirectory"]}
{"id": "C17", "title": "Symbolic links carry the '*' marker", "statement": "A symbolic link is displayed with a trailing '*' (and an 'other' file with '?').", "quantifier": "all links and special files", "why_tests_cant": "The marker code exists but no test covers it; depends on how attributes are read.", "anchors": ["jfiletreeprettyprinter-core/src/main/java/io/github/computerdaddyguy/jfiletreeprettyprinter/renderer/DefaultFileFormatter.java#formatFile", "jfiletreeprettyprinter-core/src/main/java/io/github/computerdaddyguy/jfiletreeprettyprinter/scanner/DefaultPathToTreeScanner.java#handleFile"]}
{"id": "C18", "title": "A dangling symbolic link does not prevent printing its directory", "statement": "Printing a directory that contains a symbolic link whose target does not exist succeeds and shows the link.", "quantifier": "all directories containing a dangling link that passes the filter", "why_tests_cant": "No test creates links.", "anchors": ["jfiletreeprettyprinter-core/src/main/java/io/github/computerdaddyguy/jfiletreeprettyprinter/scanner/DefaultPathToTreeScanner.java#handleFile"]}
{"id": "C19", "title": "I/O errors surface as UncheckedIOException", "statement": "As documented, if any I/O error occurs, prettyPrint throws UncheckedIOException and nothing else.", "quantifier": "all failure points: attribute reads, directory opening, iteration, closing", "why_tests_cant": "I/O errors can hit at any system call.", "anchors": ["jfiletreeprettyprinter-core/src/main/java/io/github/computerdaddyguy/jfiletreeprettyprinter/FileTreePrettyPrinter.java#prettyPrint", "jfiletreeprettyprinter-core/src/main/java/io/github/computerdaddyguy/jfiletreeprettyprinter/scanner/DefaultPathToTreeScanner.java#handleDirectory", "jfiletreeprettyprinter-core/src/main/java/io/github/computerdaddyguy/jfiletreeprettyprinter/scanner/DefaultPathToTreeScanner.java#handleFile"]}
{"id": "C20", "title": "No partial output", "statement": "If prettyPrint returns a string then no file-system call made for a displayed path failed: the string describes the complete tree; an I/O failure always yields an exception instead of a truncated tree.", "quantifier": "all file-system behaviours and failure points", "why_tests_cant": "Failures at every possible point.", "anchors": ["jfiletreeprettyprinter-core/src/main/java/io/github/computerdaddyguy/jfiletreeprettyprinter/scanner/DefaultPathToTreeScanner.java#handle", "jfiletreeprettyprinter-core/src/main/java/io/github/computerdaddyguy/jfiletreeprettyprinter/renderer/DefaultTreeEntryRenderer.java#renderTree", "jfiletreeprettyprinter-core/src/main/java/io/github/computerdaddyguy/jfiletreeprettyprinter/DefaultFileTreePrettyPrinter.java#prettyPrint"]}
{"id": "C21", "title": "The file-system root can be printed", "statement": "prettyPrint(\"/\") returns a tree like for any other directory.", "quantifier": "all contents of the root directory, all options", "why_tests_cant": "Tests always print a temp directory.", "anchors": ["jfiletreeprettyprinter-core/src/main/java/io/github/computerdaddyguy/jfiletreeprettyprinter/renderer/DefaultFileFormatter.java#formatDirectoryBegin"]}
{"id": "C22", "title": "Path spelling does not matter", "statement": "prettyPrint gives the same result for every spelling of the same location: String or Path, relative or absolute, with redundant '.', '..' and '/' segments (after lexical normalisation); the root line shows the real directory name, never '.' or '..'. A text that is no path (with a NUL character) is refused before anything is accessed.", "quantifier": "all path strings, all current directories", "why_tests_cant": "Infinitely many spellings.", "anchors": ["jfiletreeprettyprinter-core/src/main/java/io/github/computerdaddyguy/jfiletreeprettyprinter/DefaultFileTreePrettyPrinter.java#prettyPrint", "jfiletreeprettyprinter-core/src/main/java/io/github/computerdaddyguy/jfiletreeprettyprinter/FileTreePrettyPrinter.java#prettyPrint", "jfiletreeprettyprinter-core/src/main/java/io/github/computerdaddyguy/jfiletreeprettyprinter/scanner/DefaultPathToTreeScanner.java#scan"]}
{"id": "C23", "title": "A missing path is reported", "statement": "prettyPrint of a path that does not exist throws UncheckedIOException.", "quantifier": "all missing paths, all options", "why_tests_cant": "All paths and options.", "anchors": ["jfiletreeprettyprinter-core/src/main/java/io/github/computerdaddyguy/jfiletreeprettyprinter/scanner/DefaultPathToTreeScanner.java#handleFile"]}
{"id": "C24", "title": "A file prints as a single line", "statement": "prettyPrint of a path that is not a directory returns its name (with emoji prefix and line extension if configured), with no prefix and no other line, whatever the filter, depth and limit options.", "quantifier": "all non-directory paths, all options", "why_tests_cant": "All option combinations.", "anchors": ["jfiletreeprettyprinter-core/src/main/java/io/github/computerdaddyguy/jfiletreeprettyprinter/scanner/DefaultPathToTreeScanner.java#handle", "jfiletreeprettyprinter-core/src/main/java/io/github/computerdaddyguy/jfiletreeprettyprinter/renderer/DefaultTreeEntryRenderer.java#renderFile"]}
{"id": "C25", "title": "Compaction loses and reorders nothing", "statement": "Turning compactDirectories on changes only how lines are grouped: reading the directory and file names of the output in order gives the same sequence as with compaction off, and the root is never merged with its child.", "quantifier": "all displayed trees, all line-extension functions", "why_tests_cant": "All shapes of chains.", "anchors": ["jfiletreeprettyprinter-core/src/main/java/io/github/computerdaddyguy/jfiletreeprettyprinter/renderer/DefaultTreeEntryRenderer.java#renderDirectory"]}
{"id": "C26", "title": "Compaction is exact and maximal", "statement": "With compactDirectories, a non-root directory is merged with its child onto one line exactly when its only displayed child is a directory and it has no line extension (null); otherwise its line ends at that directory.", "quantifier": "all displayed trees, all line-extension functions", "why_tests_cant": "Equivalence for all shapes.", "anchors": ["jfiletreeprettyprinter-core/src/main/java/io/github/computerdaddyguy/jfiletreeprettyprinter/renderer/DefaultTreeEntryRenderer.java#renderDirectory"]}
{"id": "C27", "title": "Line extensions: once per path, attached to the right line", "statement": "The line-extension function is called exactly once for each displayed path, in display order, and a non-null result appears verbatim at the end of the line on which that path is the last component; markers '...' never get one; with a null function or null result nothing is appended.", "quantifier": "all displayed trees, all extension functions, compaction on or off", "why_tests_cant": "Counts calls over all trees; the compaction code path evaluates early.", "anchors": ["jfiletreeprettyprinter-core/src/main/java/io/github/computerdaddyguy/jfiletreeprettyprinter/renderer/DefaultTreeEntryRenderer.java#renderDirectory", "jfiletreeprettyprinter-core/src/main/java/io/github/computerdaddyguy/jfiletreeprettyprinter/renderer/DefaultTreeEntryRenderer.java#computeLineExtension", "jfiletreeprettyprinter-core/src/main/java/io/github/computerdaddyguy/jfiletreeprettyprinter/renderer/DefaultTreeEntryRenderer.java#renderFile"]}
{"id": "C28", "title": "Without compaction there is one line per entry", "statement": "With compactDirectories off (default), the number of lines equals the number of displayed entries, and each directory label is its own name followed by '/'.", "quantifier": "all displayed trees with newline-free labels", "why_tests_cant": "All sizes.", "anchors": ["jfiletreeprettyprinter-core/src/main/java/io/github/computerdaddyguy/jfiletreeprettyprinter/renderer/DefaultTreeEntryRenderer.java#renderDirectory", "jfiletreeprettyprinter-core/src/main/java/io/github/computerdaddyguy/jfiletreeprettyprinter/renderer/DefaultFileFormatter.java#formatDirectoryBegin"]}
{"id": "C29", "title": "LineExtensions builder: first non-null rule wins and the built function is frozen", "statement": "The built function returns the result of the first rule (in insertion order) that is non-null, null if there is none, evaluates no later rule, and is unaffected by later calls on the builder.", "quantifier": "all rule lists, all paths, all later builder call sequences", "why_tests_cant": "All rule lists and histories.", "anchors": ["jfiletreeprettyprinter-core/src/main/java/io/github/computerdaddyguy/jfiletreeprettyprinter/options/LineExtensionBuilder.java#build"]}
{"id": "C30", "title": "ChildLimits builder applies its default when no rule matches", "statement": "As documented, if no rule matches a path, the default limit is returned.", "quantifier": "all rule lists, defaults and paths", "why_tests_cant": "Documented for all rule lists; the test uses default = UNLIMITED only.", "anchors": ["jfiletreeprettyprinter-core/src/main/java/io/github/computerdaddyguy/jfiletreeprettyprinter/options/ChildLimitBuilder.java#build"]}
{"id": "C31", "title": "ChildLimits builder: first matching rule wins", "statement": "As documented, the first rule (in insertion order) whose matcher matches determines the limit, including a rule with limit UNLIMITED.", "quantifier": "all rule lists and paths", "why_tests_cant": "All rule lists.", "anchors": ["jfiletreeprettyprinter-core/src/main/java/io/github/computerdaddyguy/jfiletreeprettyprinter/options/ChildLimitBuilder.java#build", "jfiletreeprettyprinter-core/src/main/java/io/github/computerdaddyguy/jfiletreeprettyprinter/options/ChildLimitBuilder.java#add"]}
{"id": "C32", "title": "A built child-limit function is independent of its builder", "statement": "After build(), further calls on the ChildLimitBuilder do not change the limits computed by the function already built.", "quantifier": "all builder call histories", "why_tests_cant": "All histories.", "anchors": ["jfiletreeprettyprinter-core/src/main/java/io/github/computerdaddyguy/jfiletreeprettyprinter/options/ChildLimitBuilder.java#build", "jfiletreeprettyprinter-core/src/main/java/io/github/computerdaddyguy/jfiletreeprettyprinter/options/ChildLimitBuilder.java#setDefault"]}
{"id": "C33", "title": "PathSorts builder: precedence semantics", "statement": "The built comparator orders by the first non-zero precedence (0 if none), lower first, then alphabetically; it satisfies the Comparator contract with no integer overflow at the extreme precedences; paths matched by a first-registered addFirst (addLast) rule come before (after) every path not matched by it with a non-extreme precedence; it is unaffected by later builder calls.", "quantifier": "all rule lists, all int precedences, all paths", "why_tests_cant": "All rule lists, precedences up to Integer.MIN_VALUE/MAX_VALUE.", "anchors": ["jfiletreeprettyprinter-core/src/main/java/io/github/computerdaddyguy/jfiletreeprettyprinter/options/PathSortBuilder.java#build"]}
{"id": "C34", "title": "Built-in comparators obey the Comparator contract", "statement": "ALPHABETICAL, DIRECTORY_FIRST, DIRECTORY_LAST, BY_FILE_SIZE and BY_EXTENSION are antisymmetric in sign and transitive (including of the 'equal' relation) for all names, so sorting with them never fails; BY_EXTENSION puts directories first, then files without extension, then by last extension part, then preceding parts, fewer parts first.", "quantifier": "all pairs and triples of paths, all names incl. dots-only, leading and trailing dots", "why_tests_cant": "Triples of arbitrary names.", "anchors": ["jfiletreeprettyprinter-core/src/main/java/io/github/computerdaddyguy/jfiletreeprettyprinter/options/PathSorts.java#BY_EXTENSION", "jfiletreeprettyprinter-core/src/main/java/io/github/computerdaddyguy/jfiletreeprettyprinter/options/PathSorts.java#DIRECTORY_FIRST", "jfiletreeprettyprinter-core/src/main/java/io/github/computerdaddyguy/jfiletreeprettyprinter/options/PathSorts.java#BY_FILE_SIZE"]}
{"id": "C35", "title": "BY_FILE_SIZE puts directories before regular files", "statement": "As documented, with sort(BY_FILE_SIZE) directories appear before regular files, files in ascending size.", "quantifier": "all directories' contents", "why_tests_cant": "All sizes including 0.", "anchors": ["jfiletreeprettyprinter-core/src/main/java/io/github/computerdaddyguy/jfiletreeprettyprinter/options/PathSorts.java#BY_FILE_SIZE", "jfiletreeprettyprinter-core/src/main/java/io/github/computerdaddyguy/jfiletreeprettyprinter/options/PrettyPrintOptions.java#sort"]}
{"id": "C36", "title": "Matcher combinators: boolean meaning, short-circuit, argument checks", "statement": "not/allOf/anyOf/noneOf/ifMatchesThenElse compute negation, conjunction, disjunction, negated disjunction and conditional of their arguments; evaluation goes left to right and stops at the first decisive one (an exception from a later matcher is not observed); combining an empty collection throws IllegalArgumentException; later changes to the passed collection have no effect.", "quantifier": "all lists of matchers (including throwing ones), all paths", "why_tests_cant": "All lists and effects.", "anchors": ["jfiletreeprettyprinter-core/src/main/java/io/github/computerdaddyguy/jfiletreeprettyprinter/options/PathMatchers.java#combineMatchers", "jfiletreeprettyprinter-core/src/main/java/io/github/computerdaddyguy/jfiletreeprettyprinter/options/PathMatchers.java#all", "jfiletreeprettyprinter-core/src/main/java/io/github/computerdaddyguy/jfiletreeprettyprinter/options/PathMatchers.java#any", "jfiletreeprettyprinter-core/src/main/java/io/github/computerdaddyguy/jfiletreeprettyprinter/options/PathMatchers.java#none", "jfiletreeprettyprinter-core/src/main/java/io/github/computerdaddyguy/jfiletreeprettyprinter/options/PathMatchers.java#ifMatchesThenElse"]}
{"id": "C37", "title": "Relative-path matcher tests the path relative to the reference", "statement": "hasRelativePathMatching(ref, m) on any path located under ref applies m to exactly the remaining name elements, for all spellings of ref and path; for a path outside ref it applies m to the '..'-prefixed relative path leading from ref to it.", "quantifier": "all references, paths and current directories", "why_tests_cant": "All paths with '.' and '..'.", "anchors": ["jfiletreeprettyprinter-core/src/main/java/io/github/computerdaddyguy/jfiletreeprettyprinter/options/PathMatchers.java#hasRelativePathMatching"]}
{"id": "C38", "title": "Absolute-path matcher sees the absolute normalised path", "statement": "As documented, hasAbsolutePathMatching(m) applies m to path.toAbsolutePath().normalize().", "quantifier": "all paths, all current directories", "why_tests_cant": "All relative paths incl. leading '..'.", "anchors": ["jfiletreeprettyprinter-core/src/main/java/io/github/computerdaddyguy/jfiletreeprettyprinter/options/PathMatchers.java#hasAbsolutePathMatching"]}
{"id": "C39", "title": "Parent and ancestor matchers are exact", "statement": "hasDirectParentMatching(m) matches iff the path has a parent and m accepts it; hasAnyAncestorMatching(m) matches iff m accepts some proper ancestor of the path as written; both are false for paths without parent and never throw by themselves.", "quantifier": "all paths, all matchers", "why_tests_cant": "All path lengths.", "anchors": ["jfiletreeprettyprinter-core/src/main/java/io/github/computerdaddyguy/jfiletreeprettyprinter/options/PathMatchers.java#hasDirectParentMatching", "jfiletreeprettyprinter-core/src/main/java/io/github/computerdaddyguy/jfiletreeprettyprinter/options/PathMatchers.java#hasAnyAncestorMatching"]}
{"id": "C40", "title": "Descendant matchers are exact", "statement": "On a readable file system, hasAnyDescendantMatching(m) (hasAnyDirectChildMatching(m)) matches a path iff it is a directory and some strict descendant (direct child), reached without following links, is accepted by m; the path itself is not tested.", "quantifier": "all file systems (depth up to Integer.MAX_VALUE), all matchers", "why_tests_cant": "All trees.", "anchors": ["jfiletreeprettyprinter-core/src/main/java/io/github/computerdaddyguy/jfiletreeprettyprinter/options/PathMatchers.java#testDescendants", "jfiletreeprettyprinter-core/src/main/java/io/github/computerdaddyguy/jfiletreeprettyprinter/options/PathMatchers.java#hasAnyDescendantMatching", "jfiletreeprettyprinter-core/src/main/java/io/github/computerdaddyguy/jfiletreeprettyprinter/options/PathMatchers.java#hasAnyDirectChildMatching"]}
{"id": "C41", "title": "Sibling matcher is exact", "statement": "On a readable file system, hasSiblingMatching(m) matches a path iff its parent is a directory containing another entry accepted by m; the path itself is never tested; false if there is no parent.", "quantifier": "all file systems, paths and matchers", "why_tests_cant": "All directories.", "anchors": ["jfiletreeprettyprinter-core/src/main/java/io/github/computerdaddyguy/jfiletreeprettyprinter/options/PathMatchers.java#hasSiblingMatching"]}
{"id": "C42", "title": "Name matchers", "statement": "hasName, hasNameIgnoreCase, hasNameStartingWith, hasNameEndingWith, hasExtension, hasNameMatchingGlob decide on the last name element only, return false (never throw) for a path without name, and glob '*' matches everything.", "quantifier": "all paths, all names, all patterns", "why_tests_cant": "All strings.", "anchors": ["jfiletreeprettyprinter-core/src/main/java/io/github/computerdaddyguy/jfiletreeprettyprinter/options/PathMatchers.java#hasName", "jfiletreeprettyprinter-core/src/main/java/io/github/computerdaddyguy/jfiletreeprettyprinter/options/PathMatchers.java#hasExtension", "jfiletreeprettyprinter-core/src/main/java/io/github/computerdaddyguy/jfiletreeprettyprinter/options/PathMatchers.java#hasNameMatchingGlob"]}
{"id": "C43", "title": "Emoji precedence", "statement": "For an emoji mapping built from a builder whose keys are distinct ignoring case, the emoji of a path is: the first custom matcher (in insertion order) that matches, else the name mapping (ignoring case), else for files the most specific extension mapping (ignoring case), else the default; directory rules apply to directories only and file rules to all other paths.", "quantifier": "all builder contents, all paths, all file systems", "why_tests_cant": "All rule sets and names.", "anchors": ["jfiletreeprettyprinter-core/src/main/java/io/github/computerdaddyguy/jfiletreeprettyprinter/options/DefaultEmojiMapping.java#getPathEmoji", "jfiletreeprettyprinter-core/src/main/java/io/github/computerdaddyguy/jfiletreeprettyprinter/options/SequentialEmojiFunction.java", "jfiletreeprettyprinter-core/src/main/java/io/github/computerdaddyguy/jfiletreeprettyprinter/options/PathExtensionEmojiFunction.java", "jfiletreeprettyprinter-core/src/main/java/io/github/computerdaddyguy/jfiletreeprettyprinter/options/PathNameEmojiFunction.java", "jfiletreeprettyprinter-core/src/main/java/io/github/computerdaddyguy/jfiletreeprettyprinter/options/PathMatcherEmojiFunction.java"]}
{"id": "C44", "title": "Overriding an emoji for a name ignoring case", "statement": "As documented, name and extension keys are case-insensitive: setting an emoji for a key that only differs in case from an existing one (e.g. 'Dockerfile' on builderFromDefault) replaces it.", "quantifier": "all sequences of set calls", "why_tests_cant": "All histories of keys differing in case.", "anchors": ["jfiletreeprettyprinter-core/src/main/java/io/github/computerdaddyguy/jfiletreeprettyprinter/options/MappingUtils.java#toLowerCaseKeys", "jfiletreeprettyprinter-core/src/main/java/io/github/computerdaddyguy/jfiletreeprettyprinter/options/DefaultEmojiMappingBuilder.java#build"]}
{"id": "C45", "title": "A built emoji mapping is immutable", "statement": "As documented ('Builds an immutable EmojiMapping'), later calls on the builder do not change the emojis returned by a mapping already built.", "quantifier": "all builder call histories after build", "why_tests_cant": "All histories.", "anchors": ["jfiletreeprettyprinter-core/src/main/java/io/github/computerdaddyguy/jfiletreeprettyprinter/options/DefaultEmojiMappingBuilder.java#build", "jfiletreeprettyprinter-core/src/main/java/io/github/computerdaddyguy/jfiletreeprettyprinter/options/PathMatcherEmojiFunction.java"]}
{"id": "C46", "title": "Multi-part extensions, most specific first", "statement": "The extensions considered for a file name are exactly the suffixes following each '.' of the name with trailing dots removed, tried from the longest to the shortest.", "quantifier": "all file names", "why_tests_cant": "All strings incl. dots-only, leading/trailing/double dots.", "anchors": ["jfiletreeprettyprinter-core/src/main/java/io/github/computerdaddyguy/jfiletreeprettyprinter/options/PathExtensionEmojiFunction.java#getExtensions"]}
{"id": "C47", "title": "Emojis only prefix labels", "statement": "Enabling any emoji mapping changes the output only by inserting, before the label of a displayed file or directory, the emoji of that line's path and one space (nothing when the mapping returns null); '...' lines, structure, order and extensions are unchanged.", "quantifier": "all trees, all mappings", "why_tests_cant": "All trees and mappings.", "anchors": ["jfiletreeprettyprinter-core/src/main/java/io/github/computerdaddyguy/jfiletreeprettyprinter/renderer/EmojiFileFormatter.java"]}
{"id": "C48", "title": "Default emojis do not depend on the locale", "statement": "The default emoji for a file name such as LICENSE or README.MD is found ignoring case on every machine, whatever the default locale.", "quantifier": "all default locales", "why_tests_cant": "Tests run under one locale.", "anchors": ["jfiletreeprettyprinter-core/src/main/java/io/github/computerdaddyguy/jfiletreeprettyprinter/options/PathNameEmojiFunction.java#apply", "jfiletreeprettyprinter-core/src/main/java/io/github/computerdaddyguy/jfiletreeprettyprinter/options/MappingUtils.java#toLowerCaseKeys"]}
{"id": "C49", "title": "Option setters: last write wins, no interference", "statement": "Each withXXX/sort/filterXXX setter changes only its own option, the last call for an option wins, and unset options keep their documented defaults (no limit, depth 20, alphabetical, no filter, no emoji, unicode format, no compaction, no extension).", "quantifier": "all sequences of setter calls", "why_tests_cant": "All call sequences.", "anchors": ["jfiletreeprettyprinter-core/src/main/java/io/github/computerdaddyguy/jfiletreeprettyprinter/options/PrettyPrintOptions.java"]}
{"id": "C50", "title": "A built printer is independent of its options object", "statement": "Changing a PrettyPrintOptions object after build() does not change what the already built printer prints.", "quantifier": "all setter histories after build", "why_tests_cant": "All histories.", "anchors": ["jfiletreeprettyprinter-core/src/main/java/io/github/computerdaddyguy/jfiletreeprettyprinter/FileTreePrettyPrinterBuilder.java#build", "jfiletreeprettyprinter-core/src/main/java/io/github/computerdaddyguy/jfiletreeprettyprinter/renderer/LineRenderer.java#create", "jfiletreeprettyprinter-core/src/main/java/io/github/computerdaddyguy/jfiletreeprettyprinter/scanner/DefaultPathToTreeScanner.java"]}
{"id": "C51", "title": "The CLI prints exactly the tree", "statement": "On success the CLI writes to standard output exactly the string returned by prettyPrint followed by a line separator, nothing to standard error (debug off), and exits with 0.", "quantifier": "all trees, hence all file names", "why_tests_cant": "All names, including those with '%'.", "anchors": ["jfiletreeprettyprinter-cli/src/main/java/io/github/computerdaddyguy/jfiletreeprettyprinter/cli/PrettyPrintCommand.java#call", "jfiletreeprettyprinter-cli/src/main/java/io/github/computerdaddyguy/jfiletreeprettyprinter/cli/io/DefaultConsoleOutput.java#printfln"]}
{"id": "C52", "title": "CLI options lookup order", "statement": "An explicit options file is used alone and its absence is an error (exit 1, nothing on stdout); without it the first existing file among <target>/.prettyprint, ./.prettyprint, <home>/.prettyprint is used, a defective one being an error rather than skipped; if none exists the default options are used.", "quantifier": "all combinations of existing/defective files, all targets", "why_tests_cant": "All combinations.", "anchors": ["jfiletreeprettyprinter-cli/src/main/java/io/github/computerdaddyguy/jfiletreeprettyprinter/cli/options/reader/FallbackExternalOptionsReader.java#readExternalOptions", "jfiletreeprettyprinter-cli/src/main/java/io/github/computerdaddyguy/jfiletreeprettyprinter/cli/options/reader/SimpleExternalOptionsReader.java", "jfiletreeprettyprinter-cli/src/main/java/io/github/computerdaddyguy/jfiletreeprettyprinter/cli/options/DefaultOptionsLoader.java#loadOptions"]}
{"id": "C53", "title": "The second lookup location is the executable's folder", "statement": "As documented in the README, the CLI looks for .prettyprint beside the executable.", "quantifier": "all executable locations and current directories", "why_tests_cant": "Tests run in one directory.", "anchors": ["jfiletreeprettyprinter-cli/src/main/java/io/github/computerdaddyguy/jfiletreeprettyprinter/cli/options/reader/ExternalOptionsReader.java#createDefault"]}
{"id": "C54", "title": "External options mean what the equivalent library options mean", "statement": "Mapping a validated options file yields printer options that behave as documented: absent fields keep defaults; everything/nothing/allOf/anyOf/noneOf/name/path matchers mean the corresponding predicate on the path (path globs relative to the target); dynamic limits are first-match in file order, otherwise unlimited; line extensions are first-match in file order.", "quantifier": "all valid option documents, all paths", "why_tests_cant": "Recursive matcher documents of any depth.", "anchors": ["jfiletreeprettyprinter-cli/src/main/java/io/github/computerdaddyguy/jfiletreeprettyprinter/cli/options/mapper/DefaultExternalOptionsMapper.java#mapToOptions", "jfiletreeprettyprinter-cli/src/main/java/io/github/computerdaddyguy/jfiletreeprettyprinter/cli/options/mapper/DefaultExternalOptionsMapper.java#mapMatcher"]}
{"id": "C55", "title": "Validated options never crash the mapper", "statement": "For every options document that passes validation, mapping it to printer options raises no exception other than a glob syntax error.", "quantifier": "all option documents (recursive matchers)", "why_tests_cant": "Unbounded nesting, nullable fields.", "anchors": ["jfiletreeprettyprinter-cli/src/main/java/io/github/computerdaddyguy/jfiletreeprettyprinter/cli/options/model/Matcher.java", "jfiletreeprettyprinter-cli/src/main/java/io/github/computerdaddyguy/jfiletreeprettyprinter/cli/options/model/ChildLimit.java", "jfiletreeprettyprinter-cli/src/main/java/io/github/computerdaddyguy/jfiletreeprettyprinter/cli/options/mapper/DefaultExternalOptionsMapper.java", "jfiletreeprettyprinter-cli/src/main/java/io/github/computerdaddyguy/jfiletreeprettyprinter/cli/options/reader/SimpleExternalOptionsReader.java#validate"]}
{"id": "C56", "title": "CLI errors are reported as one '[ERROR]' message with exit code 1", "statement": "Whenever the command fails, the CLI prints the error message, prefixed by '[ERROR] ', on standard error, and exits with code 1.", "quantifier": "all failures and all path names", "why_tests_cant": "Messages contain user-controlled path names.", "anchors": ["jfiletreeprettyprinter-cli/src/main/java/io/github/computerdaddyguy/jfiletreeprettyprinter/cli/exception/DefaultExecutionExceptionHandler.java", "jfiletreeprettyprinter-cli/src/main/java/io/github/computerdaddyguy/jfiletreeprettyprinter/cli/io/DefaultConsoleOutput.java#printError"]}
{"id": "C57", "title": "Missing CLI target", "statement": "If the target does not exist, the CLI prints '[ERROR] Path not found: <absolute path>' on standard error, nothing on standard output (debug off), reads no options file and exits with 1.", "quantifier": "all missing targets and option arguments", "why_tests_cant": "All names, including '%'.", "anchors": ["jfiletreeprettyprinter-cli/src/main/java/io/github/computerdaddyguy/jfiletreeprettyprinter/cli/PrettyPrintCommand.java#call"]}
{"id": "C58", "title": "Debug dump of options is faithful", "statement": "The debug text block of an options record lists every non-null component exactly once, in declaration order, nested with two more spaces of indentation per level, and omits null components.", "quantifier": "all record values (arbitrary nesting)", "why_tests_cant": "Unbounded nesting.", "anchors": ["jfiletreeprettyprinter-cli/src/main/java/io/github/computerdaddyguy/jfiletreeprettyprinter/cli/RecordUtils.java#toTextBlock"]}
{"id": "C59", "title": "Non-positive max depth prints the root and a marker", "statement": "With maxDepth <= 0, printing a directory never opens it and returns exactly two lines: the directory's label and one '...' child, whatever it contains.", "quantifier": "all maxDepth <= 0, all directories, all file-system behaviours, all other options", "why_tests_cant": "The claim is about every directory content and every behaviour of the file system, not about one sampled value of maxDepth.", "anchors": ["jfiletreeprettyprinter-core/src/main/java/io/github/computerdaddyguy/jfiletreeprettyprinter/scanner/DefaultPathToTreeScanner.java#handleDirectory"]}
{"id": "C60", "title": "The mark of a file is that of the link target", "statement": "On a file system that does not change, the mark after a displayed non-directory is the one of the file the path resolves to with links followed ('?' for special files, nothing for regular files and directories); the link mark '*' never appears.", "quantifier": "all static file systems, all options", "why_tests_cant": "A test can show one link without its mark; only a proof shows that no file system and no option produces it.", "anchors": ["jfiletreeprettyprinter-core/src/main/java/io/github/computerdaddyguy/jfiletreeprettyprinter/scanner/DefaultPathToTreeScanner.java#handleFile", "jfiletreeprettyprinter-core/src/main/java/io/github/computerdaddyguy/jfiletreeprettyprinter/renderer/DefaultFileFormatter.java"]}
{"id": "C61", "title": "A reached dangling link makes printing fail", "statement": "If a symbolic link whose target does not exist is reached (listed, accepted, above the max depth) and no child limit applies, prettyPrint does not return a tree.", "quantifier": "all file systems with a reached dangling link, all options without child limit", "why_tests_cant": "Reachability is an unbounded notion.", "anchors": ["jfiletreeprettyprinter-core/src/main/java/io/github/computerdaddyguy/jfiletreeprettyprinter/scanner/DefaultPathToTreeScanner.java#handleFile"]}
{"id": "C62", "title": "Printing '/' fails with a NullPointerException", "statement": "On a readable file system prettyPrint of any spelling of '/' throws NullPointerException, after scanning.", "quantifier": "all contents of the root directory, all options with total callbacks, all spellings", "why_tests_cant": "The contents of the root directory are unbounded.", "anchors": ["jfiletreeprettyprinter-core/src/main/java/io/github/computerdaddyguy/jfiletreeprettyprinter/renderer/DefaultFileFormatter.java#formatDirectoryBegin"]}
{"id": "C63", "title": "A child limit does not avoid listing", "statement": "Whatever the child limits are (0 included), a run that returns has opened every displayed directory above the max depth and examined the kind of every name listed in it.", "quantifier": "all file systems that do not change, all options, all histories", "why_tests_cant": "The claim is about every directory of every tree; a test samples one directory.", "anchors": ["jfiletreeprettyprinter-core/src/main/java/io/github/computerdaddyguy/jfiletreeprettyprinter/scanner/DefaultPathToTreeScanner.java#handleDirectoryChildren"]}
{"id": "C64", "title": "Exceptions of a run and their causes", "statement": "Apart from exceptions of the user's own callbacks or comparator, and except for '/', prettyPrint throws only an UncheckedIOException about a path whose attributes could not be read or whose directory stream could not be opened or closed during the run, or a DirectoryIteratorException about a directory that could not be read to its end, or the IllegalArgumentException by which the sort refuses a comparator that breaks its contract (C124).", "quantifier": "all behaviours of the file system, failures at any point", "why_tests_cant": "Failures can be injected at unboundedly many points of a run.", "anchors": ["jfiletreeprettyprinter-core/src/main/java/io/github/computerdaddyguy/jfiletreeprettyprinter/scanner/DefaultPathToTreeScanner.java"]}
{"id": "C65", "title": "No failure other than of the kind test is swallowed", "statement": "If prettyPrint returns, then no attribute read (links followed), no opening, reading or closing of a directory failed during the run, whatever the file system did; only failures of the 'is it a directory' test are not reported.", "quantifier": "all behaviours of the file system", "why_tests_cant": "The points at which a failure can occur are unbounded.", "anchors": ["jfiletreeprettyprinter-core/src/main/java/io/github/computerdaddyguy/jfiletreeprettyprinter/scanner/DefaultPathToTreeScanner.java"]}
{"id": "C66", "title": "Exact value of a built child limit", "statement": "The function built by ChildLimits.builder returns the value of the first rule (in insertion order) whose value is at least 0, evaluating no later rule; if every rule gives a negative value, the value of the last rule; if there is no rule, the default limit that the builder has when the function is called.", "quantifier": "all sequences of builder calls before and after build, all rules (including throwing ones), all paths", "why_tests_cant": "Rule lists and call sequences are unbounded.", "anchors": ["jfiletreeprettyprinter-core/src/main/java/io/github/computerdaddyguy/jfiletreeprettyprinter/options/ChildLimitBuilder.java#build"]}
{"id": "C67", "title": "When a built child limit is independent of its builder", "statement": "A function built by ChildLimits.builder is unaffected by every later call on the builder, if it was built with at least one rule or the default limit is not changed.", "quantifier": "all sequences of builder calls before and after build", "why_tests_cant": "Later call sequences are unbounded.", "anchors": ["jfiletreeprettyprinter-core/src/main/java/io/github/computerdaddyguy/jfiletreeprettyprinter/options/ChildLimitBuilder.java#build"]}
{"id": "C68", "title": "Order displayed with sort(BY_FILE_SIZE)", "statement": "With sort(BY_FILE_SIZE) the children of every displayed directory are in ascending order of size, directories counting as 0, and equal sizes in order of names: directories precede non-empty files but mix with empty files.", "quantifier": "all file systems that do not change, all other options", "why_tests_cant": "Directory contents are unbounded.", "anchors": ["jfiletreeprettyprinter-core/src/main/java/io/github/computerdaddyguy/jfiletreeprettyprinter/options/PathSorts.java#BY_FILE_SIZE", "jfiletreeprettyprinter-core/src/main/java/io/github/computerdaddyguy/jfiletreeprettyprinter/options/PrettyPrintOptions.java#sort"]}
{"id": "C69", "title": "Path seen by the absolute-path matcher", "statement": "hasAbsolutePathMatching(m) applies m to one absolute path naming the same location as the given path: the normalised path if it is absolute, otherwise the current directory followed by the normalised relative path. It is the documented toAbsolutePath().normalize() whenever the path is absolute or does not lead out of the current directory through '..'.", "quantifier": "all paths, all current directories, all matchers", "why_tests_cant": "All spellings of paths.", "anchors": ["jfiletreeprettyprinter-core/src/main/java/io/github/computerdaddyguy/jfiletreeprettyprinter/options/PathMatchers.java#hasAbsolutePathMatching"]}
{"id": "C70", "title": "Library matchers close every directory stream", "statement": "A matcher assembled in any way from the PathMatchers methods and from user matchers that close what they open leaves no directory stream open, last opened closed first, also when listing or closing fails or a user matcher throws; it throws nothing but what the user matchers throw and UncheckedIOException.", "quantifier": "all matcher expressions, all paths, all file-system behaviours", "why_tests_cant": "Failures at any point of a recursive walk, arbitrary nesting of matchers.", "anchors": ["jfiletreeprettyprinter-core/src/main/java/io/github/computerdaddyguy/jfiletreeprettyprinter/options/PathMatchers.java#testDescendants", "jfiletreeprettyprinter-core/src/main/java/io/github/computerdaddyguy/jfiletreeprettyprinter/options/PathMatchers.java#hasAnyDescendantMatching", "jfiletreeprettyprinter-core/src/main/java/io/github/computerdaddyguy/jfiletreeprettyprinter/options/PathMatchers.java#hasSiblingMatching"]}
{"id": "C71", "title": "Keys that differ in case only are rejected at build", "statement": "Building an emoji mapping throws IllegalStateException exactly when two keys of one kind (directory names, file names, file extensions) have the same lower case, the last value set for a key being the one that counts; otherwise it returns a mapping.", "quantifier": "all sequences of builder calls, all locales", "why_tests_cant": "All key sets and all orders of calls.", "anchors": ["jfiletreeprettyprinter-core/src/main/java/io/github/computerdaddyguy/jfiletreeprettyprinter/options/DefaultEmojiMappingBuilder.java"]}
{"id": "C72", "title": "What a built emoji mapping shares with its builder", "statement": "A built emoji mapping keeps the names, extensions and default emojis the builder had at build(), and uses the matcher rules of all addFileEmoji/addDirectoryEmoji calls made so far, including those after build(); every other later call on the builder, a second build() included, has no effect on it.", "quantifier": "all builder call histories before and after build, all paths, all file systems", "why_tests_cant": "All interleavings of builder calls with uses of the mapping.", "anchors": ["jfiletreeprettyprinter-core/src/main/java/io/github/computerdaddyguy/jfiletreeprettyprinter/options/DefaultEmojiMappingBuilder.java"]}
{"id": "C73", "title": "Default emojis", "statement": "In every locale that leaves the default keys unchanged when lower-casing, the default mapping gives each directory the folder emoji, and any other path the emoji listed for its lower-cased name, otherwise the one listed for the longest extension of its lower-cased name, otherwise the file emoji; it reads nothing but the kind of the path.", "quantifier": "all paths, all such locales, all file systems", "why_tests_cant": "All file names.", "anchors": ["jfiletreeprettyprinter-core/src/main/java/io/github/computerdaddyguy/jfiletreeprettyprinter/options/DefaultEmojiMappingBuilder.java"]}
{"id": "C74", "title": "What a built printer shares with its options object", "statement": "A built printer prints as if built with the tree format and emoji mapping the builder's options object had at build(), and with all other options (limits, depth, order, filters, compaction, extensions) as that same object has them at the time of the call, whether it was changed directly, through the builder or through another builder using it.", "quantifier": "all sequences of creating, setting, customising and building, all printers, all paths, all file systems", "why_tests_cant": "All interleavings and all sharing of options objects.", "anchors": ["jfiletreeprettyprinter-core/src/main/java/io/github/computerdaddyguy/jfiletreeprettyprinter/FileTreePrettyPrinterBuilder.java#build", "jfiletreeprettyprinter-core/src/main/java/io/github/computerdaddyguy/jfiletreeprettyprinter/renderer/LineRenderer.java#create", "jfiletreeprettyprinter-core/src/main/java/io/github/computerdaddyguy/jfiletreeprettyprinter/scanner/DefaultPathToTreeScanner.java"]}
{"id": "C75", "title": "When the CLI prints exactly the tree", "statement": "With debug off, an existing target and options in effect for which prettyPrint returns a string, the CLI exits with 0 or 1; it exits with 0, writes exactly that string and a line separator to standard output and nothing to standard error if and only if the string contains no '%'.", "quantifier": "all targets, option files, trees and file names, all prior output", "why_tests_cant": "All names; format directives of any shape.", "anchors": ["jfiletreeprettyprinter-cli/src/main/java/io/github/computerdaddyguy/jfiletreeprettyprinter/cli/PrettyPrintCommand.java#call", "jfiletreeprettyprinter-cli/src/main/java/io/github/computerdaddyguy/jfiletreeprettyprinter/cli/io/DefaultConsoleOutput.java#printfln"]}
{"id": "C76", "title": "What a failing CLI run reports", "statement": "The CLI's exit code is always 0 or 1. When the options file is missing or defective, cannot be mapped, or prettyPrint throws, it is 1, nothing is written to standard output, and, if the message contains no '%', standard error gets '[ERROR] ', the message and a line separator.", "quantifier": "all failures, options files and path names; the exit code in all circumstances, debug mode included", "why_tests_cant": "Failures at any point, messages containing user-controlled names.", "anchors": ["jfiletreeprettyprinter-cli/src/main/java/io/github/computerdaddyguy/jfiletreeprettyprinter/cli/exception/DefaultExecutionExceptionHandler.java", "jfiletreeprettyprinter-cli/src/main/java/io/github/computerdaddyguy/jfiletreeprettyprinter/cli/io/DefaultConsoleOutput.java#printError", "jfiletreeprettyprinter-cli/src/main/java/io/github/computerdaddyguy/jfiletreeprettyprinter/cli/PrettyPrintCommand.java#call"]}
{"id": "C77", "title": "Meaning of a valid options document", "statement": "Mapping a valid options document yields options in which every absent field has its default, every matcher denotes the corresponding predicate of the path relative to the target, the line extension is that of the first matching item, and the child limit is that of the first matching item whose limit is not negative, otherwise there is none. Without negative limits that is the first matching item.", "quantifier": "all valid option documents, all targets and all paths below them", "why_tests_cant": "Recursive matcher documents of any depth.", "anchors": ["jfiletreeprettyprinter-cli/src/main/java/io/github/computerdaddyguy/jfiletreeprettyprinter/cli/options/mapper/DefaultExternalOptionsMapper.java#mapToOptions", "jfiletreeprettyprinter-cli/src/main/java/io/github/computerdaddyguy/jfiletreeprettyprinter/cli/options/mapper/DefaultExternalOptionsMapper.java#mapMatcher"]}
{"id": "C78", "title": "Which options documents are accepted", "statement": "An options document passes validation exactly if: a static child limit has a number; a dynamic one is a non-empty list of items that all have a number and a matcher; line extensions all have a text (possibly empty) and a matcher; every matcher, at any depth, is complete: alwaysTrue, alwaysFalse, a combination of a non-empty list of complete matchers, or a glob matcher with a non-empty glob; filter matchers may be absent. Whether globs are well formed is not examined.", "quantifier": "all documents, matchers of any nesting", "why_tests_cant": "Documents are recursive; one missing constraint annotation at any level would let a null through.", "anchors": ["jfiletreeprettyprinter-cli/src/main/java/io/github/computerdaddyguy/jfiletreeprettyprinter/cli/options/model/Matcher.java", "jfiletreeprettyprinter-cli/src/main/java/io/github/computerdaddyguy/jfiletreeprettyprinter/cli/options/model/ChildLimit.java", "jfiletreeprettyprinter-cli/src/main/java/io/github/computerdaddyguy/jfiletreeprettyprinter/cli/options/model/Filter.java", "jfiletreeprettyprinter-cli/src/main/java/io/github/computerdaddyguy/jfiletreeprettyprinter/cli/options/model/LineExtension.java", "jfiletreeprettyprinter-cli/src/main/java/io/github/computerdaddyguy/jfiletreeprettyprinter/cli/options/reader/SimpleExternalOptionsReader.java#validate"]}
{"id": "C79", "title": "Kind matchers do not follow links", "statement": "isDirectory, isRegularFile and isSymbolicLink answer true exactly if the path itself, links not followed, is of that kind; isFile answers true exactly if the path is not a directory, so also for links to directories, for other kinds and for paths that cannot be read. Each reads the attributes once and never throws.", "quantifier": "all paths, all states of the file system", "why_tests_cant": "All kinds, all states, including unreadable and vanished paths.", "anchors": ["jfiletreeprettyprinter-core/src/main/java/io/github/computerdaddyguy/jfiletreeprettyprinter/options/PathMatchers.java#isDirectory", "jfiletreeprettyprinter-core/src/main/java/io/github/computerdaddyguy/jfiletreeprettyprinter/options/PathMatchers.java#isFile", "jfiletreeprettyprinter-core/src/main/java/io/github/computerdaddyguy/jfiletreeprettyprinter/options/PathMatchers.java#isRegularFile", "jfiletreeprettyprinter-core/src/main/java/io/github/computerdaddyguy/jfiletreeprettyprinter/options/PathMatchers.java#isSymbolicLink"]}
{"id": "C80", "title": "An ellipsis tells what was left out", "statement": "A '...' line appears in a directory only if something in it was left out, and the line of a directory cut by the maximal depth differs from that of a directory cut by its child limit.", "quantifier": "all file systems and options", "why_tests_cant": "Needs all combinations of limits, depths and empty directories.", "anchors": ["jfiletreeprettyprinter-core/src/main/java/io/github/computerdaddyguy/jfiletreeprettyprinter/scanner/DefaultPathToTreeScanner.java#handleDirectory", "jfiletreeprettyprinter-core/src/main/java/io/github/computerdaddyguy/jfiletreeprettyprinter/renderer/DefaultFileFormatter.java", "README.md#L350"]}
{"id": "C81", "title": "Debug mode changes nothing but its messages", "statement": "With --debug the exit code and the printed tree are the same as without.", "quantifier": "all targets, options files and path names", "why_tests_cant": "All path names; any failure of a debug message.", "anchors": ["jfiletreeprettyprinter-cli/src/main/java/io/github/computerdaddyguy/jfiletreeprettyprinter/cli/io/DefaultConsoleOutput.java#printDebug", "jfiletreeprettyprinter-cli/src/main/java/io/github/computerdaddyguy/jfiletreeprettyprinter/cli/options/reader/FallbackExternalOptionsReader.java"]}
{"id": "C82", "title": "What debug mode prints", "statement": "If an options file is given explicitly, or the paths of the target and the home directory contain no '%': with --debug the exit code, the accesses to the file system and standard error are the same as without, and standard output is what it is without, preceded by one '[DEBUG] ' line or block per step: the target, every missing fallback file, the file found, its content, and that it is valid.", "quantifier": "all targets, options files and their states, prior output", "why_tests_cant": "Relates two runs over all file systems.", "anchors": ["jfiletreeprettyprinter-cli/src/main/java/io/github/computerdaddyguy/jfiletreeprettyprinter/cli/io/DefaultConsoleOutput.java#printDebug", "jfiletreeprettyprinter-cli/src/main/java/io/github/computerdaddyguy/jfiletreeprettyprinter/cli/options/reader/FallbackExternalOptionsReader.java", "jfiletreeprettyprinter-cli/src/main/java/io/github/computerdaddyguy/jfiletreeprettyprinter/cli/options/reader/SimpleExternalOptionsReader.java", "jfiletreeprettyprinter-cli/src/main/java/io/github/computerdaddyguy/jfiletreeprettyprinter/cli/PrettyPrintCommand.java#call"]}
{"id": "C83", "title": "The debug text tells what was read", "statement": "Two accepted options documents with the same debug text are the same document, as long as their globs and extension texts contain no character of the line separator: every field, number, glob, matcher and its nesting can be read off the text.", "quantifier": "all pairs of accepted documents, all line separators made of control characters", "why_tests_cant": "Compares all pairs of recursive documents; texts may contain anything, quotes and brackets included.", "anchors": ["jfiletreeprettyprinter-cli/src/main/java/io/github/computerdaddyguy/jfiletreeprettyprinter/cli/RecordUtils.java#toTextBlock", "jfiletreeprettyprinter-cli/src/main/java/io/github/computerdaddyguy/jfiletreeprettyprinter/cli/options/model/ExternalOptions.java", "jfiletreeprettyprinter-cli/src/main/java/io/github/computerdaddyguy/jfiletreeprettyprinter/cli/options/model/Matcher.java", "jfiletreeprettyprinter-cli/src/main/java/io/github/computerdaddyguy/jfiletreeprettyprinter/cli/options/model/ChildLimit.java", "jfiletreeprettyprinter-cli/src/main/java/io/github/computerdaddyguy/jfiletreeprettyprinter/cli/options/reader/SimpleExternalOptionsReader.java"]}
{"id": "C84", "title": "The text tells names and kinds", "statement": "With neither emojis nor extensions, the printed text tells the names of everything that is shown, which entries are special files, and where entries were left out: runs that show something else in this respect print something else.", "quantifier": "all pairs of runs with the same tree format, all file names", "why_tests_cant": "Compares all pairs of trees and all names, including names that look like other lines.", "anchors": ["jfiletreeprettyprinter-core/src/main/java/io/github/computerdaddyguy/jfiletreeprettyprinter/renderer/DefaultFileFormatter.java#formatFile", "jfiletreeprettyprinter-core/src/main/java/io/github/computerdaddyguy/jfiletreeprettyprinter/renderer/DefaultFileFormatter.java#formatChildLimitReached", "jfiletreeprettyprinter-core/src/main/java/io/github/computerdaddyguy/jfiletreeprettyprinter/renderer/DefaultTreeEntryRenderer.java"]}
{"id": "C85", "title": "When the text tells names and kinds", "statement": "If no shown name contains a line break and no shown file is named '...' or has a name ending in '*' or '?', the printed text (without emojis and extensions) determines the names of everything shown, also of directories merged on one line, the marks of special files, the '...' lines and the nesting.", "quantifier": "all pairs of runs with the same tree format (distinguishable symbols), all such names", "why_tests_cant": "Compares all pairs of trees, compacted or not.", "anchors": ["jfiletreeprettyprinter-core/src/main/java/io/github/computerdaddyguy/jfiletreeprettyprinter/renderer/DefaultFileFormatter.java#formatDirectoryBegin", "jfiletreeprettyprinter-core/src/main/java/io/github/computerdaddyguy/jfiletreeprettyprinter/renderer/DefaultFileFormatter.java#formatFile", "jfiletreeprettyprinter-core/src/main/java/io/github/computerdaddyguy/jfiletreeprettyprinter/renderer/DefaultTreeEntryRenderer.java"]}
{"id": "C86", "title": "A run returns exactly when what it shows can be read", "statement": "On a file system that does not change, with callbacks that return, prettyPrint returns exactly when everything it has to show can be read (directories above the maximal depth listed, attributes of other files read), and then prints that tree; what a filter, a child limit or the depth hides need not be readable.", "quantifier": "all file systems, options, orders, start paths other than '/'", "why_tests_cant": "Quantifies over all trees and all placements of unreadable entries, in both directions.", "anchors": ["jfiletreeprettyprinter-core/src/main/java/io/github/computerdaddyguy/jfiletreeprettyprinter/scanner/DefaultPathToTreeScanner.java", "jfiletreeprettyprinter-core/src/main/java/io/github/computerdaddyguy/jfiletreeprettyprinter/FileTreePrettyPrinter.java", "jfiletreeprettyprinter-core/src/main/java/io/github/computerdaddyguy/jfiletreeprettyprinter/DefaultFileTreePrettyPrinter.java"]}
{"id": "C87", "title": "A smaller depth only cuts", "statement": "Lowering the maximal depth never changes what is shown above the cut: the tree shown is the deeper one with '...' below the directories at the new depth, and printing cannot start to fail.", "quantifier": "all file systems, options, pairs of depths", "why_tests_cant": "Compares two runs for all trees and all depths.", "anchors": ["jfiletreeprettyprinter-core/src/main/java/io/github/computerdaddyguy/jfiletreeprettyprinter/scanner/DefaultPathToTreeScanner.java#handleDirectory", "jfiletreeprettyprinter-core/src/main/java/io/github/computerdaddyguy/jfiletreeprettyprinter/options/PrettyPrintOptions.java#withMaxDepth"]}
{"id": "C88", "title": "Stricter child limits only prune", "statement": "With child limits at least as strict everywhere, the tree shown is the former one in which each directory keeps its first children, followed by the marker exactly where something was left out, and printing cannot start to fail.", "quantifier": "all file systems, options, pairs of limit functions", "why_tests_cant": "Compares two runs for all trees and all limit functions, also when both are limited.", "anchors": ["jfiletreeprettyprinter-core/src/main/java/io/github/computerdaddyguy/jfiletreeprettyprinter/scanner/DefaultPathToTreeScanner.java#handleDirectoryChildren", "jfiletreeprettyprinter-core/src/main/java/io/github/computerdaddyguy/jfiletreeprettyprinter/options/PrettyPrintOptions.java#withChildLimit"]}
{"id": "C89", "title": "Stricter filters only remove", "statement": "Without child limits, adding conditions to the directory and file filters shows the former tree without the rejected entries and what is below rejected directories; nothing else changes or moves, and printing cannot start to fail.", "quantifier": "all file systems, options, pairs of filters", "why_tests_cant": "Compares two runs for all trees and all filters.", "anchors": ["jfiletreeprettyprinter-core/src/main/java/io/github/computerdaddyguy/jfiletreeprettyprinter/scanner/DefaultPathToTreeScanner.java#handleDirectoryChildren", "jfiletreeprettyprinter-core/src/main/java/io/github/computerdaddyguy/jfiletreeprettyprinter/options/PrettyPrintOptions.java#filterDirectories", "jfiletreeprettyprinter-core/src/main/java/io/github/computerdaddyguy/jfiletreeprettyprinter/options/PrettyPrintOptions.java#filterFiles"]}
{"id": "C90", "title": "Printing a part of a tree", "statement": "Printing a directory that is shown k levels below the start, with a maximal depth lower by k, succeeds and prints the part of the tree that is shown for it.", "quantifier": "all file systems, options, starts, and all directories shown at any level", "why_tests_cant": "Compares the run with runs started at each of the directories it shows.", "anchors": ["jfiletreeprettyprinter-core/src/main/java/io/github/computerdaddyguy/jfiletreeprettyprinter/scanner/DefaultPathToTreeScanner.java", "jfiletreeprettyprinter-core/src/main/java/io/github/computerdaddyguy/jfiletreeprettyprinter/DefaultFileTreePrettyPrinter.java"]}
{"id": "C91", "title": "Copies print alike", "statement": "Two directories of the same name and content print the same text wherever they are, in whatever order the operating system lists them and whatever the process did before, provided the options treat what is inside alike.", "quantifier": "all pairs of file systems, locations, options and histories", "why_tests_cant": "Compares two runs in two file systems.", "anchors": ["jfiletreeprettyprinter-core/src/main/java/io/github/computerdaddyguy/jfiletreeprettyprinter/scanner/DefaultPathToTreeScanner.java", "jfiletreeprettyprinter-core/src/main/java/io/github/computerdaddyguy/jfiletreeprettyprinter/renderer/DefaultTreeEntryRenderer.java", "jfiletreeprettyprinter-core/src/main/java/io/github/computerdaddyguy/jfiletreeprettyprinter/DefaultFileTreePrettyPrinter.java"]}
{"id": "C92", "title": "Built-in orders as displayed", "statement": "With sort(DIRECTORY_FIRST) the entries shown in every directory are its sub-directories by name, then its files by name; with DIRECTORY_LAST the files come first; with BY_EXTENSION the directories by name, then the files without extension regardless of case, then the files by extension from the last one to the first. A symbolic link to a directory counts as a file, and the '...' line stays last.", "quantifier": "all file systems, all other options, all names", "why_tests_cant": "Quantifies over all trees and names, and relates the comparator, the sort, the limit and what counts as a directory.", "anchors": ["jfiletreeprettyprinter-core/src/main/java/io/github/computerdaddyguy/jfiletreeprettyprinter/options/PathSorts.java", "jfiletreeprettyprinter-core/src/main/java/io/github/computerdaddyguy/jfiletreeprettyprinter/scanner/DefaultPathToTreeScanner.java#handleDirectoryChildren"]}
{"id": "C93", "title": "Built sort rules as displayed", "statement": "With a comparator of PathSorts.builder() the entries of every directory are shown by the precedence that the first deciding rule gives and then by name; entries matched by a leading addFirst are shown first, by name, and those matched by a leading addLast are shown last, provided no later rule uses the extreme precedence.", "quantifier": "all file systems, rules, build calls, all other options", "why_tests_cant": "Quantifies over all sequences of rules and all trees.", "anchors": ["jfiletreeprettyprinter-core/src/main/java/io/github/computerdaddyguy/jfiletreeprettyprinter/options/PathSortBuilder.java", "jfiletreeprettyprinter-core/src/main/java/io/github/computerdaddyguy/jfiletreeprettyprinter/scanner/DefaultPathToTreeScanner.java#handleDirectoryChildren"]}
{"id": "C94", "title": "What is displayed was answered", "statement": "Even if the file system changes while the printer runs: every directory shown above the maximal depth was found to be a directory and opened at once, the entries shown in it are those names delivered by that opening that passed the filters given the answers about them, in the configured order and within the limit, with '...' exactly when some are left out; every file shown was found not to be a directory and shows the attributes read right then.", "quantifier": "all worlds (every answer may depend on everything that happened before), options, start paths, returning runs", "why_tests_cant": "Quantifies over all interleavings of the run with changes of the file system.", "anchors": ["jfiletreeprettyprinter-core/src/main/java/io/github/computerdaddyguy/jfiletreeprettyprinter/scanner/DefaultPathToTreeScanner.java#handle", "jfiletreeprettyprinter-core/src/main/java/io/github/computerdaddyguy/jfiletreeprettyprinter/scanner/DefaultPathToTreeScanner.java#handleDirectory", "jfiletreeprettyprinter-core/src/main/java/io/github/computerdaddyguy/jfiletreeprettyprinter/scanner/DefaultPathToTreeScanner.java#handleDirectoryChildren", "jfiletreeprettyprinter-core/src/main/java/io/github/computerdaddyguy/jfiletreeprettyprinter/scanner/DefaultPathToTreeScanner.java#handleFile"]}
{"id": "C95", "title": "The text is a snapshot", "statement": "The text shows the file system as it was at some moment during the run.", "quantifier": "all runs on file systems that may change", "why_tests_cant": "Depends on the moments at which the file system changes.", "anchors": ["jfiletreeprettyprinter-core/src/main/java/io/github/computerdaddyguy/jfiletreeprettyprinter/scanner/DefaultPathToTreeScanner.java"]}
{"id": "C96", "title": "What matchers do to the file system", "statement": "A matcher assembled with PathMatchers in any way, but without those that look for children, descendants or siblings, never opens a directory and never reads attributes other than the kind of a path (links not followed), and it throws nothing that the matchers supplied by the user do not throw. Any matcher assembled with PathMatchers asks the file system anew whenever it is applied: what it is told is what the file system answers at that moment.", "quantifier": "all matchers assembled with PathMatchers, all worlds, all paths", "why_tests_cant": "Nesting is unbounded and the file system may change between two questions.", "anchors": ["jfiletreeprettyprinter-core/src/main/java/io/github/computerdaddyguy/jfiletreeprettyprinter/options/PathMatchers.java"]}
{"id": "C97", "title": "Globs on whole paths", "statement": "hasAbsolutePathMatchingGlob and hasRelativePathMatchingGlob reject a malformed glob when the matcher is created. The glob '*' matches every path. Any other glob is applied to an absolute spelling of the tested path (without '.' and '..' unless the path leads out of the current directory), respectively to what remains of the path after the reference, or to the '..' leading out of the reference followed by the rest. No file is accessed.", "quantifier": "all glob languages, all globs, all references, all spellings of paths, all current directories", "why_tests_cant": "All spellings of paths and references.", "anchors": ["jfiletreeprettyprinter-core/src/main/java/io/github/computerdaddyguy/jfiletreeprettyprinter/options/PathMatchers.java#hasAbsolutePathMatchingGlob", "jfiletreeprettyprinter-core/src/main/java/io/github/computerdaddyguy/jfiletreeprettyprinter/options/PathMatchers.java#hasRelativePathMatchingGlob"]}
{"id": "C98", "title": "What the parts of the library do to the file system", "statement": "If a printer is configured only with what the library offers (filters from PathMatchers, comparators from PathSorts, and functions built with the sort, child-limit, line-extension and emoji builders, whatever is done with the builders later), then the configuration makes the printer ask for kinds of paths and lengths of files at most, unless matchers on children, descendants or siblings are used; these also read directories, but close everything they open. No part throws anything but UncheckedIOException, and no part remembers answers from earlier calls. Parts supplied by the user are allowed as long as they respect the same limits.", "quantifier": "all combinations of library parts, all sequences of builder and setter calls, all worlds", "why_tests_cant": "All combinations of parts and builder histories; effects on the file system are not visible in the output.", "anchors": ["jfiletreeprettyprinter-core/src/main/java/io/github/computerdaddyguy/jfiletreeprettyprinter/options/PathSorts.java", "jfiletreeprettyprinter-core/src/main/java/io/github/computerdaddyguy/jfiletreeprettyprinter/options/PathSortBuilder.java", "jfiletreeprettyprinter-core/src/main/java/io/github/computerdaddyguy/jfiletreeprettyprinter/options/ChildLimitBuilder.java", "jfiletreeprettyprinter-core/src/main/java/io/github/computerdaddyguy/jfiletreeprettyprinter/options/LineExtensionBuilder.java", "jfiletreeprettyprinter-core/src/main/java/io/github/computerdaddyguy/jfiletreeprettyprinter/options/DefaultEmojiMappingBuilder.java", "jfiletreeprettyprinter-core/src/main/java/io/github/computerdaddyguy/jfiletreeprettyprinter/options/PathMatchers.java", "jfiletreeprettyprinter-core/src/main/java/io/github/computerdaddyguy/jfiletreeprettyprinter/options/PrettyPrintOptions.java"]}
{"id": "C99", "title": "A file that follows the published schema is accepted", "statement": "The README says that an options file must comply with the published JSON schema. Every options file that does is accepted by the command.", "quantifier": "all options files conforming to the schema", "why_tests_cant": "Schema and annotations are two descriptions of infinitely many files; tests try a dozen files.", "anchors": ["jfiletreeprettyprinter-cli/src/main/resources/schemas/jfiletreeprettyprinter-options.schema.json", "jfiletreeprettyprinter-cli/src/main/java/io/github/computerdaddyguy/jfiletreeprettyprinter/cli/options/model/ExternalOptions.java", "jfiletreeprettyprinter-cli/src/main/java/io/github/computerdaddyguy/jfiletreeprettyprinter/cli/options/model/ChildLimit.java", "jfiletreeprettyprinter-cli/src/main/java/io/github/computerdaddyguy/jfiletreeprettyprinter/cli/options/model/Filter.java", "jfiletreeprettyprinter-cli/src/main/java/io/github/computerdaddyguy/jfiletreeprettyprinter/cli/options/model/LineExtension.java", "jfiletreeprettyprinter-cli/src/main/java/io/github/computerdaddyguy/jfiletreeprettyprinter/cli/options/model/Matcher.java", "jfiletreeprettyprinter-cli/src/main/java/io/github/computerdaddyguy/jfiletreeprettyprinter/cli/options/reader/SimpleExternalOptionsReader.java", "README.md"]}
{"id": "C100", "title": "Which files that follow the schema are accepted", "statement": "An options file that conforms to the published schema, repeats no key and writes integers without fraction is accepted exactly if it contains no empty glob, no empty list of matchers or limits, and no number outside the range of int. It is then read as the document written in it, and the command uses that document; otherwise the command fails with exit code 1 and prints nothing to standard output.", "quantifier": "all conforming options files, nested to any depth; all command lines naming one", "why_tests_cant": "Infinitely many files, of any size and nesting; agreement of schema, annotations and validation cannot be sampled.", "anchors": ["jfiletreeprettyprinter-cli/src/main/resources/schemas/jfiletreeprettyprinter-options.schema.json", "jfiletreeprettyprinter-cli/src/main/java/io/github/computerdaddyguy/jfiletreeprettyprinter/cli/options/model/ExternalOptions.java", "jfiletreeprettyprinter-cli/src/main/java/io/github/computerdaddyguy/jfiletreeprettyprinter/cli/options/model/ChildLimit.java", "jfiletreeprettyprinter-cli/src/main/java/io/github/computerdaddyguy/jfiletreeprettyprinter/cli/options/model/Filter.java", "jfiletreeprettyprinter-cli/src/main/java/io/github/computerdaddyguy/jfiletreeprettyprinter/cli/options/model/LineExtension.java", "jfiletreeprettyprinter-cli/src/main/java/io/github/computerdaddyguy/jfiletreeprettyprinter/cli/options/model/Matcher.java", "jfiletreeprettyprinter-cli/src/main/java/io/github/computerdaddyguy/jfiletreeprettyprinter/cli/options/reader/SimpleExternalOptionsReader.java"]}
{"id": "C101", "title": "A file that does not follow the published schema is refused", "statement": "The README says that an options file must comply with the published JSON schema. A file that does not, for example because the name of an option is misspelt, is refused with an error.", "quantifier": "all options files that do not conform to the schema", "why_tests_cant": "There are infinitely many ways not to conform.", "anchors": ["jfiletreeprettyprinter-cli/src/main/resources/schemas/jfiletreeprettyprinter-options.schema.json", "jfiletreeprettyprinter-cli/src/main/java/io/github/computerdaddyguy/jfiletreeprettyprinter/cli/options/model/ExternalOptions.java", "jfiletreeprettyprinter-cli/src/main/java/io/github/computerdaddyguy/jfiletreeprettyprinter/cli/options/model/ChildLimit.java", "jfiletreeprettyprinter-cli/src/main/java/io/github/computerdaddyguy/jfiletreeprettyprinter/cli/options/model/Filter.java", "jfiletreeprettyprinter-cli/src/main/java/io/github/computerdaddyguy/jfiletreeprettyprinter/cli/options/model/LineExtension.java", "jfiletreeprettyprinter-cli/src/main/java/io/github/computerdaddyguy/jfiletreeprettyprinter/cli/options/model/Matcher.java", "jfiletreeprettyprinter-cli/src/main/java/io/github/computerdaddyguy/jfiletreeprettyprinter/cli/options/reader/SimpleExternalOptionsReader.java", "README.md"]}
{"id": "C102", "title": "What is read is what is written", "statement": "For an options file without repeated keys and any valid document: the file is certain to be read as that document exactly if every setting of the document is written in the file under the documented key with the documented shape, and every setting the document lacks is missing or null in the file. The command then uses that document.", "quantifier": "all options files, all valid documents", "why_tests_cant": "Infinitely many files and documents; the converse (nothing else is read) is about all files.", "anchors": ["jfiletreeprettyprinter-cli/src/main/resources/schemas/jfiletreeprettyprinter-options.schema.json", "jfiletreeprettyprinter-cli/src/main/java/io/github/computerdaddyguy/jfiletreeprettyprinter/cli/options/model/ExternalOptions.java", "jfiletreeprettyprinter-cli/src/main/java/io/github/computerdaddyguy/jfiletreeprettyprinter/cli/options/model/ChildLimit.java", "jfiletreeprettyprinter-cli/src/main/java/io/github/computerdaddyguy/jfiletreeprettyprinter/cli/options/model/Filter.java", "jfiletreeprettyprinter-cli/src/main/java/io/github/computerdaddyguy/jfiletreeprettyprinter/cli/options/model/LineExtension.java", "jfiletreeprettyprinter-cli/src/main/java/io/github/computerdaddyguy/jfiletreeprettyprinter/cli/options/model/Matcher.java", "jfiletreeprettyprinter-cli/src/main/java/io/github/computerdaddyguy/jfiletreeprettyprinter/cli/options/reader/SimpleExternalOptionsReader.java"]}
{"id": "C103", "title": "Other keys and the order of keys have no effect", "statement": "Adding keys that no option uses to an options file, anywhere in it and with any values, and reordering keys, does not change how the file is read, including whether it is refused.", "quantifier": "all options files, all added keys and values, all orders", "why_tests_cant": "All positions, keys and values.", "anchors": ["jfiletreeprettyprinter-cli/src/main/resources/schemas/jfiletreeprettyprinter-options.schema.json", "jfiletreeprettyprinter-cli/src/main/java/io/github/computerdaddyguy/jfiletreeprettyprinter/cli/options/model/ExternalOptions.java", "jfiletreeprettyprinter-cli/src/main/java/io/github/computerdaddyguy/jfiletreeprettyprinter/cli/options/model/ChildLimit.java", "jfiletreeprettyprinter-cli/src/main/java/io/github/computerdaddyguy/jfiletreeprettyprinter/cli/options/model/Filter.java", "jfiletreeprettyprinter-cli/src/main/java/io/github/computerdaddyguy/jfiletreeprettyprinter/cli/options/model/LineExtension.java", "jfiletreeprettyprinter-cli/src/main/java/io/github/computerdaddyguy/jfiletreeprettyprinter/cli/options/model/Matcher.java", "jfiletreeprettyprinter-cli/src/main/java/io/github/computerdaddyguy/jfiletreeprettyprinter/cli/options/reader/SimpleExternalOptionsReader.java"]}
{"id": "C104", "title": "Name globs with stars", "statement": "hasNameMatchingGlob with texts separated by single stars (no other special character) is true of a path exactly if its last name is these texts in order with anything in between. In particular the globs s, s*, *s and *.s give the same answers as hasName(s), hasNameStartingWith(s), hasNameEndingWith(s) and hasExtension(s).", "quantifier": "all names, paths, and texts without unpaired surrogates; file systems with the JDK's Unix glob language", "why_tests_cant": "Infinitely many globs and names; the tests try a handful.", "anchors": ["jfiletreeprettyprinter-core/src/main/java/io/github/computerdaddyguy/jfiletreeprettyprinter/options/PathMatchers.java"]}
{"id": "C105", "title": "Escaped names, and names with a slash", "statement": "hasNameMatchingGlob of a name with a backslash before every character answers as hasName of that name, whatever characters the name contains. A name glob containing '/' (and neither '[' nor '{') is true of no name.", "quantifier": "all names, paths and texts; file systems with the JDK's Unix glob language", "why_tests_cant": "Infinitely many names with special characters.", "anchors": ["jfiletreeprettyprinter-core/src/main/java/io/github/computerdaddyguy/jfiletreeprettyprinter/options/PathMatchers.java"]}
{"id": "C106", "title": "Relative globs without wildcards", "statement": "hasRelativePathMatchingGlob(ref, \"a/b/c\") with no wildcards (or escaped ones) is true of exactly the paths that name the location a/b/c below ref, however ref and the path are written.", "quantifier": "all names, paths and texts; file systems with the JDK's Unix glob language", "why_tests_cant": "All references, spellings and locations.", "anchors": ["jfiletreeprettyprinter-core/src/main/java/io/github/computerdaddyguy/jfiletreeprettyprinter/options/PathMatchers.java", "README.md"]}
{"id": "C107", "title": "dir/** matches everything below dir", "statement": "hasRelativePathMatchingGlob(ref, \"dir/**\") is true of every path below dir in ref.", "quantifier": "all names, paths and texts; file systems with the JDK's Unix glob language", "why_tests_cant": "All paths at any depth.", "anchors": ["jfiletreeprettyprinter-core/src/main/java/io/github/computerdaddyguy/jfiletreeprettyprinter/options/PathMatchers.java", "README.md"]}
{"id": "C108", "title": "What dir/** matches", "statement": "hasRelativePathMatchingGlob(ref, \"dir/**\") is true of exactly the paths below dir in ref (not dir itself) with no line terminator in the names after dir.", "quantifier": "all names, paths and texts; file systems with the JDK's Unix glob language", "why_tests_cant": "All paths at any depth.", "anchors": ["jfiletreeprettyprinter-core/src/main/java/io/github/computerdaddyguy/jfiletreeprettyprinter/options/PathMatchers.java", "README.md"]}
{"id": "C109", "title": "The globs in the documentation of the matchers", "statement": "The examples documented for hasAbsolutePathMatchingGlob and hasRelativePathMatchingGlob behave as documented, the glob being the one spelled there: true for the Java files, and IllegalArgumentException for a file outside the reference.", "quantifier": "the documented examples", "why_tests_cant": "No test uses the documented globs.", "anchors": ["jfiletreeprettyprinter-core/src/main/java/io/github/computerdaddyguy/jfiletreeprettyprinter/options/PathMatchers.java"]}
{"id": "C110", "title": "Globs starting with two stars", "statement": "The globs **s and **/*s (s without '/') on absolute paths are true of exactly the paths whose last name ends with s, line terminators aside. Relative to a directory, **s is true of exactly the paths whose last name ends with s, and **/*s also, except that it is false of the files directly in the directory; both are true of such paths outside the directory. No exception is thrown.", "quantifier": "all names, paths, and texts without unpaired surrogates; file systems with the JDK's Unix glob language", "why_tests_cant": "All paths, inside and outside the reference, at any depth.", "anchors": ["jfiletreeprettyprinter-core/src/main/java/io/github/computerdaddyguy/jfiletreeprettyprinter/options/PathMatchers.java"]}
{"id": "C111", "title": "A directory filter src/main/java/** keeps the directories below", "statement": "With an options file whose directory filter is of type path with glob src/main/java/** (the example of the README's table), the directories below src/main/java are displayed.", "quantifier": "all directory trees", "why_tests_cant": "All trees.", "anchors": ["jfiletreeprettyprinter-cli/src/main/java/io/github/computerdaddyguy/jfiletreeprettyprinter/cli/options/mapper/DefaultExternalOptionsMapper.java", "jfiletreeprettyprinter-cli/src/main/java/io/github/computerdaddyguy/jfiletreeprettyprinter/cli/options/mapper/ExternalOptionsMapper.java", "README.md"]}
{"id": "C112", "title": "A directory filter with a slash in its glob", "statement": "With an options file whose directory filter is a single glob (of type name or path) containing '/' (and neither '[' nor '{'), no directory is displayed except the root.", "quantifier": "all globs, all directory trees, all other settings of the document", "why_tests_cant": "All trees and globs.", "anchors": ["jfiletreeprettyprinter-cli/src/main/java/io/github/computerdaddyguy/jfiletreeprettyprinter/cli/options/mapper/DefaultExternalOptionsMapper.java", "jfiletreeprettyprinter-cli/src/main/java/io/github/computerdaddyguy/jfiletreeprettyprinter/cli/options/mapper/ExternalOptionsMapper.java", "README.md"]}
{"id": "C113", "title": "The example options file of the README shows the Java files under src/main", "statement": "With the example options file of the README, which filters directories by src/main/** and files by *.java, Java files below src/main are displayed.", "quantifier": "all directory trees", "why_tests_cant": "All trees.", "anchors": ["jfiletreeprettyprinter-cli/src/main/java/io/github/computerdaddyguy/jfiletreeprettyprinter/cli/options/mapper/DefaultExternalOptionsMapper.java", "jfiletreeprettyprinter-cli/src/main/java/io/github/computerdaddyguy/jfiletreeprettyprinter/cli/options/mapper/ExternalOptionsMapper.java", "README.md"]}
{"id": "C114", "title": "What the example options file of the README shows", "statement": "With the example options file of the README the display of a directory consists of the root and the first three, by name, of the files directly in it whose names end with .java, followed by ... if there are more.", "quantifier": "all directory trees, listing orders", "why_tests_cant": "All trees.", "anchors": ["jfiletreeprettyprinter-cli/src/main/java/io/github/computerdaddyguy/jfiletreeprettyprinter/cli/options/mapper/DefaultExternalOptionsMapper.java", "jfiletreeprettyprinter-cli/src/main/java/io/github/computerdaddyguy/jfiletreeprettyprinter/cli/options/mapper/ExternalOptionsMapper.java", "README.md"]}
{"id": "C115", "title": "A document and the files determine the text", "statement": "The text printed with the options mapped from a valid options document is exactly the one that shows the tree the document asks for: depth, filters, limits, extensions, emojis and compaction as written, names in alphabetical order. Such a text exists if the globs are well formed and everything below the target can be read.", "quantifier": "all valid documents, all unchanging file trees, all targets", "why_tests_cant": "All combinations of settings, all trees.", "anchors": ["jfiletreeprettyprinter-cli/src/main/java/io/github/computerdaddyguy/jfiletreeprettyprinter/cli/options/mapper/DefaultExternalOptionsMapper.java", "jfiletreeprettyprinter-cli/src/main/java/io/github/computerdaddyguy/jfiletreeprettyprinter/cli/options/mapper/ExternalOptionsMapper.java", "README.md", "jfiletreeprettyprinter-core/src/main/java/io/github/computerdaddyguy/jfiletreeprettyprinter/DefaultFileTreePrettyPrinter.java"]}
{"id": "C116", "title": "From the command line to standard output", "statement": "For any command line without --debug and any options files: the command writes exactly the text of the tree that the chosen options file (or none) asks for, its format specifiers replaced as in C121, followed by a line separator, and exits with 0; if the text cannot be written so it exits with 1, having written at most its beginning; if a glob is malformed or something to display cannot be read it exits with 1 and writes nothing to standard output. Failures are reported on standard error.", "quantifier": "all command lines, option files, file trees, with or without percent signs in names", "why_tests_cant": "End-to-end composition over all inputs.", "anchors": ["jfiletreeprettyprinter-cli/src/main/java/io/github/computerdaddyguy/jfiletreeprettyprinter/cli/options/mapper/DefaultExternalOptionsMapper.java", "jfiletreeprettyprinter-cli/src/main/java/io/github/computerdaddyguy/jfiletreeprettyprinter/cli/options/mapper/ExternalOptionsMapper.java", "README.md", "jfiletreeprettyprinter-cli/src/main/java/io/github/computerdaddyguy/jfiletreeprettyprinter/cli/PrettyPrintCommand.java"]}
{"id": "C117", "title": "How often the user's functions are called", "statement": "In a run that returns, the child limit function is called exactly once for every displayed directory above the maximal depth, in display order; the directory filter exactly once for every directory found in those directories and the file filter exactly once for everything else found in them, never for the start; the emoji mapping exactly once for every line that stands for a path, from top to bottom. Whatever happens, even if the run fails, the limit and the filters are asked at most once about a path (if no directory lists a name twice), and the emoji calls are an initial part of those.", "quantifier": "all options, start paths and histories; all worlds (unchanging ones for the filters in a returning run)", "why_tests_cant": "Counting calls over all trees, options and failure points.", "anchors": ["jfiletreeprettyprinter-core/src/main/java/io/github/computerdaddyguy/jfiletreeprettyprinter/scanner/DefaultPathToTreeScanner.java", "jfiletreeprettyprinter-core/src/main/java/io/github/computerdaddyguy/jfiletreeprettyprinter/renderer/DefaultTreeEntryRenderer.java"]}
{"id": "C118", "title": "Exactly these accesses to the file system", "statement": "On a file system that does not change and with functions of the user that do not access it, a run that returns makes exactly the following accesses, in this order: the kind of the start; for a file its attributes; for a directory above the maximal depth its opening, the kind of everything in it in listing order, the accesses for its displayed children in display order, and its closing. So there are at most three accesses for everything displayed and one more for everything found in the displayed directories above the maximal depth.", "quantifier": "all unchanging file systems, options, start paths", "why_tests_cant": "The accesses made are invisible in the output and their number depends on the tree.", "anchors": ["jfiletreeprettyprinter-core/src/main/java/io/github/computerdaddyguy/jfiletreeprettyprinter/scanner/DefaultPathToTreeScanner.java"]}
{"id": "C119", "title": "The example programs print what they announce", "statement": "On a Unix machine whose disk does not change, each example program returns exactly one text for its resource directory, whatever is in that directory: the tree with the announced lines (box drawing; ASCII in FileTreeFormat), depth (20; 3 in MaxDepth), children (all; the first 3 in ChildLimitStatic; none of node_modules in ChildLimitDynamic), files and directories (all; in Filtering directories whose name does not end with no_java_file and files whose name ends with .java), order (names; directories first in Sorting), compaction (CompactDirectories), emojis (Emojis) and comments (LineExtension: those of three directories and of .properties files). If everything there can be read there is such a text.", "quantifier": "all contents of the resource directories, all current directories, all unchanging disks", "why_tests_cant": "The tests of the examples run each program on one fixed directory; users copy these programs and run them on their own.", "anchors": ["jfiletreeprettyprinter-examples/src/main/java/io/github/computerdaddyguy/jfiletreeprettyprinter/example/BasicUsage.java", "jfiletreeprettyprinter-examples/src/main/java/io/github/computerdaddyguy/jfiletreeprettyprinter/example/Filtering.java", "jfiletreeprettyprinter-examples/src/main/java/io/github/computerdaddyguy/jfiletreeprettyprinter/example/LineExtension.java", "jfiletreeprettyprinter-examples/src/main/java/io/github/computerdaddyguy/jfiletreeprettyprinter/example/Sorting.java", "jfiletreeprettyprinter-examples/src/main/java/io/github/computerdaddyguy/jfiletreeprettyprinter/example/ChildLimitDynamic.java"]}
{"id": "C120", "title": "ProjectStructure prints the structure of the project", "statement": "Run in a module directory of a project on a disk where every directory can be listed, ProjectStructure returns exactly the text that shows: the directories that contain FileTreePrettyPrinter.java somewhere below them, and the others unless they are hidden, or the project's own target or src, or inside the source directory of a module; no file of the core module but FileTreePrettyPrinter.java, and no hidden file; no child of the cli and examples modules and one of the core module; the core, examples and cli modules, assets and docs first, then other directories, then files, by name; compacted, with the default emojis and the six comments.", "quantifier": "all projects, module directories, unchanging disks", "why_tests_cant": "The test runs the program on the repository itself only, and its expected text depends on whether the core module is built.", "anchors": ["jfiletreeprettyprinter-examples/src/main/java/io/github/computerdaddyguy/jfiletreeprettyprinter/example/ProjectStructure.java"]}
{"id": "C121", "title": "What the CLI writes when a text contains '%'", "statement": "The text of a tree, and every message, is used as a format string without arguments. It can be written if every '%' starts one of the specifiers that need no argument: %n, %%, %<width>% or %-<width>%, each possibly with an argument number; these are replaced (by the line separator, by a padded '%') and everything else is unchanged. If the text prettyPrint returns can be written, the CLI writes it so, followed by a line separator, nothing to standard error, and exits with 0. If not, it exits with 1, standard output has at most a beginning of the text, as written, and the failure is reported. The same holds of the message of any failure on standard error: it is written so, or a beginning of it at most is followed by a stack trace.", "quantifier": "all targets, option files, trees and file names, all failures, all prior output; line separators of Unix and Windows", "why_tests_cant": "File names may contain any sequence of characters after a '%'; the tests use names without '%'.", "anchors": ["jfiletreeprettyprinter-cli/src/main/java/io/github/computerdaddyguy/jfiletreeprettyprinter/cli/io/DefaultConsoleOutput.java"]}
{"id": "C122", "title": "A directory filter that keeps one directory and what is below it", "statement": "With an options file whose directory filter is anyOf the path globs that name every directory on the way from the target to a directory d, and d/** (for a/b: a, a/b and a/b/**), and without child limit, the directories displayed are exactly those on the way to d, d itself and those below it down to the maximum depth (below d, up to the first name with a line terminator), links not being followed; and the files displayed are exactly the files of these directories that the file filter accepts.", "quantifier": "all directories d, all spellings and orders of the globs, all file filters, all directory trees, all other settings of the document", "why_tests_cant": "Every level of the path and every entry below it has to be accepted by a different glob of the list, over unboundedly many trees; the documented single glob (C111) fails in exactly this way and the sample trees of unit tests do not show it.", "anchors": ["jfiletreeprettyprinter-cli/src/main/java/io/github/computerdaddyguy/jfiletreeprettyprinter/cli/options/mapper/DefaultExternalOptionsMapper.java", "jfiletreeprettyprinter-cli/src/main/java/io/github/computerdaddyguy/jfiletreeprettyprinter/cli/options/mapper/ExternalOptionsMapper.java", "README.md"]}
{"id": "C123", "title": "Debug mode when paths contain '%'", "statement": "With --debug and no options file given, for an existing target: the message about a missing fallback file is used as a format string (C121). If every such message can be written, then the exit code, the accesses to the file system and standard error are the same as without --debug, and standard output is what it is without, preceded by the messages, the specifiers in the paths of the missing fallbacks being replaced. Otherwise the command stops at the first message that cannot be written: it exits with 1 and reports the failure on standard error, standard output has the messages before that one and at most a beginning of it, no tree is printed, no options file is loaded, and nothing but the existence of the target and of fallbacks is asked of the file system.", "quantifier": "all targets, current and home directories with any names, all states of the fallback files, all prior output; line separators of Unix and Windows", "why_tests_cant": "The outcome depends on the syntax of format specifiers in any of three paths and on which of the fallbacks exist; tests use paths without '%'.", "anchors": ["jfiletreeprettyprinter-cli/src/main/java/io/github/computerdaddyguy/jfiletreeprettyprinter/cli/io/DefaultConsoleOutput.java#printDebug", "jfiletreeprettyprinter-cli/src/main/java/io/github/computerdaddyguy/jfiletreeprettyprinter/cli/options/reader/FallbackExternalOptionsReader.java", "jfiletreeprettyprinter-cli/src/main/java/io/github/computerdaddyguy/jfiletreeprettyprinter/cli/options/reader/SimpleExternalOptionsReader.java", "jfiletreeprettyprinter-cli/src/main/java/io/github/computerdaddyguy/jfiletreeprettyprinter/cli/PrettyPrintCommand.java#call"]}
{"id": "C124", "title": "When the sort refuses", "statement": "prettyPrint throws an IllegalArgumentException that is not one of the user's own callbacks only if the comparator does not answer as one that honours the contract of java.util.Comparator, and a directory with at least 32 entries was opened. So with a comparator that honours its contract, or in directories of fewer than 32 entries, the sort never fails.", "quantifier": "all options, comparators that may access the file system, log, throw or change their answers; all behaviours of the file system; directories of any size", "why_tests_cant": "The sort (TimSort) merges runs of any number and length, galloping or not, and detects a broken comparator only sometimes.", "anchors": ["jfiletreeprettyprinter-core/src/main/java/io/github/computerdaddyguy/jfiletreeprettyprinter/scanner/DefaultPathToTreeScanner.java#directoryStreamToIterator", "jfiletreeprettyprinter-core/src/main/java/io/github/computerdaddyguy/jfiletreeprettyprinter/options/PrettyPrintOptions.java#sort", "jfiletreeprettyprinter-core/src/main/java/io/github/computerdaddyguy/jfiletreeprettyprinter/options/PathSorts.java#ALPHABETICAL"]}
{"id": "C125", "title": "Any comparator will do", "statement": "If the file system does not change and all that is reached can be read, and filters, limits and comparator always return, prettyPrint returns.", "quantifier": "all comparators that return the same answer every time", "why_tests_cant": "Whether the sort notices that a comparator breaks its contract depends on the number, the order and the values of the entries.", "anchors": ["jfiletreeprettyprinter-core/src/main/java/io/github/computerdaddyguy/jfiletreeprettyprinter/scanner/DefaultPathToTreeScanner.java#directoryStreamToIterator", "jfiletreeprettyprinter-core/src/main/java/io/github/computerdaddyguy/jfiletreeprettyprinter/options/PrettyPrintOptions.java#sort", "jfiletreeprettyprinter-core/src/main/java/io/github/computerdaddyguy/jfiletreeprettyprinter/options/PathSorts.java#ALPHABETICAL"]}
{"id": "C126", "title": "Standard output tells the tree in every encoding", "statement": "If the command writes the same bytes to standard output in two runs that both display a tree, the trees are the same, whatever the encoding of standard output.", "quantifier": "all pairs of command lines and file trees, all encodings of standard output that have the ASCII characters", "why_tests_cant": "Tests compare strings, not bytes, and use file names that every encoding has.", "anchors": ["jfiletreeprettyprinter-cli/src/main/java/io/github/computerdaddyguy/jfiletreeprettyprinter/cli/io/DefaultConsoleOutput.java"]}
{"id": "C127", "title": "What arrives in the encoding of standard output", "statement": "In an encoding of standard output that has the ASCII characters, the bytes that arrive are those of the displayed tree in which every character the encoding does not have, in the names and in the symbols of the tree, is replaced by a question mark. So, if the encoding can be decoded, the bytes tell the shape of the tree and the names as they can be read, also where the symbols of the tree all become question marks. In UTF-8 the bytes tell the tree itself, unless a name has half a surrogate pair. ASCII, Latin-1 and UTF-8 are such encodings.", "quantifier": "all encodings without shift states that have the ASCII characters, all command lines, option files and file trees", "why_tests_cant": "Needs that replacing the symbols of the tree keeps rows apart for every tree and every encoding.", "anchors": ["jfiletreeprettyprinter-cli/src/main/java/io/github/computerdaddyguy/jfiletreeprettyprinter/cli/io/DefaultConsoleOutput.java"]}
{"id": "C128", "title": "The directory handles held at the same time", "statement": "At every moment of prettyPrint, the directory streams it holds open (apart from those of a callback that is running) are those of a chain of directories, each a child of the one before, that starts at the printed directory; so there are never more than max(0, maxDepth) of them, and when a directory is opened all those between it and the printed directory are open. With as many handles as levels the number of handles is not noticed, and a run that returns had a handle for each level of directories it displays.", "quantifier": "all file-system behaviours, all numbers of available handles, all options and callbacks", "why_tests_cant": "Tests use trees of a few levels and never run out of handles.", "anchors": ["jfiletreeprettyprinter-core/src/main/java/io/github/computerdaddyguy/jfiletreeprettyprinter/scanner/DefaultPathToTreeScanner.java#handleDirectory", "jfiletreeprettyprinter-core/src/main/java/io/github/computerdaddyguy/jfiletreeprettyprinter/options/PathMatchers.java#testDescendants"]}
{"id": "C129", "title": "A fixed number of handles is enough", "statement": "There is a number of directory handles with which every tree is printed that is printed when the number of handles is not limited.", "quantifier": "all numbers of handles, all readable file trees, all options", "why_tests_cant": "Tests use trees of a few levels and never run out of handles.", "anchors": ["jfiletreeprettyprinter-core/src/main/java/io/github/computerdaddyguy/jfiletreeprettyprinter/scanner/DefaultPathToTreeScanner.java#handleDirectory", "jfiletreeprettyprinter-core/src/main/java/io/github/computerdaddyguy/jfiletreeprettyprinter/options/PathMatchers.java#testDescendants"]}
{"id": "C130", "title": "The limits bound the size of the output", "statement": "If the child limit of every directory is between 0 and n and the maximal depth is m >= 0, the output has at most L(m) lines, where L(0) = 2 and L(k+1) = 2 + n * L(k), however large the file tree is, whatever else is configured and even if the tree changes during the run (file names without line breaks). For every n and m there is a file tree that needs exactly that many lines.", "quantifier": "all file trees, all limits, depths and options", "why_tests_cant": "Tests print small trees; a bound for all trees cannot be tested.", "anchors": ["jfiletreeprettyprinter-core/src/main/java/io/github/computerdaddyguy/jfiletreeprettyprinter/scanner/DefaultPathToTreeScanner.java#handleDirectoryChildren"]}
{"id": "C131", "title": "Deleting files only removes them from the tree", "statement": "If no child limit took effect in the directories that lose a displayed entry (there may be limits elsewhere), after the deletion of any files and directories below the printed one, printing again shows the former tree without them and without what was below them; nothing else changes or moves (in whatever order the operating system now lists directories), and printing cannot start to fail. Read the other way: adding files only adds them.", "quantifier": "all file trees, all sets of deleted files, all options whose child limits hide nothing in the directories that lose displayed entries", "why_tests_cant": "Tests print one fixed tree; they do not compare the trees of two file systems.", "anchors": ["jfiletreeprettyprinter-core/src/main/java/io/github/computerdaddyguy/jfiletreeprettyprinter/scanner/DefaultPathToTreeScanner.java#handleDirectoryChildren", "jfiletreeprettyprinter-core/src/main/java/io/github/computerdaddyguy/jfiletreeprettyprinter/options/PrettyPrintOptions.java#filterDirectories", "jfiletreeprettyprinter-core/src/main/java/io/github/computerdaddyguy/jfiletreeprettyprinter/options/PrettyPrintOptions.java#filterFiles"]}
{"id": "C132", "title": "A builder call with a null argument is refused and leaves no trace", "statement": "Whatever calls are made on a builder of child limits, line extensions, path orders or emoji mappings: a call with a null where a matcher, function, name, extension of files or emoji is wanted throws NullPointerException, no other setter call throws, and everything built afterwards (and before) is what would have been built had the refused calls not been made, also when only one of two arguments is null. The only null that is taken is the text of a line extension, where it stands for no extension.", "quantifier": "all sequences of calls on the four builders with any arguments null, in any order with any number of builds", "why_tests_cant": "Tests pass a null to single methods and expect the exception; they do not look at what the builder does afterwards, for all sequences.", "anchors": ["jfiletreeprettyprinter-core/src/main/java/io/github/computerdaddyguy/jfiletreeprettyprinter/options/LineExtensionBuilder.java#build", "jfiletreeprettyprinter-core/src/main/java/io/github/computerdaddyguy/jfiletreeprettyprinter/options/ChildLimitBuilder.java#build", "jfiletreeprettyprinter-core/src/main/java/io/github/computerdaddyguy/jfiletreeprettyprinter/options/PathSortBuilder.java#build", "jfiletreeprettyprinter-core/src/main/java/io/github/computerdaddyguy/jfiletreeprettyprinter/options/DefaultEmojiMapping.java#getPathEmoji", "jfiletreeprettyprinter-core/src/main/java/io/github/computerdaddyguy/jfiletreeprettyprinter/options/SequentialEmojiFunction.java", "jfiletreeprettyprinter-core/src/main/java/io/github/computerdaddyguy/jfiletreeprettyprinter/options/PathExtensionEmojiFunction.java", "jfiletreeprettyprinter-core/src/main/java/io/github/computerdaddyguy/jfiletreeprettyprinter/options/PathNameEmojiFunction.java", "jfiletreeprettyprinter-core/src/main/java/io/github/computerdaddyguy/jfiletreeprettyprinter/options/PathMatcherEmojiFunction.java"]}
{"id": "C133", "title": "A matcher factory refuses bad arguments at once", "statement": "Every method of PathMatchers throws NullPointerException when any of its arguments is null - also one in the middle of a list of matchers, and also when another argument is bad too - IllegalArgumentException for an empty collection, PatternSyntaxException for a glob the file system rejects; in all other cases it returns a matcher, so that no failure is put off until paths are matched. Creating a matcher never accesses the file system. Matchers given one by one are the same as matchers given in a collection.", "quantifier": "all calls of all methods of PathMatchers with any arguments null; all JVMs; all states", "why_tests_cant": "Tests check single nulls for single methods.", "anchors": ["jfiletreeprettyprinter-core/src/main/java/io/github/computerdaddyguy/jfiletreeprettyprinter/options/PathMatchers.java#combineMatchers", "jfiletreeprettyprinter-core/src/main/java/io/github/computerdaddyguy/jfiletreeprettyprinter/options/PathMatchers.java#all", "jfiletreeprettyprinter-core/src/main/java/io/github/computerdaddyguy/jfiletreeprettyprinter/options/PathMatchers.java#any", "jfiletreeprettyprinter-core/src/main/java/io/github/computerdaddyguy/jfiletreeprettyprinter/options/PathMatchers.java#none", "jfiletreeprettyprinter-core/src/main/java/io/github/computerdaddyguy/jfiletreeprettyprinter/options/PathMatchers.java#ifMatchesThenElse"]}
{"id": "C134", "title": "How many directory streams matchers hold", "statement": "hasAnyDirectChildMatching and hasSiblingMatching never have more than one directory stream of their own open, hasAnyDescendantMatching never more than there are levels of directories below the path (the path included), and all other matchers none; to these come those of the matcher they are given, while it runs. So by C128 printing with such filters needs at most that many handles on top of one for each displayed level.", "quantifier": "all matchers given, all paths, all worlds (file systems that change and fail at any time)", "why_tests_cant": "Tests do not count open handles.", "anchors": ["jfiletreeprettyprinter-core/src/main/java/io/github/computerdaddyguy/jfiletreeprettyprinter/options/PathMatchers.java#testDescendants", "jfiletreeprettyprinter-core/src/main/java/io/github/computerdaddyguy/jfiletreeprettyprinter/options/PathMatchers.java#hasAnyDescendantMatching", "jfiletreeprettyprinter-core/src/main/java/io/github/computerdaddyguy/jfiletreeprettyprinter/options/PathMatchers.java#hasAnyDirectChildMatching"]}
{"id": "C135", "title": "--version tells about this program", "statement": "What --version tells is what the manifest of the program's own archive says, whatever else is on the class path.", "quantifier": "all class paths containing the program's archive, all manifests", "why_tests_cant": "Tests run with one class path.", "anchors": ["jfiletreeprettyprinter-cli/src/main/java/io/github/computerdaddyguy/jfiletreeprettyprinter/cli/ManifestVersionProvider.java#getVersion", "jfiletreeprettyprinter-cli/pom.xml"]}
{"id": "C136", "title": "What --version tells", "statement": "The five lines of --version show the attributes of the first manifest on the class path (names compared without regard to case, the last of several attributes of one name counting) and \"unknown\" for each attribute it lacks; for the manifest the build writes these are the version, description, repository, commit and time of the build, whatever other attributes there are. Without any manifest everything is \"unknown\"; a first manifest that is malformed makes it fail, even if there are others.", "quantifier": "all class paths, all manifests", "why_tests_cant": "The test only checks that the first two lines are not blank and how the others start, for one class path.", "anchors": ["jfiletreeprettyprinter-cli/src/main/java/io/github/computerdaddyguy/jfiletreeprettyprinter/cli/ManifestVersionProvider.java#getVersion", "jfiletreeprettyprinter-cli/pom.xml"]}
{"id": "C137", "title": "What is not displayed has no influence", "statement": "If the file system changes only in what is below excluded directories or below the maximal depth, in what children beyond the limit contain, or in anything about displayed paths other than their entries and kinds, then printing again gives the same text, and cannot start to fail. The options need only treat alike what the displayed directories contain.", "quantifier": "all pairs of file systems that agree where the tree shows them, all options, start paths and histories", "why_tests_cant": "There are unboundedly many places where a file system can differ without being displayed.", "anchors": ["jfiletreeprettyprinter-core/src/main/java/io/github/computerdaddyguy/jfiletreeprettyprinter/scanner/DefaultPathToTreeScanner.java#handleDirectoryChildren", "jfiletreeprettyprinter-core/src/main/java/io/github/computerdaddyguy/jfiletreeprettyprinter/scanner/DefaultPathToTreeScanner.java#handleDirectory"]}
{"id": "C138", "title": "No counter overflows", "statement": "The depth and the number of children are counted in 32-bit numbers, but for every maximal depth and all limits (also Integer.MAX_VALUE) the outcome and the accesses of prettyPrint are those of exact counting, as long as no directory has more entries than a Java list can hold.", "quantifier": "all options, start paths and worlds whose listings have at most 2^31 - 1 entries", "why_tests_cant": "Tests cannot create directories with billions of entries or levels.", "anchors": ["jfiletreeprettyprinter-core/src/main/java/io/github/computerdaddyguy/jfiletreeprettyprinter/scanner/DefaultPathToTreeScanner.java#handleDirectoryChildren"]}
{"id": "C139", "title": "How many calls are nested", "statement": "The scanner and the renderer are recursive in the depth of the tree only, never in the number of files. If at most k levels of directories are displayed (because of the maximal depth, or because there are no more), the calls of the printer's, scanner's and renderer's own methods are nested at most max(3k+4, 2k+6) deep: with that many stack frames prettyPrint does exactly what it does with unlimited ones, in any world; with the default options 64 frames are enough for every file system. With fewer frames the outcome is the same or a StackOverflowError, never another text; each path displayed at depth k needs 3k+4 frames; and also when the stack overflows every opened directory stream is closed.", "quantifier": "all numbers of frames, options, start paths, worlds and callbacks (for the closing: callbacks that close what they open)", "why_tests_cant": "A stack overflow depends on the size of the stack and the shape of the tree; tests run one stack size on a few trees and cannot show that wide directories never matter.", "anchors": ["jfiletreeprettyprinter-core/src/main/java/io/github/computerdaddyguy/jfiletreeprettyprinter/scanner/DefaultPathToTreeScanner.java#handleDirectory", "jfiletreeprettyprinter-core/src/main/java/io/github/computerdaddyguy/jfiletreeprettyprinter/options/PathMatchers.java#testDescendants", "jfiletreeprettyprinter-core/src/main/java/io/github/computerdaddyguy/jfiletreeprettyprinter/renderer/DefaultTreeEntryRenderer.java#renderDirectory"]}
{"id": "C140", "title": "A fixed stack is enough", "statement": "There is a number of stack frames that is enough to print every tree that can be read, whatever the maximal depth is.", "quantifier": "all trees and maximal depths", "why_tests_cant": "Tests use small trees.", "anchors": ["jfiletreeprettyprinter-core/src/main/java/io/github/computerdaddyguy/jfiletreeprettyprinter/scanner/DefaultPathToTreeScanner.java#handleDirectory", "jfiletreeprettyprinter-core/src/main/java/io/github/computerdaddyguy/jfiletreeprettyprinter/options/PathMatchers.java#testDescendants", "jfiletreeprettyprinter-core/src/main/java/io/github/computerdaddyguy/jfiletreeprettyprinter/renderer/DefaultTreeEntryRenderer.java#renderDirectory"]}
{"id": "C141", "title": "Options changed during a run: each is read at its moment", "statement": "The options object may be changed while prettyPrint runs, by one of the user's functions or by another thread. The text then shows, for every directory displayed: cut off or not according to the maximal depth the object has when the path has just been found to be a directory; the limit function and the order the object has when the directory has just been opened; the filters the object had when prettyPrint was called; and each of these functions asked what it is asked in an ordinary run. Lines look as the tree format and emoji mapping of the time the printer was built, and the compaction flag and extensions, say.", "quantifier": "all ways the options can change with what happens, all worlds, paths and histories; the compaction flag and the results of the extension function do not change", "why_tests_cant": "A test changes the options at one moment of one run.", "anchors": ["jfiletreeprettyprinter-core/src/main/java/io/github/computerdaddyguy/jfiletreeprettyprinter/scanner/DefaultPathToTreeScanner.java#handle", "jfiletreeprettyprinter-core/src/main/java/io/github/computerdaddyguy/jfiletreeprettyprinter/scanner/DefaultPathToTreeScanner.java#handleDirectory", "jfiletreeprettyprinter-core/src/main/java/io/github/computerdaddyguy/jfiletreeprettyprinter/scanner/DefaultPathToTreeScanner.java#handleDirectoryChildren", "jfiletreeprettyprinter-core/src/main/java/io/github/computerdaddyguy/jfiletreeprettyprinter/scanner/DefaultPathToTreeScanner.java#handleFile", "jfiletreeprettyprinter-core/src/main/java/io/github/computerdaddyguy/jfiletreeprettyprinter/FileTreePrettyPrinterBuilder.java#build", "jfiletreeprettyprinter-core/src/main/java/io/github/computerdaddyguy/jfiletreeprettyprinter/renderer/LineRenderer.java#create", "jfiletreeprettyprinter-core/src/main/java/io/github/computerdaddyguy/jfiletreeprettyprinter/scanner/DefaultPathToTreeScanner.java"]}
{"id": "C142", "title": "Options changed during a run: changes without effect", "statement": "Changing the filters of the options object after prettyPrint was called, or its tree format or emoji mapping after the printer was built, has no effect on that call: text, outcome and file accesses are the same. A run during which nothing changes is an ordinary run.", "quantifier": "all ways the options can change with what happens, all worlds, paths, histories, outcomes", "why_tests_cant": "A test changes the options at one moment of one run.", "anchors": ["jfiletreeprettyprinter-core/src/main/java/io/github/computerdaddyguy/jfiletreeprettyprinter/scanner/DefaultPathToTreeScanner.java#handle", "jfiletreeprettyprinter-core/src/main/java/io/github/computerdaddyguy/jfiletreeprettyprinter/scanner/DefaultPathToTreeScanner.java#handleDirectory", "jfiletreeprettyprinter-core/src/main/java/io/github/computerdaddyguy/jfiletreeprettyprinter/scanner/DefaultPathToTreeScanner.java#handleDirectoryChildren", "jfiletreeprettyprinter-core/src/main/java/io/github/computerdaddyguy/jfiletreeprettyprinter/scanner/DefaultPathToTreeScanner.java#handleFile", "jfiletreeprettyprinter-core/src/main/java/io/github/computerdaddyguy/jfiletreeprettyprinter/FileTreePrettyPrinterBuilder.java#build", "jfiletreeprettyprinter-core/src/main/java/io/github/computerdaddyguy/jfiletreeprettyprinter/renderer/LineRenderer.java#create", "jfiletreeprettyprinter-core/src/main/java/io/github/computerdaddyguy/jfiletreeprettyprinter/scanner/DefaultPathToTreeScanner.java"]}
{"id": "C143", "title": "Options changed during a run: it ends and closes", "statement": "However the options object changes during a run, if its maximal depth never exceeds D then the run ends, the printer opens no directory D or more levels below the root, and it closes every directory stream that it opened, also when it throws.", "quantifier": "all ways the options can change with what happens, all worlds, paths, histories, outcomes; the user's functions close what they open", "why_tests_cant": "Needs all moments at which the options can change.", "anchors": ["jfiletreeprettyprinter-core/src/main/java/io/github/computerdaddyguy/jfiletreeprettyprinter/scanner/DefaultPathToTreeScanner.java#handle", "jfiletreeprettyprinter-core/src/main/java/io/github/computerdaddyguy/jfiletreeprettyprinter/scanner/DefaultPathToTreeScanner.java#handleDirectory", "jfiletreeprettyprinter-core/src/main/java/io/github/computerdaddyguy/jfiletreeprettyprinter/scanner/DefaultPathToTreeScanner.java#handleDirectoryChildren", "jfiletreeprettyprinter-core/src/main/java/io/github/computerdaddyguy/jfiletreeprettyprinter/scanner/DefaultPathToTreeScanner.java#handleFile", "jfiletreeprettyprinter-core/src/main/java/io/github/computerdaddyguy/jfiletreeprettyprinter/FileTreePrettyPrinterBuilder.java#build", "jfiletreeprettyprinter-core/src/main/java/io/github/computerdaddyguy/jfiletreeprettyprinter/renderer/LineRenderer.java#create", "jfiletreeprettyprinter-core/src/main/java/io/github/computerdaddyguy/jfiletreeprettyprinter/scanner/DefaultPathToTreeScanner.java"]}
{"id": "C144", "title": "Options changed during a run: one of the settings is shown", "statement": "If the options object is changed while prettyPrint runs, the text is the one an ordinary run prints with one of the contents that the object had during the run.", "quantifier": "all ways the options can change with what happens", "why_tests_cant": "A test changes the options at one moment of one run.", "anchors": ["jfiletreeprettyprinter-core/src/main/java/io/github/computerdaddyguy/jfiletreeprettyprinter/scanner/DefaultPathToTreeScanner.java#handle", "jfiletreeprettyprinter-core/src/main/java/io/github/computerdaddyguy/jfiletreeprettyprinter/scanner/DefaultPathToTreeScanner.java#handleDirectory", "jfiletreeprettyprinter-core/src/main/java/io/github/computerdaddyguy/jfiletreeprettyprinter/scanner/DefaultPathToTreeScanner.java#handleDirectoryChildren", "jfiletreeprettyprinter-core/src/main/java/io/github/computerdaddyguy/jfiletreeprettyprinter/scanner/DefaultPathToTreeScanner.java#handleFile", "jfiletreeprettyprinter-core/src/main/java/io/github/computerdaddyguy/jfiletreeprettyprinter/FileTreePrettyPrinterBuilder.java#build", "jfiletreeprettyprinter-core/src/main/java/io/github/computerdaddyguy/jfiletreeprettyprinter/renderer/LineRenderer.java#create", "jfiletreeprettyprinter-core/src/main/java/io/github/computerdaddyguy/jfiletreeprettyprinter/scanner/DefaultPathToTreeScanner.java"]}
{"id": "C145", "title": "Several threads: as if alone", "statement": "prettyPrint may be called by any number of threads at the same time, on the same printer or on different ones. While the file system does not change, every call returns the text, or throws the exception, that it would if it ran alone, with the same accesses in the same order, whatever the other threads do and however their steps are interleaved. No interleaving goes on for ever or gets stuck before all calls are finished.", "quantifier": "all numbers of threads, programs of the other threads, interleavings, unchanging file systems, options whose functions share no state, paths", "why_tests_cant": "Tests see a few of the interleavings, and not the ones that matter.", "anchors": ["jfiletreeprettyprinter-core/src/main/java/io/github/computerdaddyguy/jfiletreeprettyprinter/scanner/DefaultPathToTreeScanner.java#handle", "jfiletreeprettyprinter-core/src/main/java/io/github/computerdaddyguy/jfiletreeprettyprinter/scanner/DefaultPathToTreeScanner.java#handleDirectory", "jfiletreeprettyprinter-core/src/main/java/io/github/computerdaddyguy/jfiletreeprettyprinter/scanner/DefaultPathToTreeScanner.java#handleDirectoryChildren", "jfiletreeprettyprinter-core/src/main/java/io/github/computerdaddyguy/jfiletreeprettyprinter/scanner/DefaultPathToTreeScanner.java#handleFile", "jfiletreeprettyprinter-core/src/main/java/io/github/computerdaddyguy/jfiletreeprettyprinter/FileTreePrettyPrinterBuilder.java#build", "jfiletreeprettyprinter-core/src/main/java/io/github/computerdaddyguy/jfiletreeprettyprinter/renderer/LineRenderer.java#create", "jfiletreeprettyprinter-core/src/main/java/io/github/computerdaddyguy/jfiletreeprettyprinter/scanner/DefaultPathToTreeScanner.java"]}
{"id": "C146", "title": "Several threads: a changing file system", "statement": "If the file system changes while several threads call prettyPrint, each call does what it would do alone in a world that answers each access as the file system did at the moment of that access in the interleaving; so everything it displays was answered to it (see C94).", "quantifier": "all worlds, numbers of threads, programs of the other threads, interleavings, options whose functions share no state, paths", "why_tests_cant": "Tests see a few of the interleavings and of the moments of change.", "anchors": ["jfiletreeprettyprinter-core/src/main/java/io/github/computerdaddyguy/jfiletreeprettyprinter/scanner/DefaultPathToTreeScanner.java#handle", "jfiletreeprettyprinter-core/src/main/java/io/github/computerdaddyguy/jfiletreeprettyprinter/scanner/DefaultPathToTreeScanner.java#handleDirectory", "jfiletreeprettyprinter-core/src/main/java/io/github/computerdaddyguy/jfiletreeprettyprinter/scanner/DefaultPathToTreeScanner.java#handleDirectoryChildren", "jfiletreeprettyprinter-core/src/main/java/io/github/computerdaddyguy/jfiletreeprettyprinter/scanner/DefaultPathToTreeScanner.java#handleFile", "jfiletreeprettyprinter-core/src/main/java/io/github/computerdaddyguy/jfiletreeprettyprinter/FileTreePrettyPrinterBuilder.java#build", "jfiletreeprettyprinter-core/src/main/java/io/github/computerdaddyguy/jfiletreeprettyprinter/renderer/LineRenderer.java#create", "jfiletreeprettyprinter-core/src/main/java/io/github/computerdaddyguy/jfiletreeprettyprinter/scanner/DefaultPathToTreeScanner.java"]}
{"id": "C147", "title": "Several threads: directory streams", "statement": "When a call has returned or thrown, its thread has closed every directory stream it opened, whatever the other threads did. At every moment the streams a call holds are those of a chain of directories starting at the printed one; so several calls together never hold more streams than the sum of their maximal depths (a negative one counting as 0).", "quantifier": "all worlds, numbers of threads, interleavings, moments, options, paths", "why_tests_cant": "The number of streams open at the same time depends on the interleaving.", "anchors": ["jfiletreeprettyprinter-core/src/main/java/io/github/computerdaddyguy/jfiletreeprettyprinter/scanner/DefaultPathToTreeScanner.java#handle", "jfiletreeprettyprinter-core/src/main/java/io/github/computerdaddyguy/jfiletreeprettyprinter/scanner/DefaultPathToTreeScanner.java#handleDirectory", "jfiletreeprettyprinter-core/src/main/java/io/github/computerdaddyguy/jfiletreeprettyprinter/scanner/DefaultPathToTreeScanner.java#handleDirectoryChildren", "jfiletreeprettyprinter-core/src/main/java/io/github/computerdaddyguy/jfiletreeprettyprinter/scanner/DefaultPathToTreeScanner.java#handleFile", "jfiletreeprettyprinter-core/src/main/java/io/github/computerdaddyguy/jfiletreeprettyprinter/FileTreePrettyPrinterBuilder.java#build", "jfiletreeprettyprinter-core/src/main/java/io/github/computerdaddyguy/jfiletreeprettyprinter/renderer/LineRenderer.java#create", "jfiletreeprettyprinter-core/src/main/java/io/github/computerdaddyguy/jfiletreeprettyprinter/scanner/DefaultPathToTreeScanner.java"]}
{"id": "C148", "title": "Name globs in general", "statement": "A glob for names, made of plain and escaped characters, '?', '*', '**', classes like [a-z_] and [!0-9], and groups like {java,kt}, gives a matcher that is true of exactly those paths whose last name is a text the glob stands for: '?' one character, '*' any text, a class one of (or, with '!', none of) its characters, a group one of its alternatives. So '*{a,b}' tests whether the name ends with a or with b. No exception is thrown.", "quantifier": "all globs of this form without unpaired surrogates, characters being code points, all paths with a last name, on a platform with the globs of the JDK on Unix", "why_tests_cant": "Tests use a few globs; their combinations are infinite.", "anchors": ["jfiletreeprettyprinter-core/src/main/java/io/github/computerdaddyguy/jfiletreeprettyprinter/options/PathMatchers.java"]}
{"id": "C149", "title": "Path globs in general", "statement": "A glob (as in C148, not '*') for absolute paths tests the text of the absolute path without '.' and '..'; a relative one tests the text of the way from the reference to the path: the names below the reference, or '..' for each name up to the last common directory and then the names below it. '*' and '?' and classes do not match '/', '**' does.", "quantifier": "all globs of this form without unpaired surrogates, all references and paths, on a platform with the globs of the JDK on Unix", "why_tests_cant": "Tests use a few globs and paths.", "anchors": ["jfiletreeprettyprinter-core/src/main/java/io/github/computerdaddyguy/jfiletreeprettyprinter/options/PathMatchers.java", "README.md"]}
{"id": "C150", "title": "The message of an exception tells the path that failed", "statement": "When prettyPrint fails with an UncheckedIOException that does not come from a user callback, its message is 'Unable to read file attributes: ' or 'Unable to list files for directory: ' followed by an absolute path; this path is the printed one or lies below it, at most the maximal depth below, and in this run reading its attributes, or opening or closing it as a directory, failed. When the directory a child, descendant or sibling matcher looks into cannot be opened, the message is 'Exception while walking files of ' followed by it.", "quantifier": "all options, all behaviours of the file system, failures at any point", "why_tests_cant": "Tests would have to make each access fail in turn, in every tree.", "anchors": ["jfiletreeprettyprinter-core/src/main/java/io/github/computerdaddyguy/jfiletreeprettyprinter/scanner/DefaultPathToTreeScanner.java"]}
{"id": "C151", "title": "The command tells which path failed", "statement": "When the tree cannot be printed because the document followed has a malformed glob, a file in the tree has unreadable attributes, or a directory cannot be listed, the command exits with 1, writes nothing on standard output, and reports on standard error 'Error while pretty printing: ' followed by the platform's message about a malformed glob, or by 'Unable to read file attributes: ' or 'Unable to list files for directory: ' and the path of such a file or directory at or below the target.", "quantifier": "all documents, arguments, steady file systems", "why_tests_cant": "Tests on the command use readable trees.", "anchors": ["jfiletreeprettyprinter-cli/src/main/java/io/github/computerdaddyguy/jfiletreeprettyprinter/cli/exception/DefaultExecutionExceptionHandler.java", "jfiletreeprettyprinter-cli/src/main/java/io/github/computerdaddyguy/jfiletreeprettyprinter/cli/io/DefaultConsoleOutput.java#printError", "jfiletreeprettyprinter-cli/src/main/java/io/github/computerdaddyguy/jfiletreeprettyprinter/cli/PrettyPrintCommand.java#call", "jfiletreeprettyprinter-core/src/main/java/io/github/computerdaddyguy/jfiletreeprettyprinter/scanner/DefaultPathToTreeScanner.java"]}
{"id": "C152", "title": "A run stops at its first failure", "statement": "When prettyPrint throws an exception that does not come from a user callback, the access it reports is the first access of the library that failed in a way that matters (other than failing to tell whether a path is a directory), and after it nothing in the file system is touched except that open directory streams are closed.", "quantifier": "all options, all behaviours of the file system, failures at any point", "why_tests_cant": "Tests do not observe accesses to the file system.", "anchors": ["jfiletreeprettyprinter-core/src/main/java/io/github/computerdaddyguy/jfiletreeprettyprinter/scanner/DefaultPathToTreeScanner.java"]}
{"id": "C153", "title": "Which command lines run the command, and with what", "statement": "With argument files (@FILE) replaced by their words: a command line consisting of at most one target, at most one options file (after -o, --options or -do, or attached to -o or -do) and at most one debug flag (-d, --debug, =true or =false), in any order, runs the command with exactly these; it has no other meaning. After -- there is at most the target. Every other command line reads no file: it is refused with exit code 2 and a message on standard error only, unless one of its words asks for help or for the version. A command line naming an argument file that cannot be read ends with exit code 1.", "quantifier": "all command lines (lists of arbitrary words), all contents of argument files", "why_tests_cant": "The words can be any strings in any number and order; tests of the repository use two shapes of command lines.", "anchors": ["jfiletreeprettyprinter-cli/src/main/java/io/github/computerdaddyguy/jfiletreeprettyprinter/cli/PrettyPrintCommand.java:18-24", "jfiletreeprettyprinter-cli/src/main/java/io/github/computerdaddyguy/jfiletreeprettyprinter/cli/PrettyPrintCommand.java:36-47", "jfiletreeprettyprinter-cli/src/main/java/io/github/computerdaddyguy/jfiletreeprettyprinter/cli/FileTreePrettyPrinterCommandLine.java:26-28"]}
{"id": "C154", "title": "The order and the spelling of the arguments do not matter", "statement": "For a target and an options file that start neither with '-' nor with '@', every order of the parts 'target', '-o FILE' | '--options FILE' | '-oFILE' and '-d' | '--debug' makes the command do the same: print that target with that options file, in debug mode or not.", "quantifier": "all targets, options files, orders and spellings; all file systems and states", "why_tests_cant": "The targets and files are arbitrary strings; there are many orders and spellings.", "anchors": ["jfiletreeprettyprinter-cli/src/main/java/io/github/computerdaddyguy/jfiletreeprettyprinter/cli/PrettyPrintCommand.java:18-24", "jfiletreeprettyprinter-cli/src/main/java/io/github/computerdaddyguy/jfiletreeprettyprinter/cli/PrettyPrintCommand.java:36-47", "jfiletreeprettyprinter-cli/src/main/java/io/github/computerdaddyguy/jfiletreeprettyprinter/cli/FileTreePrettyPrinterCommandLine.java:26-28"]}
{"id": "C155", "title": "Asking for help or for the version does nothing else", "statement": "-h or --help anywhere among the arguments writes the help to standard output and nothing else, with exit code 0, without looking at any file, whatever target, options file or flag is given (even --version); -V or --version does the same with the lines about the version.", "quantifier": "all command lines with these parts, in any order", "why_tests_cant": "The other arguments are arbitrary.", "anchors": ["jfiletreeprettyprinter-cli/src/main/java/io/github/computerdaddyguy/jfiletreeprettyprinter/cli/PrettyPrintCommand.java:18-24", "jfiletreeprettyprinter-cli/src/main/java/io/github/computerdaddyguy/jfiletreeprettyprinter/cli/PrettyPrintCommand.java:36-47", "jfiletreeprettyprinter-cli/src/main/java/io/github/computerdaddyguy/jfiletreeprettyprinter/cli/FileTreePrettyPrinterCommandLine.java:26-28"]}
{"id": "C156", "title": "An options name without a file is not ignored", "statement": "When -o or --options is given without a file (at the end, or before another option), the command does not fall back on the options files that are found otherwise, nor on the defaults: it takes the current directory for the options file, prints no tree and exits with 1.", "quantifier": "all command lines with such a part, all targets, all file systems in which the current directory is not a regular file", "why_tests_cant": "The combination with every other argument and state of the file system cannot be enumerated.", "anchors": ["jfiletreeprettyprinter-cli/src/main/java/io/github/computerdaddyguy/jfiletreeprettyprinter/cli/PrettyPrintCommand.java:18-24", "jfiletreeprettyprinter-cli/src/main/java/io/github/computerdaddyguy/jfiletreeprettyprinter/cli/PrettyPrintCommand.java:36-47", "jfiletreeprettyprinter-cli/src/main/java/io/github/computerdaddyguy/jfiletreeprettyprinter/cli/FileTreePrettyPrinterCommandLine.java:26-28", "jfiletreeprettyprinter-cli/src/main/java/io/github/computerdaddyguy/jfiletreeprettyprinter/cli/options/reader/SimpleExternalOptionsReader.java:27-51"]}
{"id": "C157", "title": "The options file cannot be written after '='", "statement": "A command line with a word -o=TEXT or --options=TEXT (before any --) is refused with exit code 2 and a message on standard error; no file is looked at. The option declares that it takes no value (arity 0), so that the form with '=', which picocli offers for options with a value, is not available.", "quantifier": "all texts, all other words before and after", "why_tests_cant": "The other words are arbitrary and could consume the word or excuse it.", "anchors": ["jfiletreeprettyprinter-cli/src/main/java/io/github/computerdaddyguy/jfiletreeprettyprinter/cli/PrettyPrintCommand.java:18-24", "jfiletreeprettyprinter-cli/src/main/java/io/github/computerdaddyguy/jfiletreeprettyprinter/cli/PrettyPrintCommand.java:36-47", "jfiletreeprettyprinter-cli/src/main/java/io/github/computerdaddyguy/jfiletreeprettyprinter/cli/FileTreePrettyPrinterCommandLine.java:26-28"]}
{"id": "C158", "title": "Every path can be given as the only argument", "statement": "For every path t, running the program with the single argument t prints the tree of t.", "quantifier": "all paths", "why_tests_cant": "Quantifies over all names of files.", "anchors": ["jfiletreeprettyprinter-cli/src/main/java/io/github/computerdaddyguy/jfiletreeprettyprinter/cli/PrettyPrintCommand.java:18-24", "jfiletreeprettyprinter-cli/src/main/java/io/github/computerdaddyguy/jfiletreeprettyprinter/cli/PrettyPrintCommand.java:36-47", "jfiletreeprettyprinter-cli/src/main/java/io/github/computerdaddyguy/jfiletreeprettyprinter/cli/FileTreePrettyPrinterCommandLine.java:26-28"]}
{"id": "C159", "title": "Every path can be given, protected by './'", "statement": "For every path given as target or options file - as it is when absolute, with './' before it when relative - the command treats it as that path, whatever its characters (including a leading '-' or '@'), in any order of the arguments.", "quantifier": "all paths, orders and spellings of the arguments, file systems and states", "why_tests_cant": "Quantifies over all names of files.", "anchors": ["jfiletreeprettyprinter-cli/src/main/java/io/github/computerdaddyguy/jfiletreeprettyprinter/cli/PrettyPrintCommand.java:18-24", "jfiletreeprettyprinter-cli/src/main/java/io/github/computerdaddyguy/jfiletreeprettyprinter/cli/PrettyPrintCommand.java:36-47", "jfiletreeprettyprinter-cli/src/main/java/io/github/computerdaddyguy/jfiletreeprettyprinter/cli/FileTreePrettyPrinterCommandLine.java:26-28"]}
{"id": "C160", "title": "The exit code tells what happened", "statement": "For every command line the exit code is 0, 1 or 2. It is 0 exactly if nothing is written to standard error. It is 2 only if no file was looked at and nothing was written to standard output.", "quantifier": "all command lines, all behaviours of the file system, all contents of options files, debug mode or not", "why_tests_cant": "Scripts rely on the code and on standard error for all inputs; tests check some messages, never the code.", "anchors": ["jfiletreeprettyprinter-cli/src/main/java/io/github/computerdaddyguy/jfiletreeprettyprinter/cli/PrettyPrintCommand.java:52-70", "jfiletreeprettyprinter-cli/src/main/java/io/github/computerdaddyguy/jfiletreeprettyprinter/cli/FileTreePrettyPrinterCommandLine.java:26-41", "jfiletreeprettyprinter-cli/src/main/java/io/github/computerdaddyguy/jfiletreeprettyprinter/cli/exception/DefaultExecutionExceptionHandler.java:22-48"]}
{"id": "C161", "title": "The printed directory is the one the operating system finds", "statement": "For every tree of files with symbolic links and every path given to prettyPrint: the text is the one for the place at which the operating system finds the path.", "quantifier": "all trees of files with symbolic links, all paths", "why_tests_cant": "Depends on how '..' and links are combined in a path; the tests print paths of a temporary directory without either.", "anchors": ["jfiletreeprettyprinter-core/src/main/java/io/github/computerdaddyguy/jfiletreeprettyprinter/DefaultFileTreePrettyPrinter.java:21-33", "jfiletreeprettyprinter-core/src/main/java/io/github/computerdaddyguy/jfiletreeprettyprinter/scanner/DefaultPathToTreeScanner.java:32-45"]}
{"id": "C162", "title": "Links on the way to the printed path do not matter", "statement": "If '..' in the path never follows a symbolic link (and a final '.' or '..' does not stand for one), printing the path gives the same text as printing the place where the operating system finds it, whatever links are on the way. Conversely, too, as long as the operating system's limit on links is not met.", "quantifier": "all trees of files with symbolic links, all paths of that form, all options that treat both paths alike", "why_tests_cant": "Quantifies over all link structures, including cycles and chains.", "anchors": ["jfiletreeprettyprinter-core/src/main/java/io/github/computerdaddyguy/jfiletreeprettyprinter/DefaultFileTreePrettyPrinter.java:21-33", "jfiletreeprettyprinter-core/src/main/java/io/github/computerdaddyguy/jfiletreeprettyprinter/scanner/DefaultPathToTreeScanner.java:32-60"]}
{"id": "C163", "title": "The tree shown is the tree on the volume", "statement": "Without child limits the tree that is shown contains exactly the files that lie below the place of the printed path and are accepted by the filters with all directories above them, down to the maximal depth, each once. Symbolic links are shown and not entered, so cycles of links do no harm.", "quantifier": "all trees of files with symbolic links, all paths, all filters and orders, all depths", "why_tests_cant": "Infinitely many link structures; tests have at most one link.", "anchors": ["jfiletreeprettyprinter-core/src/main/java/io/github/computerdaddyguy/jfiletreeprettyprinter/scanner/DefaultPathToTreeScanner.java:32-60", "jfiletreeprettyprinter-core/src/main/java/io/github/computerdaddyguy/jfiletreeprettyprinter/scanner/DefaultPathToTreeScanner.java:95-130"]}
{"id": "C164", "title": "Nothing outside the printed directory is opened", "statement": "Whatever the outcome, every directory that is opened lies in the tree of files below the place of the printed path, at the place its name says, and is reached without following a link below that place.", "quantifier": "all trees of files with symbolic links, all paths, all options whose functions return or throw without opening anything", "why_tests_cant": "No test watches which directories are opened.", "anchors": ["jfiletreeprettyprinter-core/src/main/java/io/github/computerdaddyguy/jfiletreeprettyprinter/scanner/DefaultPathToTreeScanner.java:47-60", "jfiletreeprettyprinter-core/src/main/java/io/github/computerdaddyguy/jfiletreeprettyprinter/scanner/DefaultPathToTreeScanner.java:95-130"]}
{"id": "C165", "title": "Nothing outside is opened while files change", "statement": "Whatever changes are made to the files while a tree is printed: only directories below the printed path are opened and shown.", "quantifier": "all sequences of changes, at any moment between two accesses", "why_tests_cant": "A race: the change has to happen between the test whether a file is a directory and its opening.", "anchors": ["jfiletreeprettyprinter-core/src/main/java/io/github/computerdaddyguy/jfiletreeprettyprinter/scanner/DefaultPathToTreeScanner.java:38-60"]}
{"id": "C166", "title": "What may change without anything outside being opened", "statement": "While a tree is printed, files may be created, changed and deleted in any way that depends on what happens: if the printed path itself stays where it is and no directory below is replaced by a symbolic link, then, whatever the outcome, every directory that is opened lies at that moment in the tree below the place of the printed path, where its name says.", "quantifier": "all changes of that kind, all options whose functions return or throw without opening anything", "why_tests_cant": "Quantifies over all interleavings of a run with changes.", "anchors": ["jfiletreeprettyprinter-core/src/main/java/io/github/computerdaddyguy/jfiletreeprettyprinter/scanner/DefaultPathToTreeScanner.java:38-60", "jfiletreeprettyprinter-core/src/main/java/io/github/computerdaddyguy/jfiletreeprettyprinter/scanner/DefaultPathToTreeScanner.java:95-130"]}
{"id": "C167", "title": "What is shown was there", "statement": "While a tree is printed, files may be created, changed and deleted. If the printed path stays where it is and no place below is a directory at one moment and a symbolic link at another, every file shown was, at some moment of the run, in the tree below the place of the printed path, where its name says.", "quantifier": "all changes of that kind, all options, also those whose functions access the file system", "why_tests_cant": "Quantifies over all interleavings of a run with changes.", "anchors": ["jfiletreeprettyprinter-core/src/main/java/io/github/computerdaddyguy/jfiletreeprettyprinter/scanner/DefaultPathToTreeScanner.java:38-60", "jfiletreeprettyprinter-core/src/main/java/io/github/computerdaddyguy/jfiletreeprettyprinter/scanner/DefaultPathToTreeScanner.java:95-130"]}
{"id": "C168", "title": "How often filters make the library open directories", "statement": "Filters that look into directories make the library open them repeatedly, but not more often than this, whatever the file system does and whatever the outcome: with a directory filter hasAnyDescendantMatching(m), a directory n levels below the printed one is opened at most n + 1 times, and no directory elsewhere is; with a file filter hasSiblingMatching(m), a directory with N entries is opened at most N + 1 times. In general the cost of a filter is the sum of the costs of the matchers it is combined of, and is paid once per level.", "quantifier": "all trees, also changing ones, all matchers m that open no directory, all combinations with allOf, anyOf, noneOf, not and ifMatchesThenElse", "why_tests_cant": "Quantifies over all trees and all filters; repeated openings have no effect on the text.", "anchors": ["jfiletreeprettyprinter-core/src/main/java/io/github/computerdaddyguy/jfiletreeprettyprinter/options/PathMatchers.java:642-700", "jfiletreeprettyprinter-core/src/main/java/io/github/computerdaddyguy/jfiletreeprettyprinter/scanner/DefaultPathToTreeScanner.java:38-99"]}
{"id": "C169", "title": "Filters that look into directories stay inside while files change", "statement": "While a tree is printed, the files may change in any way that may depend on what was done so far. If the printed path itself stays where it is and no directory below is replaced by a symbolic link, every directory opened lies in the tree below the printed path at that moment, also when the functions in the options open directories themselves: hasAnyDescendantMatching, hasAnyDirectChildMatching and (for filters and orders) hasSiblingMatching, negated and combined with each other and with any functions that open nothing, in filters, child limits, orders, emoji mappings and line extensions.", "quantifier": "All well-formed volumes as a function of the history, all paths, options and outcomes, all functions in the options that look only around the paths they are asked about.", "why_tests_cant": "The filters are called once per entry, and each call walks directories that may change between any two steps; a test fixes one order of changes.", "anchors": ["jfiletreeprettyprinter-core/src/main/java/io/github/computerdaddyguy/jfiletreeprettyprinter/options/PathMatchers.java:650-700", "jfiletreeprettyprinter-core/src/main/java/io/github/computerdaddyguy/jfiletreeprettyprinter/scanner/DefaultPathToTreeScanner.java:38-99"]}
{"id": "C170", "title": "What the functions in the options are asked about", "statement": "The functions of the user are asked only where this makes sense, and what they would say elsewhere does not matter: the filters are never asked about the printed path itself, only about entries of directories not deeper than the maximal depth, the directory filter only about directories and the file filter only about other entries, right after the kind was looked up; the order is asked only about accepted entries of one listing of one directory; the child limit only about the printed path and accepted directories above the maximal depth, right after they were opened; emoji mapping and line extension only about the printed path and accepted entries. Options that agree there print the same, or fail in the same way, and do the same file operations in the same order.", "quantifier": "All pairs of options that agree there, all file systems and their changes, all paths and histories, all functions in the options.", "why_tests_cant": "A test records the calls for one tree; the property is about all functions, including those that throw or do file operations where they should not be asked.", "anchors": ["jfiletreeprettyprinter-core/src/main/java/io/github/computerdaddyguy/jfiletreeprettyprinter/scanner/DefaultPathToTreeScanner.java:33-99", "jfiletreeprettyprinter-core/src/main/java/io/github/computerdaddyguy/jfiletreeprettyprinter/options/PrettyPrintOptions.java:176-200", "jfiletreeprettyprinter-core/src/main/java/io/github/computerdaddyguy/jfiletreeprettyprinter/renderer/DefaultTreeEntryRenderer.java:25-104"]}
{"id": "C171", "title": "One file more or less is one line more or less", "statement": "Adding one file that is displayed (or deleting it), all else being equal and without a child limit that takes effect in the directory of the file, adds (or removes) exactly one line, the one of that file. If the file is not the last entry of its directory, no other line changes at all; if it is, only the connectors in the lines of the entry before it change, not their labels. So a tree that is kept in a document and updated gives small differences. With compaction, this holds unless the file's directory would be merged with another one when the file is missing.", "quantifier": "All pairs of static file systems that differ by one displayed file, all paths, tree formats, filters, configured orders, depths, child limits (that hide nothing in the directory of the file), emoji mappings and line extensions that do not depend on the difference, with and without compaction.", "why_tests_cant": "A test compares two texts; the property is about every position of the file in every tree.", "anchors": ["jfiletreeprettyprinter-core/src/main/java/io/github/computerdaddyguy/jfiletreeprettyprinter/renderer/DefaultTreeEntryRenderer.java:25-104", "jfiletreeprettyprinter-core/src/main/java/io/github/computerdaddyguy/jfiletreeprettyprinter/renderer/DefaultTreeFormatter.java:15-46", "jfiletreeprettyprinter-core/src/main/java/io/github/computerdaddyguy/jfiletreeprettyprinter/scanner/DefaultPathToTreeScanner.java:33-99"]}
{"id": "C172", "title": "One directory more or less is one block of lines more or less", "statement": "Adding one displayed file or directory with everything in it (or deleting it), all else being equal and without a child limit that takes effect in the directory of the entry, adds (or removes) one consecutive block of lines: exactly the lines that display that entry and what is below it. If the entry is not the last of its directory, no other line changes at all; if it is, only the connectors in the lines of the entry before it (and of what is below that one) change, not their labels. With compaction, this holds unless the directory that contains the entry is merged with another one, with or without the entry.", "quantifier": "All pairs of static file systems that differ by one displayed entry and what is below it, all paths, tree formats, filters, configured orders, depths, child limits (that hide nothing in the directory of the entry), emoji mappings and line extensions that do not depend on the difference, with and without compaction.", "why_tests_cant": "A test compares two texts; the property is about every position and every size of the directory in every tree.", "anchors": ["jfiletreeprettyprinter-core/src/main/java/io/github/computerdaddyguy/jfiletreeprettyprinter/renderer/DefaultTreeEntryRenderer.java:25-104", "jfiletreeprettyprinter-core/src/main/java/io/github/computerdaddyguy/jfiletreeprettyprinter/renderer/DefaultTreeFormatter.java:15-46", "jfiletreeprettyprinter-core/src/main/java/io/github/computerdaddyguy/jfiletreeprettyprinter/scanner/DefaultPathToTreeScanner.java:33-99"]}
{"id": "C173", "title": "Exit code 0 means that the tree has been written", "statement": "If the command ends with exit code 0 without a message on standard error, the text of the tree has arrived where standard output leads: a script that redirects it to a file and tests the exit code has a complete file.", "quantifier": "All command lines that print a tree, all devices behind standard output (a disk that gets full, a closed pipe), all ways of dividing the bytes.", "why_tests_cant": "A test writes to memory, which never fails.", "anchors": ["jfiletreeprettyprinter-cli/src/main/java/io/github/computerdaddyguy/jfiletreeprettyprinter/cli/io/DefaultConsoleOutput.java:72-74", "jfiletreeprettyprinter-cli/src/main/java/io/github/computerdaddyguy/jfiletreeprettyprinter/cli/io/ConsoleOutput.java:21-23", "jfiletreeprettyprinter-cli/src/main/java/io/github/computerdaddyguy/jfiletreeprettyprinter/cli/FileTreePrettyPrinterCommandLine.java:38-41"]}
{"id": "C174", "title": "What arrives when writing fails", "statement": "Everything arrives if the stream notes no failure, and the stream notes none if the device takes everything. A device with room for n bytes gets exactly the first n bytes of the output, and the stream notes a failure exactly if there were more; so asking the stream (checkError) at the end would tell whether the whole tree has arrived.", "quantifier": "All runs of the command, all devices (those with limited room for the exact content), all buffer sizes, all ways of dividing the bytes into pieces, all encodings.", "why_tests_cant": "A test writes to memory, which never fails.", "anchors": ["jfiletreeprettyprinter-cli/src/main/java/io/github/computerdaddyguy/jfiletreeprettyprinter/cli/io/DefaultConsoleOutput.java:72-74", "jfiletreeprettyprinter-cli/src/main/java/io/github/computerdaddyguy/jfiletreeprettyprinter/cli/io/ConsoleOutput.java:21-23", "jfiletreeprettyprinter-cli/src/main/java/io/github/computerdaddyguy/jfiletreeprettyprinter/cli/FileTreePrettyPrinterCommandLine.java:38-41"]}
{"id": "C175", "title": "The two filters do not interfere", "statement": "Without a child limit, the file filter has no influence on which directories are displayed and where, and the directory filter has no influence on which files are displayed in a directory that is displayed, nor on their order.", "quantifier": "All trees, all pairs of option sets with the same order and depth, all filters, all formats, all starts.", "why_tests_cant": "A test compares a few pairs of filters on one tree.", "anchors": ["jfiletreeprettyprinter-core/src/main/java/io/github/computerdaddyguy/jfiletreeprettyprinter/scanner/DefaultPathToTreeScanner.java:39-97", "jfiletreeprettyprinter-core/src/main/java/io/github/computerdaddyguy/jfiletreeprettyprinter/options/PrettyPrintOptions.java:180-184", "README.md:128-128"]}
{"id": "C176", "title": "Another order only moves lines", "statement": "Without a child limit, two runs that differ in the order and the tree format only print the same lines: below each line the same lines follow, in another order, also when directories are merged. So every label occurs equally often on each level.", "quantifier": "All trees, all pairs of comparators (also such that break the contract, as long as the runs return), all filters, depths, emojis, line extensions, with and without merging of directories, all pairs of tree formats.", "why_tests_cant": "A test compares a few orders on one tree.", "anchors": ["jfiletreeprettyprinter-core/src/main/java/io/github/computerdaddyguy/jfiletreeprettyprinter/scanner/DefaultPathToTreeScanner.java:65-99", "jfiletreeprettyprinter-core/src/main/java/io/github/computerdaddyguy/jfiletreeprettyprinter/renderer/DefaultTreeEntryRenderer.java", "jfiletreeprettyprinter-core/src/main/java/io/github/computerdaddyguy/jfiletreeprettyprinter/options/PrettyPrintOptions.java:171-174"]}
{"id": "C177", "title": "A smaller depth keeps the lines above", "statement": "Without merging of directories, the text for a maximal depth m has exactly the lines that the text for a larger depth has down to level m, character by character and in the same order; and besides them one line '...' below each directory of level m, and nothing else.", "quantifier": "All trees, all depths m not below 0 and not above the other depth, all filters, limits, orders, emojis, line extensions and tree formats.", "why_tests_cant": "A test compares two depths on one tree.", "anchors": ["jfiletreeprettyprinter-core/src/main/java/io/github/computerdaddyguy/jfiletreeprettyprinter/scanner/DefaultPathToTreeScanner.java:46-99", "jfiletreeprettyprinter-core/src/main/java/io/github/computerdaddyguy/jfiletreeprettyprinter/renderer/DefaultTreeEntryRenderer.java"]}
{"id": "C178", "title": "Stricter options only take lines out", "statement": "Without merging of directories, stricter filters (without child limits) only take lines out of the text: the labels that are left stand on the same level and in the same order. Stricter child limits take lines out in the same sense and put in nothing but lines '...'.", "quantifier": "All trees, all pairs of filters or limits of which one is stricter, all orders, depths, emojis, line extensions and tree formats.", "why_tests_cant": "A test compares two settings on one tree.", "anchors": ["jfiletreeprettyprinter-core/src/main/java/io/github/computerdaddyguy/jfiletreeprettyprinter/scanner/DefaultPathToTreeScanner.java:46-99", "jfiletreeprettyprinter-core/src/main/java/io/github/computerdaddyguy/jfiletreeprettyprinter/renderer/DefaultTreeEntryRenderer.java"]}
{"id": "C179", "title": "A change in one directory shows only at that directory", "statement": "When only the contents of one directory d changed (files added, removed, written, at any depth below d) and the options answer alike about everything outside d, the texts printed before and after the change are equal if d is not displayed; otherwise all lines, with their symbols, before and after the lines of the displayed directory that is d or has d merged into its line are equal.", "quantifier": "All pairs of file systems without two equal names in a directory that differ only below d, all pairs of options that answer alike outside d (orders by size and extensions that show sizes included), all depths, limits, filters, with and without merging of directories.", "why_tests_cant": "A test compares the texts around one change.", "anchors": ["jfiletreeprettyprinter-core/src/main/java/io/github/computerdaddyguy/jfiletreeprettyprinter/scanner/DefaultPathToTreeScanner.java:46-99", "jfiletreeprettyprinter-core/src/main/java/io/github/computerdaddyguy/jfiletreeprettyprinter/renderer/DefaultTreeEntryRenderer.java"]}
{"id": "C180", "title": "Format, emojis and extensions do not decide what is displayed", "statement": "With another tree format, other emojis and other line extensions (when directories are merged: null for the same directories) printing returns too, and the two texts have the same number of lines; line by line the branches to the left are the same, both lines are '...' or both show the same name, each with its own emoji before and its own extension behind it.", "quantifier": "All trees, all pairs of options with the same filters, limits, depth, order and the same setting for merging directories.", "why_tests_cant": "A test compares two looks on one tree.", "anchors": ["jfiletreeprettyprinter-core/src/main/java/io/github/computerdaddyguy/jfiletreeprettyprinter/renderer/DefaultTreeEntryRenderer.java", "jfiletreeprettyprinter-core/src/main/java/io/github/computerdaddyguy/jfiletreeprettyprinter/renderer/DefaultLineRenderer.java", "jfiletreeprettyprinter-core/src/main/java/io/github/computerdaddyguy/jfiletreeprettyprinter/renderer/DefaultTreeFormatter.java"]}
{"id": "C181", "title": "The order is asked at most n log n times for a directory", "statement": "Sorting the n paths of a directory calls the comparator given to withSort at most n(16 log2 n + 21) times, and at most 5n times if n < 32, whatever the comparator answers, whether or not it honours the contract, and also if it throws; exactly n-1 times if the listing is already in order or in strictly opposite order. A run that returns calls it at most that often for each displayed directory above the maximal depth, n counting the paths in it that pass the filters.", "quantifier": "All comparators, all listings, all worlds; for whole runs all trees and options whose filters answer.", "why_tests_cant": "A test counts the calls for one listing and one comparator; a quadratic case can hide behind a particular arrangement.", "anchors": ["jfiletreeprettyprinter-core/src/main/java/io/github/computerdaddyguy/jfiletreeprettyprinter/scanner/DefaultPathToTreeScanner.java", "jfiletreeprettyprinter-core/src/main/java/io/github/computerdaddyguy/jfiletreeprettyprinter/options/PrettyPrintOptions.java"]}
{"id": "C182", "title": "What sorting and filtering cost in file-system accesses", "statement": "Asking ALPHABETICAL makes no file-system access, DIRECTORY_FIRST, DIRECTORY_LAST and BY_EXTENSION make at most two per comparison, BY_FILE_SIZE at most four; thenComparing adds, reversed keeps, and a built order makes at most twice the sum over its rules. In an unchanging tree, a run that returns makes at most three accesses for each displayed path, those of the limit function for each opened directory, one plus those of a filter for each path found in an opened directory, and those of one comparison times the comparisons of C181.", "quantifier": "All options whose functions have a bound on their accesses, all trees, all earlier histories.", "why_tests_cant": "A test measures one tree; that the cost of a run grows no faster than n log n in a directory, for every order and filter, is a statement about all of them.", "anchors": ["jfiletreeprettyprinter-core/src/main/java/io/github/computerdaddyguy/jfiletreeprettyprinter/scanner/DefaultPathToTreeScanner.java", "jfiletreeprettyprinter-core/src/main/java/io/github/computerdaddyguy/jfiletreeprettyprinter/options/PathSorts.java", "jfiletreeprettyprinter-core/src/main/java/io/github/computerdaddyguy/jfiletreeprettyprinter/options/PrettyPrintOptions.java"]}
{"id": "C183", "title": "The size of the text", "statement": "Without merging of directories the text has exactly this many characters: for each displayed entry its level times (the width of a symbol plus one), the lengths of its emoji (with the space), name, mark and extension, three for each '...', and one line break fewer than lines. With compactDirectories(true) the same run gives the same text or a strictly shorter one, whatever the emojis and extensions are.", "quantifier": "All options, worlds and histories for which the run returns; all tree formats that can be created.", "why_tests_cant": "A test measures one tree; that merging can never lengthen a text is a statement about all trees, emojis and extensions.", "anchors": ["jfiletreeprettyprinter-core/src/main/java/io/github/computerdaddyguy/jfiletreeprettyprinter/renderer/DefaultTreeEntryRenderer.java", "jfiletreeprettyprinter-core/src/main/java/io/github/computerdaddyguy/jfiletreeprettyprinter/options/TreeFormat.java"]}
{"id": "C184", "title": "The text can be read back by a script", "statement": "The displayed tree can be computed from the text in one pass over its lines: the first line is the root, the level of another line is the number of symbols up to and including the first branch symbol, and a line belongs to the last line before it that is one level higher. This gives back every label on its place, for every tree format whose branch symbols differ from its indentation symbols (the built-in ones do). Without emojis and extensions, splitting labels at '/' and looking at their last character gives back names, merged directories and marks, if no name contains a line break and no file name is '...' or ends in '*' or '?'.", "quantifier": "All options, worlds and runs that return.", "why_tests_cant": "A test parses some outputs; that no label, nesting or combination of last and non-last entries misleads the reader is a statement about all of them.", "anchors": ["jfiletreeprettyprinter-core/src/main/java/io/github/computerdaddyguy/jfiletreeprettyprinter/renderer/DefaultTreeEntryRenderer.java", "jfiletreeprettyprinter-core/src/main/java/io/github/computerdaddyguy/jfiletreeprettyprinter/renderer/DefaultTreeFormatter.java", "jfiletreeprettyprinter-core/src/main/java/io/github/computerdaddyguy/jfiletreeprettyprinter/renderer/DefaultFileFormatter.java"]}
{"id": "C185", "title": "The text tells the paths", "statement": "From the text and the path it was printed for, the absolute paths of everything displayed can be computed, in the order of the lines, whether directories are merged or not and whatever limits and maximal depth leave out (no emojis and extensions, names as in C184). Without a child limit these are exactly the paths the filters accept within the maximal depth, each once.", "quantifier": "All unchanging file trees, options and runs that return.", "why_tests_cant": "A test compares the paths of one tree; that reading never yields a path that was not accepted, nor misses one, is a statement about all trees, filters and orders.", "anchors": ["jfiletreeprettyprinter-core/src/main/java/io/github/computerdaddyguy/jfiletreeprettyprinter/renderer/DefaultTreeEntryRenderer.java", "jfiletreeprettyprinter-core/src/main/java/io/github/computerdaddyguy/jfiletreeprettyprinter/renderer/DefaultFileFormatter.java", "jfiletreeprettyprinter-core/src/main/java/io/github/computerdaddyguy/jfiletreeprettyprinter/scanner/DefaultPathToTreeScanner.java"]}
{"id": "C186", "title": "The program's output tells exactly the paths below the target", "statement": "When the command line program finds no options file and everything below the target can be read, it exits with 0, writes nothing to standard error, and from what it wrote and the target the paths of exactly the files and directories that are at most 20 levels below the target can be computed, each once (names on one line, without '%', files not looking marked).", "quantifier": "All command lines with a target and without debug mode, all unchanging file trees below it, all earlier outputs.", "why_tests_cant": "A test runs the program on one directory; that no path is lost or invented between the words of the command line and the text on standard output is a statement about all command lines and trees.", "anchors": ["jfiletreeprettyprinter-cli/src/main/java/io/github/computerdaddyguy/jfiletreeprettyprinter/cli/FileTreePrettyPrinterCommandLine.java", "jfiletreeprettyprinter-cli/src/main/java/io/github/computerdaddyguy/jfiletreeprettyprinter/cli/PrettyPrintCommand.java", "jfiletreeprettyprinter-core/src/main/java/io/github/computerdaddyguy/jfiletreeprettyprinter/renderer/DefaultTreeEntryRenderer.java", "jfiletreeprettyprinter-core/src/main/java/io/github/computerdaddyguy/jfiletreeprettyprinter/scanner/DefaultPathToTreeScanner.java"]}
{"id": "C187", "title": "Nothing is left out silently", "statement": "If no line of the text is '...', the text displays everything that the filters accept below the path, however deep and however many children there are, each once. A line is '...' exactly if the maximal depth or a child limit applies to some directory reached (no emojis and extensions, names as in C184).", "quantifier": "All unchanging file trees, options and runs that return.", "why_tests_cant": "A test sees that one cut is announced; that no cut anywhere in any tree goes unannounced is a statement about all trees, limits and depths.", "anchors": ["jfiletreeprettyprinter-core/src/main/java/io/github/computerdaddyguy/jfiletreeprettyprinter/renderer/DefaultTreeEntryRenderer.java", "jfiletreeprettyprinter-core/src/main/java/io/github/computerdaddyguy/jfiletreeprettyprinter/renderer/DefaultFileFormatter.java", "jfiletreeprettyprinter-core/src/main/java/io/github/computerdaddyguy/jfiletreeprettyprinter/scanner/DefaultPathToTreeScanner.java"]}
{"id": "C188", "title": "The program says whether its output is complete", "statement": "When the command line program finds no options file and everything below the target can be read, its output contains '...' exactly if a directory lies 20 or more levels below the target; if it does not, the output tells the paths of everything below the target (names as in C186).", "quantifier": "All command lines with a target and without debug mode, all unchanging file trees below it.", "why_tests_cant": "A test runs the program on one directory, and trees with more than 20 levels are rarely tested.", "anchors": ["jfiletreeprettyprinter-cli/src/main/java/io/github/computerdaddyguy/jfiletreeprettyprinter/cli/FileTreePrettyPrinterCommandLine.java", "jfiletreeprettyprinter-cli/src/main/java/io/github/computerdaddyguy/jfiletreeprettyprinter/cli/PrettyPrintCommand.java", "jfiletreeprettyprinter-core/src/main/java/io/github/computerdaddyguy/jfiletreeprettyprinter/renderer/DefaultTreeEntryRenderer.java", "jfiletreeprettyprinter-core/src/main/java/io/github/computerdaddyguy/jfiletreeprettyprinter/renderer/DefaultFileFormatter.java", "jfiletreeprettyprinter-core/src/main/java/io/github/computerdaddyguy/jfiletreeprettyprinter/scanner/DefaultPathToTreeScanner.java"]}
{"id": "C189", "title": "The text tells which paths are directories and which are special files", "statement": "From the text and the path it was printed for, one can compute for every accepted path whether it is a directory (and not a link to one), and otherwise whether the file it leads to, links followed, is a special file (neither regular nor a directory). Links themselves are not told from what they lead to (C17, C60). No child limit, no emojis and extensions, names as in C184.", "quantifier": "All unchanging file trees, options without child limit and runs that return.", "why_tests_cant": "A test compares the kinds in one tree; that no kind is ever mistaken for another is a statement about all trees and names.", "anchors": ["jfiletreeprettyprinter-core/src/main/java/io/github/computerdaddyguy/jfiletreeprettyprinter/renderer/DefaultTreeEntryRenderer.java", "jfiletreeprettyprinter-core/src/main/java/io/github/computerdaddyguy/jfiletreeprettyprinter/renderer/DefaultFileFormatter.java", "jfiletreeprettyprinter-core/src/main/java/io/github/computerdaddyguy/jfiletreeprettyprinter/scanner/DefaultPathToTreeScanner.java"]}
{"id": "C190", "title": "Equal texts mean equal content", "statement": "If two runs for the same place print the same text, in the same tree format, without child limit, emojis and extensions, then the same paths were accepted in both, the same of them are directories (not links to some), and the same of the others lead to special files; so a saved text shows any file added or deleted, and any directory replaced by a file or a link (names as in C184).", "quantifier": "All pairs of unchanging file trees and of runs that return the same text.", "why_tests_cant": "A test compares two texts of two trees; that no two different contents have the same text is a statement about all pairs of trees.", "anchors": ["jfiletreeprettyprinter-core/src/main/java/io/github/computerdaddyguy/jfiletreeprettyprinter/renderer/DefaultTreeEntryRenderer.java", "jfiletreeprettyprinter-core/src/main/java/io/github/computerdaddyguy/jfiletreeprettyprinter/renderer/DefaultFileFormatter.java", "jfiletreeprettyprinter-core/src/main/java/io/github/computerdaddyguy/jfiletreeprettyprinter/scanner/DefaultPathToTreeScanner.java"]}
{"id": "C191", "title": "Equal outputs of the program mean equal content", "statement": "If the command line program, finding no options file, prints the same text for the same place twice (before and after a change, or on two computers), then within 20 levels the same paths exist there, the same of them are directories (not links to some), and the same of the others lead to special files (names as in C186).", "quantifier": "All pairs of command lines with a target and without debug mode, and of unchanging file trees.", "why_tests_cant": "A test compares two outputs; that no two different contents have the same output is a statement about all pairs of trees.", "anchors": ["jfiletreeprettyprinter-cli/src/main/java/io/github/computerdaddyguy/jfiletreeprettyprinter/cli/FileTreePrettyPrinterCommandLine.java", "jfiletreeprettyprinter-cli/src/main/java/io/github/computerdaddyguy/jfiletreeprettyprinter/cli/PrettyPrintCommand.java", "jfiletreeprettyprinter-core/src/main/java/io/github/computerdaddyguy/jfiletreeprettyprinter/renderer/DefaultTreeEntryRenderer.java", "jfiletreeprettyprinter-core/src/main/java/io/github/computerdaddyguy/jfiletreeprettyprinter/scanner/DefaultPathToTreeScanner.java"]}
{"id": "C192", "title": "The program prints the same for copies", "statement": "If the command line program finds no options file, it prints the same text for two directories of the same name and content, wherever they are, in whatever order the operating system lists them and whatever words of the command line ask for them (names as in C186).", "quantifier": "All pairs of command lines with a target and without debug mode, and of unchanging file trees with the same content.", "why_tests_cant": "A test prints one copy; that nothing but name and content has an influence, from the words of the command line to standard output, is a statement about all places, orders and command lines.", "anchors": ["jfiletreeprettyprinter-cli/src/main/java/io/github/computerdaddyguy/jfiletreeprettyprinter/cli/FileTreePrettyPrinterCommandLine.java", "jfiletreeprettyprinter-cli/src/main/java/io/github/computerdaddyguy/jfiletreeprettyprinter/cli/PrettyPrintCommand.java", "jfiletreeprettyprinter-core/src/main/java/io/github/computerdaddyguy/jfiletreeprettyprinter/renderer/DefaultTreeEntryRenderer.java", "jfiletreeprettyprinter-core/src/main/java/io/github/computerdaddyguy/jfiletreeprettyprinter/scanner/DefaultPathToTreeScanner.java"]}
