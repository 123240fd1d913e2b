# Formal model of JFileTreePrettyPrinter — design

Everything lives in `/verif/rocq/theories` (logical prefix `Verif`), Coq 8.16.1, standard library only.

## 1. Shape of the development

| layer | files | content |
|---|---|---|
| base | `Base.v`, `JPath.v`, `World.v` | Java strings as UTF-16 code-unit lists, `String` operations used, Unix `java.nio.file.Path` algebra, the effect monad and the file-system oracle |
| model | `Matchers.v`, `Sorts.v`, `Builders.v`, `EmojiTables.v`, `Emoji.v`, `Options.v`, `Scanner.v`, `Renderer.v`, `Printer.v`, `ExtOptions.v`, `Cli.v`, `Arguments.v`, `Binding.v`, `Examples.v`, `Volume.v`, `Messages.v`, `Version.v`, `Nulls.v`, `Ints.v`, `Stack.v`, `Live.v`, `Threads.v`, `Charset.v`, `Stream.v` | the code, function by function; every definition cites file and lines of `/repo` |
| spec | `Spec*.v` | small definitions, independent of the model's helpers, in which the theorems are stated |
| checks of the model | `Glob.v`, `RepoTests.v` | the JDK's glob language, and the repository's own tests, run against the model (see below) |
| samples | `Samples.v`, `Cases.v`, `CliCases.v`, `CliRefs.v`, `MetaCases.v`, `SchemaCases.v`, `DocCases.v`, `GlobCases.v`, `ExampleCases.v`, `ArgsCases.v`, `ThreadCases.v`, `VolumeCases.v`, `AroundCases.v`, `AskedCases.v`, `LinesCases.v` | concrete file systems, options and documents used by the examples and as witnesses |
| proofs | `*Facts.v` | lemmas |
| properties | `Props*.v` | only the property theorems, each closed by `exact`, each with `Print Assumptions` and an `Example` meeting its hypotheses |

### Effects
A computation is `M A := world -> hist -> res A * hist`: it consults a *world* (oracle for every
file-system call: `lstat`, `stat`, file length, open-directory, close-directory) whose
answers may depend on the complete history of events so far, and it appends events to that history.
So a theorem "for all worlds" covers file systems that change during the run, fail at any point,
are infinitely deep or cyclic. User callbacks (filters, limits, comparators, extensions, emoji mappings, matchers)
are arbitrary computations of that monad: they may do I/O, log events, and throw.
A *static* file system (`fsys : names -> option inode`) induces one particular world; functional
properties (what is displayed) are stated for static file systems.

### Recursion
The scanner recursion is bounded by `maxDepth` in the code itself; the model recurses on
`Z.to_nat (maxDepth - depth)` and has an explicit out-of-fuel exception that is proved unreachable.
The renderer is structurally recursive. `Files.walk` (used by the descendant matchers) recurses on its depth argument.

### Properties that turn out false
When the documented behaviour does not hold of the faithful model, the theorem is named `..._refuted` and exhibits the
witness; the exact behaviour of the code is proved next to it. These are findings (section 4).

## 2. Plan per property

| id | modelled | how |
|---|---|---|
| C01 | renderer, tree formatter, depth | refinement of the monadic renderer to a 10-line layout specification, induction on the entry tree |
| C02 | same | a parser for lines; round trip by induction; then injectivity |
| C03 | TreeFormat constructor, tree formatter | direct, induction on depth |
| C04 | same as C01 | induction on the displayed tree, over consecutive lines of the layout spec |
| C05 | scanner on static file systems | induction on fuel: displayed paths = inductively defined reachable set, NoDup |
| C06 | scanner, stable sort, PathSorts | TimSort as a decision tree of comparisons: every outcome is a permutation, and sorted if the answers honour the contract (invariants of the merges, `TimFacts.v`); strictness from the alphabetical tie-break |
| C07 | scanner + renderer | uniqueness of the sorted permutation under a strict total order, then induction |
| C08, C09, C10 | scanner | induction on the children loop / on fuel |
| C11 | scanner | refuted by witness; general theorem for all negative depths |
| C12, C13, C15 | scanner in an arbitrary world | invariants on the event history |
| C14 | scanner | refuted: for every directory with limit 0, the open and filter events are in the history |
| C16 | scanner, arbitrary world / static | history invariant |
| C17, C18 | scanner `handleFile`, formatter | refuted by witness, plus exact behaviour |
| C19, C20 | scanner in an arbitrary world | history invariant with failure events; C19 refuted through directory iteration |
| C21 | formatter | refuted for all contents |
| C22 | Path algebra, printer | normal-form lemmas |
| C23, C24 | printer | direct, all options |
| C25–C28 | renderer | induction on entry trees, against a separate compaction spec |
| C29–C33 | builders as state machines | induction on rule lists and on later operation sequences; C30, C31, C32 refuted |
| C34, C35 | comparators | algebraic laws on triples; C35 refuted |
| C36–C42 | PathMatchers | induction on lists / on walk depth |
| C43–C46, C48 | emoji builder and functions | C44, C45, C48 refuted |
| C47 | renderer | induction, two runs compared |
| C49, C50 | options object and printer in a small heap | state machine; C50 refuted, exact statement proved |
| C51–C58 | CLI command, console, reader, mapper, exception handler, RecordUtils | state machine on stdout/stderr; `Formatter` for the format strings that occur; C51, C53, C54, C56 refuted |
| C59–C65, C80 | scanner, printer | exact behaviour beside the refuted C11, C14, C17–C21; C80 refuted, C09 and C10 are exact |
| C66–C68 | builders, comparators | exact behaviour beside C30–C32, C35 |
| C69, C70, C79, C96, C97 | PathMatchers | exact behaviour beside C38; invariants on the history for matchers assembled in any way; direct |
| C71–C73 | emoji builder | exact behaviour beside C44, C45, C48 |
| C74 | options object, printer | exact behaviour beside C50 |
| C75–C78, C81, C82 | CLI | exact behaviour beside C51, C54, C56; independent description of accepted documents; C81 refuted, C82 by a simulation between the two runs |
| C83 | CLI | the debug text can be parsed back: induction over the object, lines carry their depth |
| C84, C85 | renderer | C84 refuted; C85: labels determine names when names are clear, on top of C02 |
| C86 | scanner, printer | the converse of C05: where a tree exists the run finds it (uniqueness of the order) |
| C87–C89 | scanner | the tree for the second run is computed from the first (`cut`, `prune`, `select`), induction on trees, then C86 |
| C90, C91 | scanner, renderer | a tree moved to another place and depth is a tree there, and is displayed alike; then C86 |
| C92, C93 | PathSorts, PathSortBuilder, scanner | a list sorted by the refined comparator splits at the change of kind, on top of C06, C33, C34 |
| C94, C95 | scanner | C94: induction on the recursion with the history of every call; C95 refuted: a file moved during the run is shown twice |
| C98 | builders, PathSorts, PathMatchers | invariants on the history for configurations assembled from library parts; on top of C12–C16, C94 |
| C99–C103 | options files, published schema | a file is a tree of values; induction on trees; C99 and C101 refuted, C100 and C102 are exact |
| C104–C110 | PathMatchers with the JDK's globs | the strings an item of a glob stands for, inductively; reading and matching agree with it; C107, C109 refuted |
| C111–C114 | documents with the JDK's globs | stated of the text printed by the options the mapper makes of the document, through C115; on top of C104–C110 and the tree specification; C111, C113 refuted |
| C115, C116 | mapper, printer, command | what a document asks for, stated without the library; the printed text is the only one that shows it (uniqueness as in C86) |
| C117, C118 | scanner, renderer | the events of the history, by induction on the recursion of the scanner and on the entry tree |
| C119, C120 | the programs of the examples module | each program wants a tree, stated without the library (`wish`); what it returns is exactly the text that shows it, through C08/C24-style lemmas about matchers, builders and globs and the uniqueness of C86 |
| C122 | mapper, scanner, the JDK's globs | the positive counterpart of C111: the reachable paths are characterised by induction on the way down; through C115 |
| C121 | console output, command, `java.util.Formatter` | a grammar of the texts that can be written, against the parser of format strings: soundness and completeness by induction on the text |
| C123 | debug mode, command, `java.util.Formatter` | the simulation of C82 with messages as they are written, up to the first that cannot be |
| C124, C125 | scanner, TimSort | C124: the merges give up only if a run is used up that cannot be when the answers honour a contract; runs of the scanner as traces. C125 refuted by 60 files |
| C126, C127 | console output, command, `PrintStream`, `CharsetEncoder` | encoding commutes with putting rows together; a format of replaced symbols still has the lengths that tell rows apart (reuses C85's argument). C126 refuted in ASCII |
| C128, C129 | scanner and printer in an arbitrary world | stack of open streams as an invariant of the trace; simulation between a world and the one with a limited number of handles. C129 refuted for every number of handles |
| C130 | scanner, renderer, in an arbitrary world | induction on the recursion; rows are at most as many as entries; the bound is reached by complete trees |
| C131 | scanner, renderer, on two unchanging file systems | induction on the tree shown before, as for C89; where no displayed entry is missing the limit cuts the same list, elsewhere it cuts nothing |
| C132 | the four rule builders, arguments possibly null (`Nulls.v`) | induction on the calls |
| C133 | the factories of PathMatchers, arguments possibly null | case analysis, induction on the list of matchers |
| C134 | the matchers, `Files.walk` | induction on the depth of the walk, on how the matcher is assembled |
| C135 | `ManifestVersionProvider`, search of the class path | counterexample |
| C136 | `ManifestVersionProvider`, `java.util.jar.Manifest`, the entries of the pom | induction on the class path and on the attributes |
| C137 | scanner, renderer, printer | induction on the tree: a tree of one file system is one of the other; uniqueness (C86) |
| C138 | the scanner with `int` arithmetic (`Ints.v`) | equality with the scanner of `Scanner.v`, by induction on the depth and on the listing |
| C139, C140 | scanner, renderer and printer with a bounded number of stack frames (`Stack.v`), arbitrary world | equality with the unbounded model by induction on the depth and on the tree; a simulation for "the same or an overflow"; C140 refuted for every number of frames |
| C141–C144 | scanner, renderer and printer with an options object that changes during the run (`Live.v`), arbitrary world | induction on the depth (analogue of C94, C12, C15), extensionality in the options that are read, equality with the ordinary model; C144 refuted |
| C145–C147 | calls of the printer as step-by-step programs, interleaved in any order (`Threads.v`), arbitrary world | every call is such a program, also with every part the library offers (closure under the monad); invariant of executions: the thread is where it would be alone in the world of its moments; well-founded step relation; C15, C94 and C128 in that world |
| C148, C149 | `Glob.v` under the glob matchers of `Matchers.v` | the reader of globs inverts the grammar `spells` of SpecGlob.v up to the meaning of items (induction on the grammar) |
| C150, C152 | scanner and printer, messages of exceptions (`Messages.v`), arbitrary world | the run as a trace (C12) refined by what it ends with: induction on the depth and on the listing, the failing access last but for closes |
| C160 | program, command, console, handler of exceptions, arbitrary world | only `print_error` writes to standard error, by induction on the composition of the command |
| C161 | volumes: trees of files with symbolic links and the operating system's search for a path (`Volume.v`) | refuted by a volume with a link and the path `link/..` |
| C162–C164 | volumes | induction on the path (normalising it and searching it commute if `..` follows directories); places below a directory are found at any path of that directory; then C34 and C68 (equal content prints alike), C05 and C15 over the disk a volume induces |
| C165 | volumes that change, depending on all that happened | refuted by a volume in which a directory becomes a link between two accesses |
| C166 | volumes that change | every opening follows its own test and the opening of the directory above (C16, C13 for any functions in the options); induction on the length of the run before |
| C167 | volumes that change | C94 (what is displayed was answered at some moment), induction on the depth of the entry |
| C168 | filters that open directories | what is spent on the children of a directory is spent on the one that leads to the counted directory; induction on the depth |
| C169 | volumes that change, filters that open directories | each step of the scanner and of the walks keeps: what is opened was just tested, and is the root, or opened before, or listed by a directory opened before; then as C166 |
| C170 | arbitrary worlds, pairs of options | same run by induction on the fuel; only members of the sorted list are compared (`holds`); entry paths were listed and accepted; then induction on the tree for the rendering |
| C171 | pairs of static file systems | the tree without the file (C131) loses one leaf; induction on the position of the leaf in the tree, in what is displayed and in the rows |
| C172 | pairs of static file systems | as C171, with any subtree in place of the leaf; no path below the removed entry stands outside its subtree |
| C173, C174 | console output, `PrintStream`, `BufferedOutputStream`, devices | induction on the pieces: either everything has arrived and the buffer is empty, or the failure is noted; a full device stays full. C173 refuted by a full disk |
| C175 | scanner, options | induction on the tree: the displayed children of each kind are the sorted accepted children of that kind, which do not depend on the other filter |
| C176 | scanner, renderer, any comparators | the scanned entries are the same up to order, by induction on the tree; merging looks at single children only; then the rows, by induction on the displayed tree |
| C177, C178 | scanner, renderer | C87–C89 carried over from the displayed tree to the lines of the text, by induction on what is displayed |
| C179 | scanner, renderer | two runs compared: the trees agree outside d (induction on the tree, same sorted listing), then the rows around the one part that differs |
| C180 | renderer | what is shown depends on the view only through the nullness of extensions; then line by line, by induction on what is displayed |
| C181 | TimSort (`Sorts.v`), scanner | the comparisons of every stage are paid from a budget: runs and insertions per path, galloping by the distance, merging by the lengths; mergeCollapse by a potential (height of each path in the stack of runs) with a debt that the next forced merge repays; the invariant of the stack bounds its height by 2 log2 n + 1 |
| C182 | `PathSorts`, scanner | a bound on the events of one comparison multiplies the budget of C181 (induction over the interaction tree of the sort); the scan adds what it costs itself, directory by directory (induction over the scan) |
| C183 | renderer, tree format | exact layout (C01) summed over the rows; induction over `shows`: a merged directory saves a line, its emoji and one level for everything below |
| C184 | renderer, tree format | a reader (`SpecRead.v`) is run on the exact layout of C01: each prefix is consumed up to its branch symbol; the lines, as levels with labels, are gathered into trees (induction on the number of lines) |
| C185 | scanner, renderer | the names read (C184) are put one after the other on the way down; entries of a tree lie in the directory of the entry above (induction over `tree_at`), merged chains step by step (induction over `chain_of`) |
| C186 | command line, scanner, renderer | C116 from the words with the document of an absent options file, then C185; within depth 20 the reached paths are the listed ones (induction both ways) |
| C187 | scanner, renderer | a displayed tree has "..." exactly if its entries have a marker (induction over `shows`), which they have exactly if a depth or limit applies to a reached directory (induction over `tree_at`) |
| C188 | command line, scanner, renderer | C186 and C187; with the default settings only the depth 20 can apply |
| C189 | scanner, renderer | as C185, with the mark of each file (induction over `shows` and `tree_at`) |
| C190 | scanner, renderer | both runs read the same items (C189) |
| C191 | command line, scanner, renderer | C186 and C189 for both runs |
| C192 | command line, scanner, renderer | C186 and C91 |
| C153–C159 | the words of the command line (`Arguments.v`) | a grammar of command lines against the loop of picocli's interpreter: soundness and completeness by induction on the words; C154, C155: each part has an effect, effects of different parts commute; C158 refuted by `@types` and `-x` |
| C151 | command, default handler of exceptions, scanner | C150 and C152 for the calls the command makes, on a steady file system (C88) |

No property is considered inexpressible.

## 3. Trusted base

* Coq 8.16.1's kernel (with the virtual machine, used by `vm_compute` in examples and witnesses). No kernel check is switched off.
* Assumptions: under every property theorem of `Props*.v` stands `Print Assumptions`; each one answers
  "Closed under the global context". There are no axioms, neither own nor from the standard library. (Loading `Lia` and others brings the
  `Under_rel` module of Coq's ssreflect support into the environment; no theorem uses it.)
* The reading of the Java code. Every definition of the model cites the lines it models.
* The reading of the platform the code calls, as far as it is modelled:
  * `java.lang.String`: UTF-16 code units as numbers; `length`, `+`, `lastIndexOf`, `substring`, `split`, `compareTo`, `compareToIgnoreCase`,
    `equalsIgnoreCase`, `repeat`, `stripTrailing` and so on as list functions in `Base.v`. Case folding and lower-casing are parameters
    (`jv_fold`, `jv_lower`), the latter standing for the default locale. Folding works on code points, as in JDK 21: `points` reads a
    text as code points, a lone surrogate being itself; `SpecText.v` says the same as a relation. Simplification: `compareToIgnoreCase` compares
    the numbers of code points left at the end, where Java compares code units; the sign, which is all the code uses, is the same
    as long as folding does not lead from one-unit to two-unit characters, which it does not in Unicode.
  * `java.nio.file.Path` of a Unix file system (`JPath.v`): absolute or relative lists of names. Windows paths are not modelled.
  * `java.nio.file.Files`, `DirectoryStream`, `File`: oracles of the `world` (`World.v`) and of the `cworld` (`Cli.v`). Every answer may depend
    on everything that happened before. Simplification: what a directory stream will deliver is fixed when it is opened. For what is
    claimed of a single run in every world nothing is lost by it: for a run in which entries appear or vanish while a stream is read there is a world
    that decides at the opening what was delivered later, and answers everything else alike.
  * `FileSystem.getPathMatcher("glob:...")`: a parameter `jv_glob`, `None` for a malformed glob; the theorems hold for every glob language except C104–C114, C148 and C149, which are about
    the JDK's on Unix: `Glob.v` models `sun.nio.fs.Globs` (also used by the checks in `RepoTests.v`),
    which translates a glob unit by unit, and `java.util.regex.Pattern`, which reads the result and the texts by code points. Regular expressions: arbitrary predicates.
  * `List.sort` and streams' `sorted()`: `java.util.TimSort` of JDK 21, comparison by comparison: run counting, binary insertion, the stack of pending
    runs, merging in both directions with galloping, and the IllegalArgumentException for a comparator found to break its contract (`Sorts.v`).
    The array is modelled by the lists of the elements of its parts. Not modelled: that arrays have at most 2^31 - 1 elements, and the size of
    the array for the pending runs.
  * For C161–C167 the answers of a Unix operating system about a tree of files with symbolic links (`Volume.v`): the search for a path, name by name, with `..`
    going to the directory a directory lies in and at most 40 links replaced. Every directory may be searched
    (but maybe not listed), there are no mount points, and the directory the process runs in is given by its names from the top.
  * `File.length()` is an oracle (`w_length`), 0 for what does not exist in a static file system.
  * `java.util.Formatter` (`Cli.v`): the parser of format specifiers of JDK 21, `%%`, `%n`, `%s`; which other specifiers are rejected while
    parsing is an oracle (`cw_bad_spec`), and they fail for lack of an argument when they are not.
  * `java.io.PrintStream` and `java.nio.charset.CharsetEncoder` (`Charset.v`, only for C126 and C127): charsets without shift states, given by the bytes
    of each code point; malformed and unmappable input is replaced by "?"; a high surrogate at the end stays in the encoder. Which
    charset the JVM chooses for standard output, and how it decodes file names, is not modelled.
  * `java.io.PrintStream`, `BufferedOutputStream` and `FileOutputStream` (`Stream.v`, only for C173 and C174): System.out flushes after every write of bytes; a
    failing write leaves the buffer as it is, is caught and noted in the field `trouble`. What the device takes is an oracle (`device`).
  * picocli: exceptions of the command go to the exception handler; if that throws, the stack trace is printed and the exit code is 1.
    How picocli 4.7.7 reads the words of the command line with its default settings is modelled in `Arguments.v` (C153–C159): argument files, `--`,
    names with `=` and an attached value, clustered letters, an option of arity 0 that is not a flag taking the next word unless that starts like an option, words
    that resemble options, help and version first, the exit codes 2 for arguments and 1 for exceptions. Oracles (`pico`): which words are numbers, what is in
    argument files, the texts written; and whether the name of an option may be the target after `--` (`pc_lenient`), which is left open.
  * Jackson and Jakarta validation: reading a file gives a failure, a null document, or a document in which any component may be null
    (`cw_load`); validation is modelled by what the annotations say (`valid_options`).
  * For C99–C103, which of these a file gives (`Binding.v`): Jackson 3 with its default settings and the annotations of the model classes. Fields
    are found by exact names, absent and null fields are null, unknown fields are ignored (`FAIL_ON_UNKNOWN_PROPERTIES` is off by default since
    Jackson 3), a missing or unknown `type` and an integer outside the range of `int` are exceptions. What Jackson does with values of an
    unexpected type (conversions) and with repeated keys is left open: there `reads_as` allows every result. The YAML grammar is not modelled:
    a file is the tree of the values in it. JSON Schema: the keywords that occur in the published schema, as draft 2020-12 defines them.
  * Texts of exceptions: those the library writes for failing accesses are modelled (`Messages.v`); the others (written by the JDK, by Jackson, or for
    null and illegal arguments), those of violations and stack traces (`cw_message`, `cw_violations`, `cw_stack_trace`) are arbitrary functions.

## 4. Findings

Documented or expected behaviour that the code does not have. Each has a theorem with a witness and one with the exact behaviour.

| id | expected | actual | exact |
|---|---|---|---|
| C11 | a negative max depth is unlimited | only the root line and "..." are printed | C59 |
| C14 | limit 0 avoids listing the directory | it is opened, listed and every entry is examined | C63 |
| C17 | symbolic links are marked `*` | attributes are read following links, so a link to a file or directory is not marked; the mark goes to what is neither | C60 |
| C18 | a dangling link does not prevent printing | UncheckedIOException for the whole tree | C61 |
| C19 | I/O errors surface as UncheckedIOException | a failing iteration throws DirectoryIteratorException | C64 |
| C20 | an I/O failure never yields output | a failing kind test turns a directory into a file; the run goes on and prints it | C65 |
| C21 | "/" can be printed | NullPointerException, for all contents and options | C62 |
| C30 | the child-limit default applies when no rule matches | as soon as there is a rule the default is never used; when no rule applies the answer is the last rule's negative one | C66 |
| C31 | the first matching limit rule wins | a matching rule with a negative limit is skipped | C66 |
| C32 | a built child limit is independent of its builder | it reads the builder's default when called | C66, C67 |
| C35 | BY_FILE_SIZE puts directories first | directories count as size 0, so an empty file can come before them | C68 |
| C38 | the absolute-path matcher sees the absolute normalized path | `toAbsolutePath` after `normalize`: a leading ".." stays | C69 |
| C44 | an emoji of a name can be overridden ignoring case | two keys that differ in case only are rejected when building | C71 |
| C45 | a built emoji mapping is immutable | it shares its rules with the builder | C72 |
| C48 | default emojis do not depend on the locale | keys are lower-cased in the default locale (Turkish dotless i) | C73 |
| C50 | a built printer is independent of the options object | it reads the mutable object at every call | C74 |
| C51 | the CLI prints exactly the tree | the tree is used as a format string: a name with '%' breaks or changes it | C75 |
| C53 | the second fallback is beside the executable | it is the current directory | C52 |
| C54 | the first matching limit item of a document wins | items with negative limits are skipped | C77 |
| C56 | a failing command prints its message | the message is used as a format string | C76 |
| C80 | "..." means that something was left out | an empty directory at the maximal depth has one; README shows "... (max depth reached)" but both cuts print "..." | C09, C10 |
| C81 | debug mode changes nothing but its messages | a path with '%' makes the debug run fail | C82, C123 |
| C84 | the text tells names and kinds | a regular file "x?" looks like a special file "x"; a file "..." looks like omitted children; a name with a line break looks like two files | C85 |
| C95 | the text shows a state the file system was in | directories are read one after the other, so a file moved meanwhile can appear twice or not at all | C94 |
| C125 | any comparator that returns will do | `List.sort` throws IllegalArgumentException for some comparators that break their contract | C05, C124 |
| C126 | what arrives on standard output tells the tree | in ASCII (the C locale) characters outside ASCII, also the symbols of the tree, arrive as "?" | C127 |
| C129 | a fixed number of directory handles is enough | a directory's stream stays open while what is below it is scanned: one handle for each level | C128 |
| C140 | a fixed stack is enough | the scanner needs three frames for each level of directories | C139 |
| C144 | a run during which the options change shows one of the settings | the filters are read at the start, the other options when they are needed: the text can mix them | C141 |
| C99 | a file that follows the published schema is accepted | not with an empty glob, an empty list of matchers or limits (`invalid.yaml` of the repository's tests conforms), or a number too big for `int` | C100 |
| C101 | a file that does not follow the schema is refused | unknown keys are ignored, so a misspelt option silently has no effect; null and any negative limit are accepted | C102 |
| C107 | `dir/**` matches everything below dir | not names with line terminators (the glob becomes the regular expression `.*`) | C108 |
| C109 | the documented examples of the glob matchers | spelled `**\*.java`, where the backslash escapes the star: no Java file matches; no exception outside the reference | C110 |
| C111 | a directory filter `src/main/java/**` keeps the directories below | it rejects `src`, so no directory is displayed at all | C112, C122 |
| C113 | the README's example options file shows the Java files under src/main | its directory filter is a name glob with '/', which no name matches: only files directly in the target | C114 |
| C135 | `--version` is about this program | the first manifest of the class path is read, which may be that of another archive | C136 |
| C158 | every path can be given as the only argument | a path starting with '-' is refused as an unknown option; a directory such as `@types` is taken for an argument file and the program fails with a stack trace | C159 |
| C161 | printed is what the operating system finds at the path | the path is normalised first: `link/..` prints the directory that contains the link, `link/.` the link as a file | C162 |
| C165 | only directories below the printed path are opened, whatever changes meanwhile | a directory that is replaced by a link after it was tested is opened through the link, and what it leads to is shown | C166 |
| C173 | exit code 0 means that the tree has been written | the stream is never asked whether writing failed (`checkError`): on a full disk or a closed pipe the exit code is 0 and nothing is reported; a device that fails once may even get bytes twice | C174 |

Smaller ones, visible in the model or in examples:

* `-o` is declared with arity 0 (PrettyPrintCommand.java:43): `--options=FILE` and `-o=FILE` are refused (C157), and `-o` without a file means the
  current directory, so the command fails instead of using the default (C156).
* Messages are format strings too (C121). The JDK's message for a text with `%s` is `Format specifier '%s'`, so the handler fails on it in turn and the
  user gets a stack trace instead of an `[ERROR]` line.
* Of the rules of the example programs, two never apply: LineExtension.java:22 repeats line 19, and the line break of ProjectStructure.java:120
  is for `src/main/java` of the project itself, which has no such directory (`comments_wish`, `project_wish`; the sources are in its modules).
* `PathMatchers.hasRelativePathMatching` documents an IllegalArgumentException for paths outside the reference; instead the matcher is
  asked about a path beginning with ".." (C37).
* Relative to a directory, `**/*.java` does not match the Java files in the directory itself, and matches Java files outside it (C110).
* `hasNameMatchingGlob("*")` is true for the root, though documented to be false for paths without a name (C42).
* A relative path of one name has no parent, so parent and sibling matchers are false for it (C39, C41).
* BY_EXTENSION and the emoji extensions treat names consisting of dots as having no extension.
* CLASSIC_ASCII contains U+2502 for continuation lines, which is not ASCII (its Javadoc shows it too).
* A YAML document `null` makes `Validator.validate(null)` throw IllegalArgumentException, exit code 1.
* The pom of the command line module has neither a description nor an scm section of its own (only that of the core module has), so the manifest
  entries `${project.description}` and `${scm.url}` (pom.xml:90-91) have nothing to refer to.
* The schema itself contains trailing commas, which JSON does not allow.
* In documents the field `emojis: false` has the effect of an absent field; the same holds for `compactDirectories`.

## 5. Modelled / not modelled

Modelled, function by function: all classes of `jfiletreeprettyprinter-core` (`scanner`, `renderer`, `options` and the printer with its
builder), and of `jfiletreeprettyprinter-cli` the command, console, exception handler, options loader, readers, mapper, model,
`RecordUtils`, `ManifestVersionProvider` and the declaration of the arguments.

Simplified:

* Null checks of Java arguments (`Objects.requireNonNull`) are modelled for the setters of the options (`set_option`), the rule builders and the matcher
  factories (`Nulls.v`) and the printer builder (`client_exec`). A null path given to `prettyPrint`, to a matcher or to a comparator is not modelled.
* Comparators and the rules of a `PathSorts` builder are computations like the other callbacks: they may access the file system, log and throw
  (C12–C16, C19, C20, C33, C63–C65, C94 allow that). What is displayed (C05–C10, C34, C68, C92, C93) is stated for comparators whose answer for two
  paths does not depend on when it is asked for; the built-in ones are shown to be such on a file system that does not change.
* Threads (`Threads.v`, C145–C147): an access to the file system is one step; a call shares only the file system with other calls. The fields of the
  printer, scanner and renderers are final and there is no mutable static state; the functions in the options share no state of their own. The Java
  memory model is not modelled (nothing that is written is shared).
* Except in `Live.v` (C141–C144), the options object does not change while `prettyPrint` runs. In `Live.v` it changes with events, not between
  two reads with no event in between.
* `..` in a static file system (`static_disk`) is resolved lexically. `Volume.v` (C161–C167) has symbolic links and resolves `..` as Unix does.
* StackOverflowError occurs in `Stack.v` only, where the calls of the scanner's, the renderer's and the printer's own methods take one frame each (C139);
  elsewhere the stack is unbounded. OutOfMemoryError is not modelled, nor threads outside `Threads.v`. Integers that are compared
  or counted are unbounded (`Z`); for the depth and the number of children C138 proves that this makes no difference.

Failures of writing to the console occur in `Stream.v` (C173, C174) only, for what the command itself writes; `Cli.v` has the texts that are written.

Not modelled: the texts picocli writes about wrong arguments and for `--help`, and colours; the YAML
grammar and the conversions Jackson makes between types of values; the interface and annotation-only types (`FileFormatter`, `LineRenderer`,
`ExternalOptionsMapper`, ...), which have no behaviour of their own; native-image configuration.

## 6. Wrong programs

`seeded/LOG.jsonl` records edits of the model made in a scratch copy, the claim each breaks, and the theorems that fail. A theorem that
survives an edit that makes its claim false is tightened.

## The repository's tests, run against the model

`RepoTests.v` transcribes the repository's tests (the programs of the examples module are those of `Examples.v`, except that the depth of
`hasAnyDescendantMatching` in ProjectStructure is 30 there): those of the core module (trees, options, builders, sorts, matchers, emojis), of the
examples module (with the files of its resources, and with the whole project for `ProjectStructureTest`) and of the command line (each
options file as a tree of values, and the document it is read as). Each is an `Example` comparing the text computed by the model, byte for byte, with the text in the Java test;
all of them are accepted. These are tests, not proofs: they are evidence that the model is the code, and no theorem depends on them.

* Directory listings are given in an order other than the sorted one.
* `ProjectStructureTest` holds only once the core module is built: its expected line `...` below `jfiletreeprettyprinter-core` stands for
  `jfiletreeprettyprinter-core/target`, so the transcription adds that directory to the files of the repository.
* Not transcribed: the test of a file that is not YAML of the right shape (`malformed.yaml`), and the tests that only check annotations.
