(** * Effects: exceptions, file-system oracle, event history.

    Everything the Java code obtains from the JVM/OS is an answer of a [world];
    answers may depend on the whole history of earlier events, so a theorem quantified
    over all worlds covers file systems that change or fail at any point of the run. *)

From Verif Require Export JPath.

(** What the library, or the JDK while walking, was doing when an UncheckedIOException arose: listing a directory
    (DefaultPathToTreeScanner.java:59), reading attributes (DefaultPathToTreeScanner.java:107), starting [Files.walk] (PathMatchers.java:698),
    advancing in it (PathMatchers.java:693-696; the JDK's FileTreeIterator wraps the failure itself). *)
Inductive io_task := ListFiles | ReadAttributes | WalkStart | WalkNext.

(** Exceptions that can leave the library. [ExFuel] is not a Java exception: it marks exhausted recursion fuel of the model and is proved
    unreachable. DefaultPathToTreeScanner.java:59, 107; PathMatchers.java:63, 220, 309, 346, 489, 698; MappingUtils.java:14-23. *)
Inductive exn :=
| ExUncheckedIO (t : io_task) (p : path)   (* java.io.UncheckedIOException *)
| ExDirectoryIterator (p : path)    (* java.nio.file.DirectoryIteratorException *)
| ExNullPointer
| ExIllegalArgument
| ExIllegalState
| ExPatternSyntax (glob : jstring)
| ExUser (n : nat)                  (* whatever a user callback throws *)
| ExStackOverflow                   (* java.lang.StackOverflowError; raised by the model of Stack.v only *)
| ExFuel.

(** How a call ends: it returns or throws (FileTreePrettyPrinter.java:25-40; DefaultPathToTreeScanner.java:59, 107). *)
Inductive res (A : Type) := Ok (a : A) | Throw (e : exn).
Arguments Ok {A} a.
Arguments Throw {A} e.

(** File kinds reported by [BasicFileAttributes]. DefaultPathToTreeScanner.java:104, DefaultFileFormatter.java:25-27, PathMatchers.java:555, 586,
    597. *)
Inductive kind := KReg | KDir | KLink | KOther.

(** [isDirectory], [isRegularFile], [isSymbolicLink] of the attributes: PathMatchers.java:555, 586, 597, DefaultFileFormatter.java:25-27. *)
Definition kind_eqb (a b : kind) : bool :=
  match a, b with
  | KReg, KReg | KDir, KDir | KLink, KLink | KOther, KOther => true
  | _, _ => false
  end.

(** What a call does that can be observed from outside: DefaultPathToTreeScanner.java:40, 55, 72, 104; PathSorts.java:27;
    PathMatchers.java:555-597, 692; the callbacks of PrettyPrintOptions.java:34, 88, 155, 182, 221. *)
Inductive event :=
| EvLstat (p : path) (r : option kind)       (* attributes, NOFOLLOW_LINKS; None = IOException *)
| EvStat (p : path) (r : option kind)        (* attributes, following links; None = IOException *)
| EvLength (p : path) (n : Z)                (* File.length(), following links; 0 if it cannot be read *)
| EvOpen (p : path)                          (* Files.newDirectoryStream succeeded *)
| EvOpenFail (p : path)                      (* Files.newDirectoryStream threw IOException *)
| EvIterFail (p : path)                      (* reading the next directory entry failed *)
| EvClose (p : path) (ok : bool)             (* the directory stream was closed *)
| EvUser (tag : nat) (p : path).             (* a user callback was invoked *)

(** Most recent event first. Of DefaultPathToTreeScanner.java:33-109 and whatever the callbacks do. *)
Definition hist := list event.

(** What an open directory stream will deliver: names, then possibly an I/O error. Simplification: fixed when the directory is opened.
    DefaultPathToTreeScanner.java:55-57, 94-99; PathMatchers.java:692. *)
Record dirlist := mkDirlist { dl_names : list jstring; dl_fail : bool }.

(** Facts about the JVM that do not change during a run. FileSystems.getDefault() (PathMatchers.java:309, 346, 489), toAbsolutePath
    (DefaultFileTreePrettyPrinter.java:23), toLowerCase (MappingUtils.java:19, PathNameEmojiFunction.java:24, PathExtensionEmojiFunction.java:44),
    equalsIgnoreCase and compareToIgnoreCase (PathMatchers.java:440, PathSorts.java:99, 112). *)
Record jvm := mkJvm {
  jv_cwd : list jstring;                           (* current directory, names of an absolute path *)
  jv_lower : jstring -> jstring;                   (* String.toLowerCase() in the default locale *)
  jv_fold : N -> N;                                (* toLowerCase(toUpperCase(c)) of a code point, see Base *)
  jv_glob : jstring -> option (path -> bool)       (* FileSystem.getPathMatcher("glob:" + g); None = PatternSyntaxException *)
}.

(** What the operating system answers, after whatever happened before: attributes without and with following links (PathMatchers.java:555, 586,
    597; DefaultPathToTreeScanner.java:104), lengths (PathSorts.java:27), opening and closing directories (DefaultPathToTreeScanner.java:55,
    PathMatchers.java:692). *)
Record world := mkWorld {
  w_lstat : hist -> path -> option kind;
  w_stat : hist -> path -> option kind;
  w_length : hist -> path -> Z;
  w_open : hist -> path -> option dirlist;
  w_close_ok : hist -> path -> bool;
  w_jvm : jvm
}.

(** A piece of Java code that may throw and may ask the operating system, such as DefaultPathToTreeScanner.java:33-36. *)
Definition M (A : Type) := world -> hist -> res A * hist.

(** A Java return, such as DefaultPathToTreeScanner.java:62. *)
Definition ret {A} (a : A) : M A := fun _ h => (Ok a, h).

(** A Java throw, such as DefaultPathToTreeScanner.java:59, 107. *)
Definition throw {A} (e : exn) : M A := fun _ h => (Throw e, h).

(** Java sequencing of statements, such as DefaultPathToTreeScanner.java:56-57: nothing is executed after a throw. *)
Definition bind {A B} (m : M A) (f : A -> M B) : M B :=
  fun w h => match m w h with
             | (Ok a, h') => f a w h'
             | (Throw e, h') => (Throw e, h')
             end.

Notation "x <- m ; k" := (bind m (fun x => k))
  (at level 61, m at next level, right associativity).
Notation "m ;; k" := (bind m (fun _ => k)) (at level 61, right associativity).

(** [Files.isDirectory(p, NOFOLLOW_LINKS)] and the attribute reads behind it (an IOException counts as "no such kind"). PathMatchers.java:555,
    586, 597. *)
Definition lstat (p : path) : M (option kind) :=
  fun w h => let r := w_lstat w h p in (Ok r, EvLstat p r :: h).

(** [Files.readAttributes(p, BasicFileAttributes.class)], which follows links: DefaultPathToTreeScanner.java:104. [None] is an IOException. *)
Definition stat (p : path) : M (option kind) :=
  fun w h => let r := w_stat w h p in (Ok r, EvStat p r :: h).

(** [p.toFile().length()]. PathSorts.java:27. *)
Definition file_length (p : path) : M Z :=
  fun w h => let n := w_length w h p in (Ok n, EvLength p n :: h).

(** [Files.isDirectory], [Files.isRegularFile] with NOFOLLOW_LINKS, [Files.isSymbolicLink]: PathMatchers.java:555, 586, 597. *)
Definition has_kind (k : kind) (p : path) : M bool :=
  r <- lstat p;
  ret (match r with Some k' => kind_eqb k' k | None => false end).

(** [Files.newDirectoryStream(p)]: [None] is an IOException. DefaultPathToTreeScanner.java:55; within Files.walk at PathMatchers.java:692. *)
Definition open_dir (p : path) : M (option dirlist) :=
  fun w h => match w_open w h p with
             | Some dl => (Ok (Some dl), EvOpen p :: h)
             | None => (Ok None, EvOpenFail p :: h)
             end.

(** [DirectoryStream.close()]: [false] is an IOException. At the end of the try statements of DefaultPathToTreeScanner.java:55-60 and
    PathMatchers.java:692-696. *)
Definition close_dir (p : path) : M bool :=
  fun w h => let ok := w_close_ok w h p in (Ok ok, EvClose p ok :: h).

(** Reading the next entry of a directory fails, DefaultPathToTreeScanner.java:72, PathMatchers.java:692-696. *)
Definition iter_fail (p : path) : M unit := fun _ h => (Ok tt, EvIterFail p :: h).

(** Body of a try-with-resources on the stream of [p]: close on every exit; an exception of the body wins over one of close (which is then merely
    suppressed); a failing close after a normal exit throws [on_close_fail]. DefaultPathToTreeScanner.java:55-60. *)
Definition with_close {A} (p : path) (on_close_fail : exn) (body : M A) : M A :=
  fun w h => match body w h with
             | (Ok a, h') =>
                 match close_dir p w h' with
                 | (Ok true, h'') => (Ok a, h'')
                 | (_, h'') => (Throw on_close_fail, h'')
                 end
             | (Throw e, h') => let (_, h'') := close_dir p w h' in (Throw e, h'')
             end.

(** Reads what does not change in a run (PathMatchers.java:309, 366, 440). *)
Definition get_jvm : M jvm := fun w h => (Ok (w_jvm w), h).

(** A loop that collects its results, such as the stream of DefaultFileFormatter.java:17-19. *)
Fixpoint mapM {A B} (f : A -> M B) (l : list A) : M (list B) :=
  match l with
  | [] => ret []
  | a :: l' => b <- f a; bs <- mapM f l'; ret (b :: bs)
  end.

(** The filter of a directory stream, DefaultPathToTreeScanner.java:55. *)
Fixpoint filterM {A} (f : A -> M bool) (l : list A) : M (list A) :=
  match l with
  | [] => ret []
  | a :: l' => b <- f a; r <- filterM f l'; ret (if b then a :: r else r)
  end.

(** ** Static file systems: a tree that does not change and does not fail.

    Keys are the names of absolute normalized paths. *)
(** What a link leads to, as seen by DefaultPathToTreeScanner.java:104. *)
Inductive inode_target := TReg | TDir | TOther.

(** What there can be at a path, as seen by DefaultPathToTreeScanner.java:40, 55, 104. *)
Inductive inode :=
| IReg (size : Z)
| IDir (entries : list jstring)
| IDenied                                  (* a directory that cannot be opened *)
| ILink (target : option inode_target)     (* None: dangling *)
| IOther.

(** A file system that does not change, as seen by DefaultPathToTreeScanner.java:40, 55, 104. *)
Definition fsys := list jstring -> option inode.

(** The answer to PathMatchers.java:555, 586, 597. *)
Definition lkind (i : inode) : kind :=
  match i with
  | IReg _ => KReg | IDir _ | IDenied => KDir | ILink _ => KLink | IOther => KOther
  end.

(** The answer to DefaultPathToTreeScanner.java:104; [None] is an IOException. *)
Definition skind (i : inode) : option kind :=
  match i with
  | IReg _ => Some KReg | IDir _ | IDenied => Some KDir | IOther => Some KOther
  | ILink None => None
  | ILink (Some TReg) => Some KReg
  | ILink (Some TDir) => Some KDir
  | ILink (Some TOther) => Some KOther
  end.

(** [File.length()]: unspecified for what is not a regular file. Simplification: the size behind a link is not modelled. PathSorts.java:27. *)
Definition ilength (i : inode) : Z :=
  match i with IReg n => n | IDir _ | IDenied => 4096 | ILink _ | IOther => 0 end%Z.

(** Where the operating system looks for a path given at DefaultPathToTreeScanner.java:40, 55, 104. *)
Definition fs_names (cwd : list jstring) (p : path) : list jstring :=
  norm_names true (p_names (to_absolute cwd p)).

(** What the operating system finds for a path given at DefaultPathToTreeScanner.java:40, 55, 104. *)
Definition fs_lookup (fs : fsys) (cwd : list jstring) (p : path) : option inode :=
  fs (fs_names cwd p).

(** Helper of [static_world] (answers to DefaultPathToTreeScanner.java:40, 55, 104). *)
Definition opt_bind {A B} (o : option A) (f : A -> option B) : option B :=
  match o with Some a => f a | None => None end.

(** The world of a static file system: no operation depends on the history, nothing fails except reading missing files / dangling links and
    opening denied directories. Simplification: ".." is resolved lexically, and a path below a link to a directory is whatever [fs] says (the library
    never builds such a path by itself). It answers DefaultPathToTreeScanner.java:40, 55, 104 and PathMatchers.java:555-597, 692. *)
Definition static_world (fs : fsys) (j : jvm) : world := {|
  w_lstat := fun _ p => opt_bind (fs_lookup fs (jv_cwd j) p) (fun i => Some (lkind i));
  w_stat := fun _ p => opt_bind (fs_lookup fs (jv_cwd j) p) skind;
  w_length := fun _ p => match fs_lookup fs (jv_cwd j) p with Some i => ilength i | None => 0%Z end;
  w_open := fun _ p => opt_bind (fs_lookup fs (jv_cwd j) p)
                         (fun i => match i with IDir l => Some (mkDirlist l false) | _ => None end);
  w_close_ok := fun _ _ => true;
  w_jvm := j
|}.
