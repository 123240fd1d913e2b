(** * Unix [java.nio.file.Path] algebra.

    Model of the JDK's UnixPath operations the library calls (not repository code).
    A path is an absolute flag and its name elements; ["/"] is [mkPath true []],
    the empty path is [mkPath false []]. Windows roots are not modelled. *)

From Verif Require Export Base.

(** The argument of FileTreePrettyPrinter.java:25-40 and of all functions of PathMatchers.java:419-692; not modelled: file systems other than the
    default one. *)
Record path := mkPath { p_abs : bool; p_names : list jstring }.

(** Equality of name elements, part of [Path.equals].  Called at PathMatchers.java:685. *)
Definition names_eqb : list jstring -> list jstring -> bool :=
  fix go a b := match a, b with
                | [], [] => true
                | x :: a', y :: b' => jeqb x y && go a' b'
                | _, _ => false
                end.

(** [Path.equals]. Called at PathMatchers.java:685. *)
Definition path_eqb (a b : path) : bool :=
  Bool.eqb (p_abs a) (p_abs b) && names_eqb (p_names a) (p_names b).

(** [Path.of(String)]: a leading '/' makes the path absolute, redundant '/' are dropped. Called at FileTreePrettyPrinter.java:35, 39. *)
Definition parse_names (s : jstring) : list jstring :=
  filter (fun w => negb (jeqb w [])) (split_on c_slash s).

(** [Path.of(String)], called at FileTreePrettyPrinter.java:35, ExternalOptionsReader.java:23-24, PrettyPrintCommand.java:78. *)
Definition path_of (s : jstring) : path :=
  mkPath (match s with x :: _ => N.eqb x c_slash | [] => false end) (parse_names s).

(** [Path.of(first, more)] with one additional string (empty strings are ignored). Called at FileTreePrettyPrinter.java:39. *)
Definition path_of2 (first more : jstring) : path :=
  path_of (match more with
           | [] => first
           | _ => match first with [] => more | _ => first ++ [c_slash] ++ more end
           end).

(** [Path.toString]. Called at DefaultFileFormatter.java:18, 24, PathMatchers.java:419-518, PathSorts.java:18. *)
Definition path_str (p : path) : jstring :=
  (if p_abs p then [c_slash] else []) ++ join [c_slash] (p_names p).

(** [Path.getFileName]: null for "/", the empty path for the empty path. Called at PathMatchers.java:398-518, PathSorts.java:17, 91-92,
    DefaultFileFormatter.java:18, 24. *)
Definition get_file_name (p : path) : option path :=
  match rev (p_names p) with
  | [] => if p_abs p then None else Some (mkPath false [])
  | n :: _ => Some (mkPath false [n])
  end.

(** [Path.getParent]. Called at PathMatchers.java:613, 629, 634, 685. *)
Definition get_parent (p : path) : option path :=
  match rev (p_names p) with
  | [] => None
  | [_] => if p_abs p then Some (mkPath true []) else None
  | _ :: r => Some (mkPath (p_abs p) (rev r))
  end.

(** [Path.resolve(String)] for a single name. Called for the entries of a directory by the stream of DefaultPathToTreeScanner.java:55 and by
    Files.walk, PathMatchers.java:692; also at ExternalOptionsReader.java:22-24. *)
Definition resolve_name (a : path) (n : jstring) : path := mkPath (p_abs a) (p_names a ++ [n]).

(** The name ".", for FileTreePrettyPrinter.java:39. *)
Definition n_dot : jstring := [c_dot].

(** The name "..", see [normalize] and [relativize] (PathMatchers.java:384-390). *)
Definition n_dotdot : jstring := [c_dot; c_dot].

(** [Path.normalize]: one pass with a stack (most recent name first). The JDK makes several passes removing adjacent [name/..] pairs; both compute
    the same normal form. Called at DefaultFileTreePrettyPrinter.java:23, DefaultPathToTreeScanner.java:34, PathMatchers.java:366, 384, 386. *)
Definition norm_step (abs : bool) (st : list jstring) (n : jstring) : list jstring :=
  if jeqb n n_dot then st
  else if jeqb n n_dotdot then
         match st with
         | [] => if abs then [] else [n_dotdot]
         | t :: st' => if jeqb t n_dotdot then n_dotdot :: st else st'
         end
       else n :: st.

(** The names of [Path.normalize], called at DefaultFileTreePrettyPrinter.java:23, DefaultPathToTreeScanner.java:34, PathMatchers.java:366, 384,
    386. *)
Definition norm_names (abs : bool) (l : list jstring) : list jstring :=
  rev (fold_left (norm_step abs) l []).

(** [Path.normalize], called at DefaultFileTreePrettyPrinter.java:23, DefaultPathToTreeScanner.java:34, PathMatchers.java:366, 384, 386. *)
Definition normalize (p : path) : path := mkPath (p_abs p) (norm_names (p_abs p) (p_names p)).

(** [Path.toAbsolutePath], the current directory being the absolute path with names [cwd]. Called at DefaultFileTreePrettyPrinter.java:23,
    DefaultPathToTreeScanner.java:34, PathMatchers.java:366, 384, 386. *)
Definition to_absolute (cwd : list jstring) (p : path) : path :=
  if p_abs p then p else mkPath true (cwd ++ p_names p).

(** [Path.relativize], the names of two normalized paths of the same kind: skip the common prefix, then one ".." per remaining base name. Called
    at PathMatchers.java:390. *)
Fixpoint relativize_names (base child : list jstring) : list jstring :=
  match base, child with
  | b :: base', c :: child' =>
      if jeqb b c then relativize_names base' child'
      else map (fun _ => n_dotdot) base ++ child
  | _, _ => map (fun _ => n_dotdot) base ++ child
  end.

(** [Path.relativize] for two absolute paths: UnixPath normalizes both first if one of them contains "." or ".." (normalizing changes nothing
    otherwise). Called at PathMatchers.java:390. *)
Definition relativize (base child : path) : path :=
  mkPath false (relativize_names (p_names (normalize base)) (p_names (normalize child))).

(** Name elements that can occur in a parsed path. As delivered by the stream of DefaultPathToTreeScanner.java:55. *)
Definition good_name (n : jstring) : Prop := n <> [] /\ ~ In c_slash n.

(** Names of entries of directories: the stream of DefaultPathToTreeScanner.java:55 does not deliver "." and "..". *)
Definition real_name (n : jstring) : Prop := good_name n /\ n <> n_dot /\ n <> n_dotdot.
