(** * Model of options/PrettyPrintOptions.java *)

From Verif Require Export Builders Emoji Sorts.

(** PrettyPrintOptions.java:31, 65, 85, 112, 132, 152, 178-179, 217. *)
Record options := mkOptions {
  o_child_limit : limit_fn;
  o_tree_format : tree_format;
  o_emoji : emoji_fn;
  o_compact : bool;
  o_max_depth : Z;
  o_comparator : comparator;
  o_dir_matcher : matcher;
  o_file_matcher : matcher;
  o_line_extension : option ext_fn
}.

(** PrettyPrintOptions.java:25-27 with the field initialisers. *)
Definition default_options : options := {|
  o_child_limit := fun _ => ret UNLIMITED;
  o_tree_format := UNICODE_BOX_DRAWING;
  o_emoji := emoji_none;
  o_compact := false;
  o_max_depth := 20;
  o_comparator := ALPHABETICAL;
  o_dir_matcher := fun _ => ret true;
  o_file_matcher := fun _ => ret true;
  o_line_extension := None
|}.

(** PrettyPrintOptions.java:58-61. *)
Definition with_child_limit_fn (f : limit_fn) (o : options) : options :=
  mkOptions f (o_tree_format o) (o_emoji o) (o_compact o) (o_max_depth o)
            (o_comparator o) (o_dir_matcher o) (o_file_matcher o) (o_line_extension o).
(** PrettyPrintOptions.java:44-46. *)
Definition with_child_limit (n : Z) (o : options) : options := with_child_limit_fn (fun _ => ret n) o.
(** PrettyPrintOptions.java:78-81. *)
Definition with_tree_format (f : tree_format) (o : options) : options :=
  mkOptions (o_child_limit o) f (o_emoji o) (o_compact o) (o_max_depth o)
            (o_comparator o) (o_dir_matcher o) (o_file_matcher o) (o_line_extension o).
(** PrettyPrintOptions.java:105-108; withDefaultEmojis (95-98) is this applied to [emoji_create_default]. *)
Definition with_emojis (e : emoji_fn) (o : options) : options :=
  mkOptions (o_child_limit o) (o_tree_format o) e (o_compact o) (o_max_depth o)
            (o_comparator o) (o_dir_matcher o) (o_file_matcher o) (o_line_extension o).
(** PrettyPrintOptions.java:125-128. *)
Definition with_compact_directories (c : bool) (o : options) : options :=
  mkOptions (o_child_limit o) (o_tree_format o) (o_emoji o) c (o_max_depth o)
            (o_comparator o) (o_dir_matcher o) (o_file_matcher o) (o_line_extension o).
(** PrettyPrintOptions.java:145-148. *)
Definition with_max_depth (d : Z) (o : options) : options :=
  mkOptions (o_child_limit o) (o_tree_format o) (o_emoji o) (o_compact o) d
            (o_comparator o) (o_dir_matcher o) (o_file_matcher o) (o_line_extension o).
(** PrettyPrintOptions.java:171-174. *)
Definition with_sort (c : comparator) (o : options) : options :=
  mkOptions (o_child_limit o) (o_tree_format o) (o_emoji o) (o_compact o) (o_max_depth o)
            (then_comparing c ALPHABETICAL) (o_dir_matcher o) (o_file_matcher o) (o_line_extension o).
(** PrettyPrintOptions.java:195-198. *)
Definition filter_directories (m : matcher) (o : options) : options :=
  mkOptions (o_child_limit o) (o_tree_format o) (o_emoji o) (o_compact o) (o_max_depth o)
            (o_comparator o) m (o_file_matcher o) (o_line_extension o).
(** PrettyPrintOptions.java:209-212. *)
Definition filter_files (m : matcher) (o : options) : options :=
  mkOptions (o_child_limit o) (o_tree_format o) (o_emoji o) (o_compact o) (o_max_depth o)
            (o_comparator o) (o_dir_matcher o) m (o_line_extension o).
(** PrettyPrintOptions.java:241-244. *)
Definition with_line_extension (x : option ext_fn) (o : options) : options :=
  mkOptions (o_child_limit o) (o_tree_format o) (o_emoji o) (o_compact o) (o_max_depth o)
            (o_comparator o) (o_dir_matcher o) (o_file_matcher o) x.

(** PrettyPrintOptions.java:182-184. *)
Definition path_filter (o : options) : matcher :=
  pm_if_then_else pm_is_directory (o_dir_matcher o) (o_file_matcher o).

(** A call of one setter on an options object; [None] is a null argument. withLineExtension accepts null; the setters taking an int or a boolean
    cannot get null. PrettyPrintOptions.java:44-245. *)
Inductive setter :=
| SetChildLimit (n : Z)
| SetChildLimitFn (f : option limit_fn)
| SetTreeFormat (f : option tree_format)
| SetDefaultEmojis
| SetEmojis (e : option emoji_fn)
| SetCompact (c : bool)
| SetMaxDepth (d : Z)
| SetSort (c : option comparator)
| SetDirFilter (m : option matcher)
| SetFileFilter (m : option matcher)
| SetLineExtension (x : option ext_fn).

(** [Objects.requireNonNull] in front of a setter. PrettyPrintOptions.java:58-61, 78-81, 105-108, 171-174, 195-213. *)
Definition require {A B} (x : option A) (k : A -> B) : res B :=
  match x with Some a => Ok (k a) | None => Throw ExNullPointer end.

(** PrettyPrintOptions.java:44-46, 58-61, 78-81, 95-98, 105-108, 125-128, 145-148, 171-174, 195-198, 209-212, 241-244:
    the contents of the object after the call. An exception leaves the object unchanged.
    [lower] is [String.toLowerCase()] in the default locale. *)
Definition set_option (lower : jstring -> jstring) (s : setter) (o : options) : res options :=
  match s with
  | SetChildLimit n => Ok (with_child_limit n o)
  | SetChildLimitFn f => require f (fun f => with_child_limit_fn f o)
  | SetTreeFormat f => require f (fun f => with_tree_format f o)
  | SetDefaultEmojis => match emoji_create_default lower with Ok e => Ok (with_emojis e o) | Throw e => Throw e end
  | SetEmojis e => require e (fun e => with_emojis e o)
  | SetCompact c => Ok (with_compact_directories c o)
  | SetMaxDepth d => Ok (with_max_depth d o)
  | SetSort c => require c (fun c => with_sort c o)
  | SetDirFilter m => require m (fun m => filter_directories m o)
  | SetFileFilter m => require m (fun m => filter_files m o)
  | SetLineExtension x => Ok (with_line_extension x o)
  end.

(** A chain of setter calls: contents afterwards, and the exception that ended the chain early, if any. PrettyPrintOptions.java:44-245. *)
Fixpoint set_all (lower : jstring -> jstring) (l : list setter) (o : options) : options * option exn :=
  match l with
  | [] => (o, None)
  | s :: l' => match set_option lower s o with Ok o' => set_all lower l' o' | Throw e => (o, Some e) end
  end.
