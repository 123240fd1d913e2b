(** * Model of the emoji mapping classes of options/ *)

From Verif Require Export Matchers EmojiTables.

(** [EmojiMapping.getPathEmoji] / [Function<Path, @Nullable String>]; [None] is null. EmojiMapping.java:15-16. *)
Definition emoji_fn := path -> M (option jstring).

(** EmojiMapping.java:18-20. *)
Definition emoji_none : emoji_fn := fun _ => ret None.

(** ** [HashMap<String, String>] as an association list with unique keys (iteration order is irrelevant here). *)
(** The maps of DefaultEmojiMappingBuilder.java:18-25 and MappingUtils.java:14-23. *)
Definition smap := list (jstring * jstring).

(** [Map.get], called at PathNameEmojiFunction.java:24, PathExtensionEmojiFunction.java:27-34. *)
Fixpoint smap_get (k : jstring) (m : smap) : option jstring :=
  match m with
  | [] => None
  | (k', v) :: m' => if jeqb k k' then Some v else smap_get k m'
  end.

(** [Map.put], called at DefaultEmojiMappingBuilder.java:70-76, 94-108. *)
Fixpoint smap_put (k v : jstring) (m : smap) : smap :=
  match m with
  | [] => [(k, v)]
  | (k', v') :: m' => if jeqb k k' then (k, v) :: m' else (k', v') :: smap_put k v m'
  end.

(** MappingUtils.java:14-23: [Collectors.toMap] throws IllegalStateException on a duplicate key. *)
Fixpoint to_lower_case_keys (lower : jstring -> jstring) (m : smap) : res smap :=
  match m with
  | [] => Ok []
  | (k, v) :: m' =>
      match to_lower_case_keys lower m' with
      | Throw e => Throw e
      | Ok m'' => match smap_get (lower k) m'' with
                  | Some _ => Throw ExIllegalState
                  | None => Ok ((lower k, v) :: m'')
                  end
      end
  end.

(** PathMatcherEmojiFunction.java:31-38. *)
Record emoji_match := mkEmojiMatch { em_matcher : matcher; em_emoji : jstring }.

(** PathMatcherEmojiFunction.java:23-29 (lazy stream: stops at the first match). *)
Fixpoint path_matcher_emoji (l : list emoji_match) (p : path) : M (option jstring) :=
  match l with
  | [] => ret None
  | em :: l' => b <- em_matcher em p; if b then ret (Some (em_emoji em)) else path_matcher_emoji l' p
  end.

(** PathNameEmojiFunction.java:18-25. *)
Definition path_name_emoji (mapping : smap) (p : path) : M (option jstring) :=
  match get_file_name p with
  | None => ret None
  | Some n => j <- get_jvm; ret (smap_get (jv_lower j (path_str n)) mapping)
  end.

(** PathExtensionEmojiFunction.java:48-55: build the list from the last part down to index 1. *)
Fixpoint extensions_loop (rev_parts : list jstring) (extensions : list jstring) : list jstring :=
  match rev_parts with
  | [] => extensions
  | part :: rest =>
      match extensions with
      | [] => extensions_loop rest [part]
      | first :: _ => extensions_loop rest ((part ++ [c_dot] ++ first) :: extensions)
      end
  end.

(** PathExtensionEmojiFunction.java:43-57, on the lower-cased file name. *)
Definition get_extensions (lowered_name : jstring) : list jstring :=
  let parts := jsplit_dot lowered_name in
  if (length parts =? 1)%nat then [] else extensions_loop (rev (tl parts)) [].

(** PathExtensionEmojiFunction.java:27-34. *)
Fixpoint first_mapped (mapping : smap) (exts : list jstring) : option jstring :=
  match exts with
  | [] => None
  | e :: exts' => match smap_get e mapping with Some v => Some v | None => first_mapped mapping exts' end
  end.

(** PathExtensionEmojiFunction.java:20-35. *)
Definition path_extension_emoji (mapping : smap) (p : path) : M (option jstring) :=
  match get_file_name p with
  | None => ret None
  | Some n => j <- get_jvm; ret (first_mapped mapping (get_extensions (jv_lower j (path_str n))))
  end.

(** SequentialEmojiFunction.java:19-30. *)
Fixpoint sequential_emoji (fns : list emoji_fn) (p : path) : M (option jstring) :=
  match fns with
  | [] => ret None
  | fn :: fns' => e <- fn p; if is_some e then ret e else sequential_emoji fns' p
  end.

(** DefaultEmojiMapping.java:27-32. *)
Definition default_emoji_mapping (default_dir : jstring) (dir_fn : emoji_fn)
                                 (default_file : jstring) (file_fn : emoji_fn) : emoji_fn :=
  fun p =>
    d <- pm_is_directory p;
    if d then (e <- dir_fn p; ret (Some (match e with Some e => e | None => default_dir end)))
    else (e <- file_fn p; ret (Some (match e with Some e => e | None => default_file end))).

(** DefaultEmojiMappingBuilder.java:18-25. *)
Record emoji_builder := mkEmojiBuilder {
  eb_default_dir : jstring;
  eb_dir_matchers : list emoji_match;
  eb_dir_names : smap;
  eb_default_file : jstring;
  eb_file_matchers : list emoji_match;
  eb_file_names : smap;
  eb_file_exts : smap
}.

(** DefaultEmojiMappingBuilder.java:18-29. *)
Definition emoji_builder_blank : emoji_builder :=
  mkEmojiBuilder DEFAULT_DIR_EMOJI [] [] DEFAULT_FILE_EMOJI [] [] [].

(** DefaultEmojiMappingBuilder.java:31-36. *)
Definition emoji_builder_default : emoji_builder :=
  mkEmojiBuilder DEFAULT_DIR_EMOJI [] [] DEFAULT_FILE_EMOJI []
                 DEFAULT_FILENAME_EMOJIS DEFAULT_FILEEXTENSIONS_EMOJIS.

(** The setters a client can call: DefaultEmojiMappingBuilder.java:63-115. *)
Inductive emoji_op :=
| ESetDefaultDir (e : jstring)
| ESetDirName (n e : jstring)
| EAddDir (m : matcher) (e : jstring)
| ESetDefaultFile (e : jstring)
| ESetFileName (n e : jstring)
| ESetFileExt (x e : jstring)
| EAddFile (m : matcher) (e : jstring).

(** DefaultEmojiMappingBuilder.java:63-115. *)
Definition emoji_step (b : emoji_builder) (o : emoji_op) : emoji_builder :=
  let '(mkEmojiBuilder dd dm dn df fm fn fe) := b in
  match o with
  | ESetDefaultDir e => mkEmojiBuilder e dm dn df fm fn fe
  | ESetDirName n e => mkEmojiBuilder dd dm (smap_put n e dn) df fm fn fe
  | EAddDir m e => mkEmojiBuilder dd (dm ++ [mkEmojiMatch m e]) dn df fm fn fe
  | ESetDefaultFile e => mkEmojiBuilder dd dm dn e fm fn fe
  | ESetFileName n e => mkEmojiBuilder dd dm dn df fm (smap_put n e fn) fe
  | ESetFileExt x e => mkEmojiBuilder dd dm dn df fm fn (smap_put x e fe)
  | EAddFile m e => mkEmojiBuilder dd dm dn df (fm ++ [mkEmojiMatch m e]) fn fe
  end.

(** A built mapping: default emojis and lower-cased maps are copied by [build]; the matcher lists are
    the builder's own list objects (DefaultEmojiMappingBuilder.java:44, 51 with
    PathMatcherEmojiFunction.java:16-19), hence read from the builder when the mapping is used. *)
Record built_emoji := mkBuiltEmoji {
  be_default_dir : jstring;
  be_dir_names : smap;
  be_default_file : jstring;
  be_file_names : smap;
  be_file_exts : smap
}.

(** DefaultEmojiMappingBuilder.java:38-57. *)
Definition emoji_build (lower : jstring -> jstring) (b : emoji_builder) : res built_emoji :=
  match to_lower_case_keys lower (eb_dir_names b) with
  | Throw e => Throw e
  | Ok dn =>
      match to_lower_case_keys lower (eb_file_names b) with
      | Throw e => Throw e
      | Ok fn =>
          match to_lower_case_keys lower (eb_file_exts b) with
          | Throw e => Throw e
          | Ok fe => Ok (mkBuiltEmoji (eb_default_dir b) dn (eb_default_file b) fn fe)
          end
      end
  end.

(** Use of a built mapping while its builder is in state [now]. DefaultEmojiMapping.java:27-32 with PathMatcherEmojiFunction.java:23-29. *)
Definition built_emoji_apply (be : built_emoji) (now : emoji_builder) : emoji_fn :=
  default_emoji_mapping
    (be_default_dir be)
    (fun p => sequential_emoji [path_matcher_emoji (eb_dir_matchers now); path_name_emoji (be_dir_names be)] p)
    (be_default_file be)
    (fun p => sequential_emoji [path_matcher_emoji (eb_file_matchers now); path_name_emoji (be_file_names be);
                                path_extension_emoji (be_file_exts be)] p).

(** EmojiMapping.java:22-24. *)
Definition emoji_create_default (lower : jstring -> jstring) : res emoji_fn :=
  match emoji_build lower emoji_builder_default with
  | Throw e => Throw e
  | Ok be => Ok (built_emoji_apply be emoji_builder_default)
  end.

(** ** One builder object and the results of its [build] calls so far, oldest first *)
(** DefaultEmojiMappingBuilder.java:18-57. *)
Record emoji_session := mkEmojiSession { es_builder : emoji_builder; es_built : list (res built_emoji) }.

(** What a client does with a builder object: call one of its setters, or [build]. DefaultEmojiMappingBuilder.java:38-115. *)
Inductive emoji_cmd := EOp (o : emoji_op) | EBuild.

(** EmojiMapping.java:26-32. *)
Inductive emoji_origin := FromBlank | FromDefault.

(** A new builder: EmojiMapping.java:26-32. *)
Definition emoji_start (o : emoji_origin) : emoji_session :=
  mkEmojiSession (match o with FromBlank => emoji_builder_blank | FromDefault => emoji_builder_default end) [].

(** DefaultEmojiMappingBuilder.java:38-57 for [EBuild]; the setters otherwise. [lower] is
    [String.toLowerCase()] in the default locale, taken to be the same all the time. *)
Definition emoji_exec (lower : jstring -> jstring) (s : emoji_session) (c : emoji_cmd) : emoji_session :=
  match c with
  | EOp o => mkEmojiSession (emoji_step (es_builder s) o) (es_built s)
  | EBuild => mkEmojiSession (es_builder s) (es_built s ++ [emoji_build lower (es_builder s)])
  end.

(** A sequence of client calls (a client that ignores an exception of [build] goes on). DefaultEmojiMappingBuilder.java:38-115. *)
Definition emoji_run (lower : jstring -> jstring) (s : emoji_session) (cmds : list emoji_cmd) : emoji_session :=
  fold_left (emoji_exec lower) cmds s.

(** [getPathEmoji] of the mapping returned by the [i]-th [build] (from 0), the builder object being in its present state. There is no such mapping
    when that [build] threw or [i] is too large. DefaultEmojiMapping.java:27-32. *)
Definition emoji_call (s : emoji_session) (i : nat) : emoji_fn :=
  fun p => match nth_error (es_built s) i with
           | Some (Ok be) => built_emoji_apply be (es_builder s) p
           | _ => throw ExNullPointer
           end.
