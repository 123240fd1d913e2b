(** * Vocabulary for the properties of the emoji mappings *)

From Verif Require Export SpecMatch Emoji.

(** ** The calls a client made *)
Fixpoint emoji_ops (cmds : list emoji_cmd) : list emoji_op :=
  match cmds with [] => [] | EOp o :: cmds => o :: emoji_ops cmds | EBuild :: cmds => emoji_ops cmds end.
Fixpoint emoji_builds (cmds : list emoji_cmd) : nat :=
  match cmds with [] => 0 | EOp _ :: cmds => emoji_builds cmds | EBuild :: cmds => S (emoji_builds cmds) end.

(** The key and emoji given by a call, for each kind of key. *)
Definition sets_dir_name (o : emoji_op) : option (jstring * jstring) := match o with ESetDirName n e => Some (n, e) | _ => None end.
Definition sets_file_name (o : emoji_op) : option (jstring * jstring) := match o with ESetFileName n e => Some (n, e) | _ => None end.
Definition sets_file_ext (o : emoji_op) : option (jstring * jstring) := match o with ESetFileExt n e => Some (n, e) | _ => None end.

(** [k] stands for [v]: by the last call for the key [k] (spelled exactly so), or initially if there was none. *)
Inductive entry_of (sets : emoji_op -> option (jstring * jstring)) (init : list (jstring * jstring)) (ops : list emoji_op) (k v : jstring) : Prop :=
| entry_set pre op post : ops = pre ++ op :: post -> sets op = Some (k, v) ->
    (forall op' v', In op' post -> sets op' <> Some (k, v')) -> entry_of sets init ops k v
| entry_init : (forall op v', In op ops -> sets op <> Some (k, v')) -> In (k, v) init -> entry_of sets init ops k v.

Definition init_file_names (o : emoji_origin) := match o with FromBlank => [] | FromDefault => DEFAULT_FILENAME_EMOJIS end.
Definition init_file_exts (o : emoji_origin) := match o with FromBlank => [] | FromDefault => DEFAULT_FILEEXTENSIONS_EMOJIS end.

Definition dir_name (ops : list emoji_op) := entry_of sets_dir_name [] ops.
Definition file_name (o : emoji_origin) (ops : list emoji_op) := entry_of sets_file_name (init_file_names o) ops.
Definition file_ext (o : emoji_origin) (ops : list emoji_op) := entry_of sets_file_ext (init_file_exts o) ops.

(** The default emojis: those of the last call, initially U+1F4C2 and U+1F4C4. *)
Fixpoint dir_default (d : jstring) (ops : list emoji_op) : jstring :=
  match ops with [] => d | ESetDefaultDir e :: ops => dir_default e ops | _ :: ops => dir_default d ops end.
Fixpoint file_default (d : jstring) (ops : list emoji_op) : jstring :=
  match ops with [] => d | ESetDefaultFile e :: ops => file_default e ops | _ :: ops => file_default d ops end.

(** The rules with a matcher, in order of insertion. *)
Fixpoint dir_rules (ops : list emoji_op) : list (matcher * jstring) :=
  match ops with [] => [] | EAddDir m e :: ops => (m, e) :: dir_rules ops | _ :: ops => dir_rules ops end.
Fixpoint file_rules (ops : list emoji_op) : list (matcher * jstring) :=
  match ops with [] => [] | EAddFile m e :: ops => (m, e) :: file_rules ops | _ :: ops => file_rules ops end.

(** ** Rules with a matcher *)

(** The matchers are asked in order; the first one that accepts [p] decides, the later ones are not asked. *)
Inductive first_match (w : world) (p : path) : list (matcher * jstring) -> hist -> res (option jstring) -> hist -> Prop :=
| fm_none h : first_match w p [] h (Ok None) h
| fm_here m e l h h' : m p w h = (Ok true, h') -> first_match w p ((m, e) :: l) h (Ok (Some e)) h'
| fm_throw m e l h x h' : m p w h = (Throw x, h') -> first_match w p ((m, e) :: l) h (Throw x) h'
| fm_next m e l h h' r h'' : m p w h = (Ok false, h') -> first_match w p l h' r h'' -> first_match w p ((m, e) :: l) h r h''.

(** ** Names and extensions *)

(** The extensions of a name: what follows one of its dots, the dots at its end not counting. *)
Definition extension_of (name x : jstring) : Prop :=
  exists core k before, name = core ++ repeat c_dot k /\ (core = [] \/ last core 0%N <> c_dot) /\ core = before ++ c_dot :: x.

Definition keys := jstring -> jstring -> Prop.

(** No two keys differ in case only. *)
Definition distinct_ci (lower : jstring -> jstring) (K : keys) : Prop :=
  forall k v k' v', K k v -> K k' v' -> lower k = lower k' -> k = k'.

Definition by_name (lower : jstring -> jstring) (K : keys) (n e : jstring) : Prop := exists k, K k e /\ lower k = lower n.

(** The longest extension that is a key. *)
Definition by_extension (lower : jstring -> jstring) (K : keys) (n e : jstring) : Prop :=
  exists k, K k e /\ extension_of (lower n) (lower k) /\
    forall k' e', K k' e' -> extension_of (lower n) (lower k') -> length (lower k') <= length (lower k).

(** The emoji of a path that no rule with a matcher decides. *)
Inductive own_emoji (lower : jstring -> jstring) (names exts : keys) (default : jstring) (p : path) (e : jstring) : Prop :=
| own_name n : ends_with_name p n -> by_name lower names n e -> own_emoji lower names exts default p e
| own_ext n : ends_with_name p n -> (forall e', ~ by_name lower names n e') -> by_extension lower exts n e ->
    own_emoji lower names exts default p e
| own_default : (forall n e', ends_with_name p n -> ~ by_name lower names n e' /\ ~ by_extension lower exts n e') -> e = default ->
    own_emoji lower names exts default p e.

Definition no_keys : keys := fun _ _ => False.

(** The keys of all three kinds are distinct ignoring case. *)
Definition all_distinct_ci (lower : jstring -> jstring) (o : emoji_origin) (ops : list emoji_op) : Prop :=
  distinct_ci lower (dir_name ops) /\ distinct_ci lower (file_name o ops) /\ distinct_ci lower (file_ext o ops).

(** Calls that add a rule with a matcher. *)
Definition adds_rule (c : emoji_cmd) : Prop :=
  match c with EOp (EAddDir _ _) | EOp (EAddFile _ _) => True | _ => False end.

(** What the matcher rules and then the keys give. *)
Definition chosen (r0 : res (option jstring)) (own : jstring -> Prop) (r : res (option jstring)) : Prop :=
  match r0 with
  | Throw x => r = Throw x
  | Ok (Some e) => r = Ok (Some e)
  | Ok None => exists e, own e /\ r = Ok (Some e)
  end.

(** The default table. *)
Definition default_names : keys := fun k v => In (k, v) DEFAULT_FILENAME_EMOJIS.
Definition default_exts : keys := fun k v => In (k, v) DEFAULT_FILEEXTENSIONS_EMOJIS.
