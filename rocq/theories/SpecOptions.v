(** * What the options hold, independently of how the setters are written *)

From Verif Require Export Printer.
Close Scope Z_scope.

(** ** One options object *)

(** A call with a null argument where null is not allowed, or [withDefaultEmojis] in a locale where the default mapping cannot be built. *)
Definition rejected (lower : jstring -> jstring) (s : setter) : Prop :=
  match s with
  | SetChildLimitFn None | SetTreeFormat None | SetEmojis None | SetSort None | SetDirFilter None | SetFileFilter None => True
  | SetDefaultEmojis => forall e, emoji_create_default lower <> Ok e
  | _ => False
  end.

(** The value each setter is meant to give to each option. *)
Definition gives_limit (s : setter) (v : limit_fn) : Prop :=
  s = SetChildLimitFn (Some v) \/ exists n, s = SetChildLimit n /\ v = fun _ => ret n.
Definition gives_format (s : setter) (v : tree_format) : Prop := s = SetTreeFormat (Some v).
Definition gives_emojis (lower : jstring -> jstring) (s : setter) (v : emoji_fn) : Prop :=
  s = SetEmojis (Some v) \/ s = SetDefaultEmojis /\ emoji_create_default lower = Ok v.
Definition gives_compact (s : setter) (v : bool) : Prop := s = SetCompact v.
Definition gives_depth (s : setter) (v : Z) : Prop := s = SetMaxDepth v.
(** "If the provided comparator considers two paths equal [...] BY_NAME is applied as a tie-breaker". *)
Definition gives_order (s : setter) (v : comparator) : Prop :=
  exists c, s = SetSort (Some c) /\ v = fun a b => z <- c a b; if (z =? 0)%Z then ALPHABETICAL a b else ret z.
Definition gives_dir_filter (s : setter) (v : matcher) : Prop := s = SetDirFilter (Some v).
Definition gives_file_filter (s : setter) (v : matcher) : Prop := s = SetFileFilter (Some v).
Definition gives_extension (s : setter) (v : option ext_fn) : Prop := s = SetLineExtension v.

(** [v] is what the last call for the option gave, or [init] if there is none. *)
Definition last_given {A} (gives : setter -> A -> Prop) (init : A) (l : list setter) (v : A) : Prop :=
  (exists before s after, l = before ++ s :: after /\ gives s v /\ forall s' v', In s' after -> ~ gives s' v') \/
  (v = init /\ forall s' v', In s' l -> ~ gives s' v').

(** The documented defaults: no limit, Unicode format, no emoji, no compaction, depth 20, alphabetical, nothing filtered, no extension. *)
Definition holds (lower : jstring -> jstring) (l : list setter) (o : options) : Prop :=
  last_given gives_limit (fun _ => ret (-1)%Z) l (o_child_limit o) /\
  last_given gives_format UNICODE_BOX_DRAWING l (o_tree_format o) /\
  last_given (gives_emojis lower) (fun _ => ret None) l (o_emoji o) /\
  last_given gives_compact false l (o_compact o) /\
  last_given gives_depth 20%Z l (o_max_depth o) /\
  last_given gives_order ALPHABETICAL l (o_comparator o) /\
  last_given gives_dir_filter (fun _ => ret true) l (o_dir_matcher o) /\
  last_given gives_file_filter (fun _ => ret true) l (o_file_matcher o) /\
  last_given gives_extension None l (o_line_extension o).

(** ** Several objects and builders. Calls are listed newest first. *)

Fixpoint objects_made (l : list call) : nat :=
  match l with [] => 0 | (NewOptions | NewBuilder) :: l' => S (objects_made l') | _ :: l' => objects_made l' end.
Fixpoint builders_made (l : list call) : nat :=
  match l with [] => 0 | NewBuilder :: l' => S (builders_made l') | _ :: l' => builders_made l' end.

Fixpoint printers_made (l : list call) : nat :=
  match l with [] => 0 | Build _ :: l' => S (printers_made l') | _ :: l' => printers_made l' end.

(** Only objects and builders that exist are referred to. *)
Definition possible (l : list call) (x : call) : Prop :=
  match x with
  | NewOptions | NewBuilder => True
  | Set_ i _ => i < objects_made l
  | WithOptions b i => b < builders_made l /\ forall j, i = Some j -> j < objects_made l
  | Customize b _ r => b < builders_made l /\ forall j, r = RetObject j -> j < objects_made l
  | Build b => b < builders_made l
  end.
Inductive all_possible : list call -> Prop :=
| possible_nil : all_possible []
| possible_cons l x : all_possible l -> possible l x -> all_possible (x :: l).

(** The calls of a chain that are executed: up to the first rejected one. *)
Definition executed (lower : jstring -> jstring) (body done : list setter) : Prop :=
  exists rest, body = done ++ rest /\ (forall s, In s done -> ~ rejected lower s) /\
    match rest with [] => True | s :: _ => rejected lower s end.

(** The call makes builder [b] refer to object [i]. *)
Definition repoints (lower : jstring -> jstring) (x : call) (b i : nat) : Prop :=
  x = WithOptions b (Some i) \/ exists body, x = Customize b body (RetObject i) /\ executed lower body body.

(** Builder [b] refers to object [i]. *)
Inductive refers (lower : jstring -> jstring) : list call -> nat -> nat -> Prop :=
| refers_new l : refers lower (NewBuilder :: l) (builders_made l) (objects_made l)
| refers_repointed l x b i : b < builders_made l -> repoints lower x b i -> refers lower (x :: l) b i
| refers_kept l x b i : refers lower l b i -> (forall j, ~ repoints lower x b j) -> refers lower (x :: l) b i.

(** The setters executed on object [i], oldest first, whether called directly or through a builder. *)
Inductive receives (lower : jstring -> jstring) : list call -> nat -> list setter -> Prop :=
| receives_options l : receives lower (NewOptions :: l) (objects_made l) []
| receives_builder l : receives lower (NewBuilder :: l) (objects_made l) []
| receives_set l i t s : receives lower l i t -> ~ rejected lower s -> receives lower (Set_ i s :: l) i (t ++ [s])
| receives_rejected l i t s : receives lower l i t -> rejected lower s -> receives lower (Set_ i s :: l) i t
| receives_customize l b body r i t done : receives lower l i t -> refers lower l b i -> executed lower body done ->
    receives lower (Customize b body r :: l) i (t ++ done)
| receives_kept l x i t : receives lower l i t ->
    (forall s, x <> Set_ i s) -> (forall b body r, x = Customize b body r -> ~ refers lower l b i) -> receives lower (x :: l) i t.
