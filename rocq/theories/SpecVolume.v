(** * Specifications about volumes *)

From Verif Require Export SpecMeta Volume.

(** The top is a directory, and the entries of a directory have distinct names, none of which is "." or "..". *)
Definition well_formed (top : node) : Prop :=
  (exists b es, top = NDir b es) /\
  forall l b es, node_at top l = Some (NDir b es) -> NoDup (map fst es) /\ Forall real_name (map fst es).

Definition folder_at (top : node) (l : list jstring) : Prop := exists b es, node_at top l = Some (NDir b es).

(** At the path [p] there is a link. *)
Definition a_link (top : node) (cwd : list jstring) (p : path) : Prop := exists t, found top false cwd p = Some (NLink t).

(** No ".." follows what is short for a link; and if "." or ".." come last, what the whole is short for is no link either. *)
Definition dots_after_directories (top : node) (cwd : list jstring) (names : list jstring) : Prop :=
  forall l1 n l2, names = l1 ++ n :: l2 ->
    (n = n_dotdot -> ~ a_link top cwd (normalize (mkPath true l1))) /\
    (n = n_dot \/ n = n_dotdot -> l2 = [] -> ~ a_link top cwd (normalize (mkPath true names))).
