(** * Vocabulary: the same lines in another order (C176) *)

From Verif Require Export SpecMeta.

(** [t2] is [t1] with the nodes below each node in another order.  States the result of C176; models no code. *)
Inductive reordered : dtree -> dtree -> Prop :=
| reordered_node label kids kids' kids2 :
    Permutation kids kids' -> Forall2 reordered kids' kids2 -> reordered (DT label kids) (DT label kids2).

(** The level of a line and its label.  States the result of C176; models no code. *)
Definition level_and_label (r : row) : nat * jstring := (length (fst r), snd r).
