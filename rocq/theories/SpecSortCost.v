(** * What a run costs when the functions in the options access the file system *)

From Verif Require Export SpecCompare.

(** A call of [f] makes at most [k] events. *)
Definition at_most {A B} (w : world) (k : nat) (f : A -> M B) : Prop := forall a h, (length (snd (f a w h)) <= length h + k)%nat.

(** A comparison makes at most [k] events. *)
Definition compares_at_most (w : world) (k : nat) (c : comparator) : Prop := forall a, at_most w k (c a).
