(** * Vocabulary for the size of the output *)

From Verif Require Import SpecScan.

(** The most lines that a file needs if at most [n] children of each directory are displayed, [k] levels deep: that of a directory, then
    at [k] levels a marker, above it [n] children and a marker. *)
Fixpoint most_lines (n k : nat) : nat :=
  match k with
  | O => 2
  | S k => 2 + n * most_lines n k
  end.

(** The limit, when it returns, is between 0 and [n]. *)
Definition limited_to (w : world) (o : options) (n : nat) : Prop :=
  forall q h l h', o_child_limit o q w h = (Ok l, h') -> (0 <= l <= Z.of_nat n)%Z.
