(** * Vocabulary: the lines of a tree that are left (C177) *)

From Verif Require Export SpecMeta.

(** What is displayed down to level [m], and "..." below each directory of that level.  States the result of C177; models no code. *)
Fixpoint cut_lines (m : nat) (s : shown) : shown :=
  match s with
  | SDir chain kids => match m with O => SDir chain [SDots] | S m' => SDir chain (map (cut_lines m') kids) end
  | _ => s
  end.

(** The line stands on level [m] or above; the first line is on level 0.  States the result of C177; models no code. *)
Definition within (m : nat) (r : row) : bool := (length (fst r) <=? m)%nat.

(** The level of a line and its label.  States the result of C178; models no code. *)
Definition lines_of (t : dtree) : list (nat * jstring) := map (fun r : row => (length (fst r), snd r)) (rows t).

(** [thinned new l' l]: [l'] are lines of [l], in order, and further lines whose labels are [new].  States the result of C178; models no code. *)
Inductive thinned (new : jstring -> Prop) : list (nat * jstring) -> list (nat * jstring) -> Prop :=
| thin_end : thinned new [] []
| thin_keep x l' l : thinned new l' l -> thinned new (x :: l') (x :: l)
| thin_drop x l' l : thinned new l' l -> thinned new l' (x :: l)
| thin_new n t l' l : new t -> thinned new l' l -> thinned new ((n, t) :: l') l.
