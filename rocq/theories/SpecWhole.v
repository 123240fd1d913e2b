(** * Vocabulary: whether a text says that something was left out *)

From Verif Require Export SpecScan SpecRead.

(** Somewhere it says "...". *)
Fixpoint has_dots (t : outline) : bool :=
  match t with ODir _ kids => existsb has_dots kids | OFile _ _ => false | ODots => true end.

(** What the filters accept below [r], however deep and however many. *)
Inductive accessible (st : settings) (dk : disk) (r : path) : path -> Prop :=
| acc_start : accessible st dk r r
| acc_child p names n :
    accessible st dk r p -> is_dir dk p -> d_list dk p = Some names -> In n names -> accepts st dk (child p n) = true ->
    accessible st dk r (child p n).

(** The limit of a directory is not less than the number of children accepted. *)
Definition fits (st : settings) (dk : disk) (q : path) : Prop :=
  forall names, d_list dk q = Some names ->
    (s_limit st q < 0 \/ Z.of_nat (length (filter (accepts st dk) (map (child q) names))) <= s_limit st q)%Z.

(** Neither the maximal depth nor a limit applies anywhere. *)
Definition nothing_cut (st : settings) (dk : disk) (r : path) : Prop :=
  forall d q, reach st dk 0 r d q -> is_dir dk q -> (d < s_depth st)%Z /\ fits st dk q.
