(** * The limits bound the size of the output: C130 *)

From Verif Require Import SpecScan SpecBound Cases BoundFacts BoundCases PrintFacts.
Open Scope Z_scope.

(** C130. In any world, with or without compaction. *)
Theorem C130_limits_bound_the_output : forall o p w h out h' v n,
  sees w o v -> distinguishable (o_tree_format o) -> limited_to w o n -> pretty_print o p w h = (Ok out, h') ->
  exists e h0 s, scan o (location w p) w h = (Ok e, h0) /\ shows v true e s /\ out = text (o_tree_format o) (labelled v s) /\
    (labels_on_one_line (labelled v s) -> (length (split_on c_nl out) <= most_lines n (Z.to_nat (o_max_depth o)))%nat).
Proof. exact C130_lemma. Qed.
Print Assumptions C130_limits_bound_the_output.

(** The bound is reached, for every limit and every depth. *)
Theorem C130_bound_is_reached : forall n m, exists w out h',
  pretty_print (with_max_depth (Z.of_nat m) (with_child_limit (Z.of_nat n) default_options)) (pth "/a") w [] = (Ok out, h') /\
  length (split_on c_nl out) = most_lines n m.
Proof. intros n m. exists (full_world n (S m)). exact (full_lines n m). Qed.
Print Assumptions C130_bound_is_reached.

Example C130_case :
  let o := with_max_depth 2 (with_child_limit 2 default_options) in
  sees sample_world o plain_view /\ distinguishable (o_tree_format o) /\ limited_to sample_world o 2 /\ most_lines 2 2 = 14%nat /\
  option_map (fun out => length (split_on c_nl out)) (result (pretty_print o (pth "/home/u") sample_world [])) = Some 4%nat.
Proof.
  split; [apply default_sees|]. split; [apply C02_builtin_lemma|]. split; [|vm_compute; split; reflexivity].
  intros q h l h' E. injection E as <- _. split; [discriminate|]. discriminate.
Qed.
