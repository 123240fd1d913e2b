(** * No overflow *)

From Verif Require Import SpecInts IntFacts Samples Cases.
Open Scope Z_scope.

(** C138: counting with the 32-bit numbers of Java makes no difference, whatever the maximal depth and the limits are, in all worlds whose directories have
    no more entries than a list can have. *)
Theorem C138_no_overflow : forall o p w h, listings_fit w -> is_int (o_max_depth o) -> int_pretty_print o p w h = pretty_print o p w h.
Proof. exact C138_lemma. Qed.
Print Assumptions C138_no_overflow.

(** The numbers do wrap around; the sample file system, printed with the greatest limit. *)
Example C138_case :
  int_add 2147483647 1 = -2147483648 /\ listings_fit sample_world /\ is_int (o_max_depth (with_child_limit 2147483647 default_options)) /\
  is_some (result (int_pretty_print (with_child_limit 2147483647 default_options) (pth "/home/u") sample_world [])) = true.
Proof.
  split; [reflexivity|]. split; [|split; [split; discriminate|vm_compute; reflexivity]].
  intros h p dl E. cbn [sample_world static_world w_open] in E. unfold is_int. split; [lia|].
  unfold opt_bind, fs_lookup, sample_fs, table_fs in E. destruct (find _ sample_table) as [[ns i]|] eqn:F; [|discriminate].
  assert (H : Forall (fun e => match snd e with IDir l => (length l <= 5)%nat | _ => True end) sample_table) by (repeat constructor).
  apply find_some in F. rewrite Forall_forall in H. specialize (H _ (proj1 F)). cbn [snd] in H. destruct i; try discriminate.
  injection E as <-. cbn [dl_names]. lia.
Qed.
