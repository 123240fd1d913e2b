(** * The size of the text: C183 *)

From Verif Require Import SpecScan SpecSize SizeFacts Cases.
Open Scope nat_scope.

(** C183: without merging, the text has exactly these characters: for each displayed entry its level times the width of a symbol and a
    space, its emoji, name, mark and extension, and a line break except after the last line. *)
Theorem C183_exact_size : forall o p w h out h' v n,
  sees w o v -> v_compact v = false -> same_width (o_tree_format o) n -> pretty_print o p w h = (Ok out, h') ->
  exists e h0, scan o (location w p) w h = (Ok e, h0) /\ length out + 1 = plain_size v n 0 e.
Proof. exact exact_size. Qed.
Print Assumptions C183_exact_size.

(** ... and merging directories, in any world, changes nothing or makes the text shorter. *)
Theorem C183_merging_shortens : forall o p w h out1 out2 h1 h2 v n,
  sees w o v -> same_width (o_tree_format o) n ->
  pretty_print (with_compact_directories false o) p w h = (Ok out1, h1) ->
  pretty_print (with_compact_directories true o) p w h = (Ok out2, h2) ->
  out2 = out1 \/ length out2 < length out1.
Proof. exact merging_shortens. Qed.
Print Assumptions C183_merging_shortens.

Definition size_of (o : options) : option nat := option_map (@length N) (result (pretty_print o (pth "/home/u") sample_world [])).

Example C183_case :
  sees sample_world default_options plain_view /\ v_compact plain_view = false /\ same_width (o_tree_format default_options) 2 /\
  size_of (with_compact_directories false default_options) = Some 105 /\ size_of (with_compact_directories true default_options) = Some 76.
Proof. split; [apply default_sees|]. split; [reflexivity|]. split; [split; [|split; [|split]]; reflexivity|]. split; vm_compute; reflexivity. Qed.
