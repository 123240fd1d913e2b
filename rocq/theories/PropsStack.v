(** * The stack: C139, C140 *)

From Verif Require Import SpecHist SpecScan SpecOpen Stack Samples Cases OpenCases StackFacts StackCases PropsOpen.
Open Scope Z_scope.

(** C139. [k] levels are printed at most, because of the maximal depth or because there are not more: the frames are never noticed. *)
Theorem C139_enough_frames : forall room o p w h k,
  (o_max_depth o <= Z.of_nat k \/ levels w k (location w p)) -> (3 * k + 4 <= room)%nat -> (2 * k + 6 <= room)%nat ->
  stk_pretty_print room o p w h = pretty_print o p w h.
Proof. exact C139_enough_lemma. Qed.
Print Assumptions C139_enough_frames.

(** With any number of frames the result is the same, or a StackOverflowError. *)
Theorem C139_same_or_overflow : forall room o p w h,
  stk_pretty_print room o p w h = pretty_print o p w h \/ exists h', stk_pretty_print room o p w h = (Throw ExStackOverflow, h').
Proof. exact C139_cut_lemma. Qed.
Print Assumptions C139_same_or_overflow.

(** Three frames are needed for each displayed level. *)
Theorem C139_frames_for_each_level : forall room o p w h out h' v, sees w o v ->
  stk_pretty_print room o p w h = (Ok out, h') ->
  exists e h1 s, scan o (location w p) w h = (Ok e, h1) /\ shows v true e s /\ out = text (o_tree_format o) (labelled v s) /\
    forall k x, at_depth k e x -> entry_path x <> None -> (3 * k + 4 <= room)%nat.
Proof. exact C139_levels_lemma. Qed.
Print Assumptions C139_frames_for_each_level.

(** Also when the stack overflows, every directory stream is closed. *)
Theorem C139_streams_closed : forall room o p w h, callbacks w o balanced (fun _ => True) ->
  exists t, snd (stk_pretty_print room o p w h) = rev t ++ h /\ balanced t.
Proof. exact C139_closed_lemma. Qed.
Print Assumptions C139_streams_closed.

(** "/home/u" has four levels, and a file at depth 4: 16 frames are enough, 15 are not, and then five streams have been opened and closed. With the default
    options 64 frames are enough for every file system. *)
Example C139_case :
  levels sample_world 4 (location sample_world (pth "/home/u")) /\ sees sample_world default_options plain_view /\
  callbacks sample_world default_options balanced (fun _ => True) /\
  (forall p w h, stk_pretty_print 64 default_options p w h = pretty_print default_options p w h) /\
  is_some (result (stk_pretty_print 16 default_options (pth "/home/u") sample_world [])) = true /\
  fst (stk_pretty_print 15 default_options (pth "/home/u") sample_world []) = Throw ExStackOverflow /\
  length (filter (fun ev => match ev with EvClose _ _ => true | _ => false end) (snd (stk_pretty_print 15 default_options (pth "/home/u") sample_world []))) = 5%nat.
Proof.
  split; [exact (proj1 (proj2 (proj2 C134_case)))|]. split; [apply default_sees|]. split; [apply default_callbacks; constructor|].
  split; [|vm_compute; repeat split]. intros p w h. apply (C139_enough_frames 64 default_options p w h 20); [left; discriminate|lia|lia].
Qed.

(** C140 does not hold: whatever the number of frames, there is a tree that can be read and is not printed. *)
Theorem C140_refuted : forall room, exists o p w dk,
  steady w dk /\ callbacks w o (fun t => t = []) (fun _ => False) /\ (forall q, is_dir dk q -> exists l, d_list dk q = Some l) /\
  (exists out h', pretty_print o p w [] = (Ok out, h')) /\
  exists h', stk_pretty_print room o p w [] = (Throw ExStackOverflow, h').
Proof.
  intro room. exists (deep_options (S room)), (pth "/a"), (chain_world (S room)), (chain_disk (S room)).
  split; [apply chain_steady|]. split; [now apply deep_callbacks|]. split; [apply chain_lists|]. split; [|apply chain_too_deep].
  destruct (chain_returns (S room) (pth "/a")) with (m := S room) as (out & H); [discriminate|cbn; auto with arith|]. destruct (H []) as (h' & E). eauto.
Qed.
Print Assumptions C140_refuted.
