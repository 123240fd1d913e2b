(** * Concrete threads, used by the examples of PropsThreads.v *)

From Verif Require Import SpecThreads ThreadFacts Cases SeenFacts.
From Coq Require Import Lia.
Close Scope Z_scope.

(** The default options, with a limit function that leaves a note. *)
Definition noting_options : options := with_child_limit_fn (logged 1 (fun _ => ret UNLIMITED)) default_options.

Definition noting_limit (q : path) : prog Z := Do (AUser 1 q) (fun _ => Done (Ok UNLIMITED)).
Definition alphabetical_order (a b : path) : prog Z := Done (Ok (jcompare (alpha_key a) (alpha_key b))).

Lemma noting_programs : given_programs noting_options noting_limit alphabetical_order
  (fun _ => Done (Ok None)) (fun _ => Done (Ok true)) (fun _ => Done (Ok true)) (fun _ => Done (Ok None)).
Proof. intro p. repeat split. Qed.

(** The call with these options, step by step. *)
Definition noting_cut (p : path) : cut (pretty_print noting_options p).
Proof.
  apply cut_print.
  - intro q. now exists (noting_limit q).
  - intros q q'. now exists (alphabetical_order q q').
  - intro q. now exists (Done (Ok None)).
  - intro q. now exists (Done (Ok true)).
  - intro q. now exists (Done (Ok true)).
  - intro q. now exists (Done (Ok None)).
Defined.
Definition noting_program (p : path) : prog jstring := proj1_sig (noting_cut p).

Lemma noting_means p : means (noting_program p) (pretty_print noting_options p).
Proof. exact (proj2_sig (noting_cut p)). Qed.

Lemma noting_callbacks w : callbacks w noting_options (at_most_open 0) (fun _ => True).
Proof.
  assert (H0 : at_most_open 0 []). { split; [constructor|]. intros t1 t2 E. now destruct t1. }
  repeat split; try (intro; apply (pure_callback w _ _ _ H0)); try apply (pure_callback w _ _ _ H0).
  intros p h. exists (Ok UNLIMITED), [EvUser 1 p]. split; [reflexivity|]. split; [|discriminate]. split.
  - constructor; [discriminate|discriminate|constructor].
  - intros [|ev t1] t2 E; [cbn; lia|]. injection E as <- E. destruct t1; [cbn; lia|discriminate].
Qed.

Lemma noting_balanced w : callbacks w noting_options balanced (fun _ => True).
Proof.
  repeat split; try (intro; apply (pure_callback w _ _ _ bal_nil)); try apply (pure_callback w _ _ _ bal_nil).
  intros p h. exists (Ok UNLIMITED), [EvUser 1 p]. split; [reflexivity|]. split; [|discriminate].
  constructor; [discriminate|discriminate|constructor].
Qed.

Lemma noting_honest w : honest_callbacks w noting_options.
Proof.
  repeat split; try (intro; apply (pure_honest w)); try apply (pure_honest w).
  intros p h. exists (Ok UNLIMITED), [EvUser 1 p]. split; [reflexivity|]. now apply truthful_one.
Qed.

Lemma noting_sees w : sees w noting_options plain_view.
Proof. split; [exact (fun p => eq_refl)|]. split; [intros q h; now exists h|reflexivity]. Qed.

(** ** Playing a schedule *)
Definition advance (w : world) (h0 : hist) (s : state) (i : nat) : state :=
  let (ts, g) := s in
  match nth_error ts i with
  | Some (Do a k) => let x := respond w (map snd g ++ h0) a in (firstn i ts ++ k x :: skipn (S i) ts, map (pair i) (event_of a x) ++ g)
  | _ => s
  end.

Lemma advance_execution w h0 s i : execution w h0 s (advance w h0 s i).
Proof.
  destruct s as [ts g]. unfold advance. destruct (nth_error ts i) as [[r|a k]|] eqn:E; try apply execution_none.
  eapply execution_step; [apply execution_none|]. destruct (nth_error_split _ _ E) as (ts1 & ts2 & -> & <-).
  rewrite firstn_app, Nat.sub_diag, firstn_O, app_nil_r, firstn_all.
  replace (skipn (S (length ts1)) (ts1 ++ Do a k :: ts2)) with ts2; [apply step_thread|].
  rewrite skipn_app, skipn_all2 by lia. replace (S (length ts1) - length ts1) with 1 by lia. reflexivity.
Qed.

Definition play (w : world) (h0 : hist) (s : state) (sched : list nat) : state := fold_left (advance w h0) sched s.

Lemma play_execution w h0 sched : forall s, execution w h0 s (play w h0 s sched).
Proof.
  induction sched as [|i sched IH]; intro s; [apply execution_none|]. cbn.
  eapply execution_app; [apply advance_execution|]. apply IH.
Qed.

(** The threads take turns. *)
Fixpoint turns (n : nat) : list nat := match n with O => [] | S n => 0 :: 1 :: turns n end.

Definition results (s : state) : list (option (res jstring)) := map (fun t => match t with Done r => Some r | _ => None end) (fst s).

Lemma static_unchanging fs j : unchanging (static_world fs j).
Proof. intros h h' q. repeat split. Qed.

(** Two calls of the same printer, for a directory and its parent. *)
Definition two_calls : list (prog jstring) := [noting_program (pth "/home/u/src"); noting_program (pth "/home/u")].
Definition two_calls_done : state := Eval vm_compute in play sample_world [] (two_calls, []) (turns 100).

(** The calls in a directory where the file "m" is moved from "a" to "b" after [n] accesses. *)
Definition moving_world (n : nat) : world := changing_world (moved_fs true) (moved_fs false) n sample_jvm.
Definition two_in_d : list (prog jstring) := [noting_program (pth "/d"); noting_program (pth "/d")].
