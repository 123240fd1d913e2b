(** * Concrete runs of the command line with characters outside ASCII *)

From Verif Require Export SpecCharset DocCases.
From Verif Require Import SortFacts TreeFacts ScanFacts CliRefs CharsetFacts.
From Coq Require Import Lia.
Close Scope Z_scope.

(** The directory /home/u with one file. *)
Definition one_world (name : jstring) : world := static_world (table_fs (percent_table name)) sample_jvm.
Definition one_disk (name : jstring) : disk := static_disk (table_fs (percent_table name)) sample_jvm.
Definition one_cli (name : jstring) : cworld := case_cli (one_world name) home_files.
Definition one_tree (name : jstring) : dtree := DT (js "u/") [DT name []].

(** e with an acute accent, e with a grave accent; the latter and a smiling face, which is a surrogate pair. *)
Definition acute : jstring := [233%N].
Definition grave : jstring := [232%N].
Definition smile : jstring := [232; 55357; 56832]%N.

Lemma bare_follows j dk T : follows j dk T bare_document default_settings plain_view.
Proof.
  constructor; try reflexivity; try discriminate.
  - apply contract_alphabetical.
  - intros a b. cbn. apply alphabetical_lt.
  - now split.
  - intros rest _. split; [exact I|reflexivity].
Qed.

Lemma one_asked name : realb name = true -> existsb (N.eqb c_percent) name = false ->
  d_kind (one_disk name) (pth "/home/u") = Some KDir -> d_list (one_disk name) (pth "/home/u") = Some [name] ->
  d_kind (one_disk name) (child (pth "/home/u") name) = Some KReg -> d_attr (one_disk name) (child (pth "/home/u") name) = Some KReg ->
  asks_for (one_cli name) target_args (one_tree name).
Proof.
  intros Hr Hp H1 H2 H3 H4.
  assert (Hd : is_dirb (one_disk name) (child (pth "/home/u") name) = false) by (unfold is_dirb; now rewrite H3).
  apply (af _ _ _ home_files (pth "/home/u") home_places UseDefault bare_document (one_disk name) default_settings plain_view
           (EDir (pth "/home/u") ([EFile (child (pth "/home/u") name) KReg] ++ [])) (SDir [pth "/home/u"] [SFile (child (pth "/home/u") name) KReg])).
  - apply case_steady.
  - now left.
  - reflexivity.
  - exact target_resolved.
  - reflexivity.
  - apply chooses_home; [reflexivity|]. repeat constructor.
  - right. now split.
  - apply static_steady.
  - apply table_distinct. reflexivity.
  - apply table_real. cbn. now rewrite Hr.
  - apply all_real. reflexivity.
  - discriminate.
  - discriminate.
  - intros g [].
  - apply bare_follows.
  - apply (tree_dir default_settings (one_disk name) 0 (pth "/home/u") [name] [child (pth "/home/u") name] [EFile (child (pth "/home/u") name) KReg]).
    + exact H1.
    + reflexivity.
    + exact H2.
    + cbn [map filter]. unfold accepts. rewrite Hd. cbn. split; [reflexivity|]. intros _. repeat constructor.
    + constructor; [|constructor]. apply tree_file; [|exact H4]. unfold is_dir. rewrite H3. discriminate.
  - apply shows_plain; [now left|]. repeat constructor.
  - cbn. unfold one_tree, opt_str, last_name, emoji_str. cbn. now rewrite app_nil_r.
  - intros r [<-|[<-|[]]]; cbn; [intuition discriminate|]. intro Hi.
    assert (existsb (N.eqb c_percent) name = true) by (apply existsb_exists; exists c_percent; split; [exact Hi|apply N.eqb_refl]). congruence.
Qed.

Lemma acute_asked : asks_for (one_cli acute) target_args (one_tree acute).
Proof. apply one_asked; vm_compute; reflexivity. Qed.
Lemma grave_asked : asks_for (one_cli grave) target_args (one_tree grave).
Proof. apply one_asked; vm_compute; reflexivity. Qed.
Lemma smile_asked : asks_for (one_cli smile) target_args (one_tree smile).
Proof. apply one_asked; vm_compute; reflexivity. Qed.

Lemma one_line name : ~ In c_nl name -> labels_on_one_line (one_tree name).
Proof. intros H r [<-|[<-|[]]]; cbn; [intuition discriminate|exact H]. Qed.

Lemma small_paired s : Forall (fun c => (c < 55296)%N) s -> paired s.
Proof. induction 1 as [|c s H Hs IH]; constructor; [|unfold high_half|unfold low_half|exact IH]; lia. Qed.

Lemma one_paired name : paired name -> labels_paired (one_tree name).
Proof. intros H r [<-|[<-|[]]]; [|exact H]. apply small_paired. repeat constructor. Qed.

Lemma smile_paired : paired smile.
Proof. constructor; [| | |apply pr_pair; [| |constructor]]; unfold high_half, low_half; lia. Qed.

Theorem encoding_counterexample : exists w1 w2 a t1 t2,
  cw_linesep w1 = cw_linesep w2 /\ asks_for w1 a t1 /\ asks_for w2 a t2 /\
  labels_on_one_line t1 /\ labels_on_one_line t2 /\ labels_paired t1 /\ labels_paired t2 /\
  fst (run_cli a w1 cli_start) = 0%Z /\ fst (run_cli a w2 cli_start) = 0%Z /\
  encode US_ASCII (cs_out (snd (run_cli a w1 cli_start))) = encode US_ASCII (cs_out (snd (run_cli a w2 cli_start))) /\ t1 <> t2.
Proof.
  exists (one_cli acute), (one_cli grave), target_args, (one_tree acute), (one_tree grave). split; [reflexivity|].
  split; [exact acute_asked|]. split; [exact grave_asked|]. split; [apply one_line; cbn; intuition discriminate|].
  split; [apply one_line; cbn; intuition discriminate|]. split; [apply one_paired, small_paired; repeat constructor|].
  split; [apply one_paired, small_paired; repeat constructor|].
  split; [vm_compute; reflexivity|]. split; [vm_compute; reflexivity|]. split; [vm_compute; reflexivity|discriminate].
Qed.
