(** * Proofs about texts that leave nothing out *)

From Coq Require Import Lia Arith.
From Verif Require Import SpecWhole PathFacts RenderFacts ShownFacts PrintFacts OutlineFacts TreeFacts ScanFacts ScanPrintFacts ReadFacts.
Open Scope Z_scope.

Fixpoint entry_dots (e : entry) : bool :=
  match e with EDir _ es => existsb entry_dots es | EFile _ _ => false | _ => true end.

Lemma chain_dots v : forall e ds es, chain_of v e ds es -> entry_dots e = existsb entry_dots es.
Proof. induction 1 as [d es Hm|d c ds es Hm Hc IH]; [reflexivity|]. cbn [entry_dots existsb]. now rewrite IH, Bool.orb_false_r. Qed.

Lemma shows_dots v : forall top e s, shows v top e s -> has_dots (outline_of s) = entry_dots e.
Proof.
  fix IH 4. intros top e s H.
  destruct H as [t f k|t q|t q|t q es ks Hc HF|e ds es ks Hc Hch HF]; try reflexivity.
  - cbn [outline_of has_dots entry_dots]. clear Hc. induction HF as [|x y es ks Hx HF IHF]; [reflexivity|]. cbn [map existsb]. f_equal; [eapply IH; exact Hx|exact IHF].
  - rewrite (chain_dots _ _ _ _ Hch). cbn [outline_of has_dots]. clear Hc Hch. induction HF as [|x y es ks Hx HF IHF]; [reflexivity|].
    cbn [map existsb]. f_equal; [eapply IH; exact Hx|exact IHF].
Qed.

Lemma existsb_false A (f : A -> bool) l : existsb f l = false <-> forall x, In x l -> f x = false.
Proof.
  induction l as [|a l IH]; cbn; [split; [intros _ x []|reflexivity]|]. rewrite Bool.orb_false_iff, IH. split.
  - intros [H1 H2] x [<-|Hx]; auto.
  - intro H. split; [apply H; now left|intros; apply H; now right].
Qed.

Lemma no_marker n l p : existsb entry_dots (marker n l p) = false <-> n < 0 \/ Z.of_nat (length l) <= n.
Proof.
  unfold marker. destruct (Z.leb_spec 0 n), (Z.ltb_spec n (Z.of_nat (length l))); cbn; split; intro; try discriminate; try reflexivity; lia.
Qed.

Lemma fits_all n (l : list path) : n < 0 \/ Z.of_nat (length l) <= n -> limited n l = l.
Proof. intro H. unfold limited. destruct (Z.ltb_spec n 0); [reflexivity|]. apply firstn_all2. lia. Qed.

Lemma tree_dots st dk e : forall d p, tree_at st dk d p e ->
  (entry_dots e = false <-> forall d' q, reach st dk d p d' q -> is_dir dk q -> d' < s_depth st /\ fits st dk q).
Proof.
  induction e as [r es IH|f k|r|n] using entry_ind'; intros d p H;
    inversion H as [? ? ? Hnd Hk|? ? Hd Hm|? ? names order es0 Hd Hm Hl [Hperm Hsrt] HF]; subst.
  - cbn. split; [discriminate|]. intro G. destruct (G _ _ (reach_start _ _ _ _) Hd). lia.
  - cbn [entry_dots]. rewrite existsb_app, Bool.orb_false_iff, no_marker, existsb_false. rewrite Forall_forall in IH.
    assert (L : length (filter (accepts st dk) (map (child r) names)) = length order) by now apply Permutation_length.
    split.
    + intros [He Hn] d' q Hr Hq. apply reach_first in Hr as [[-> ->]|(names' & n & _ & _ & H3 & H4 & H5 & H6)].
      * split; [exact Hm|]. intros names' E. assert (names' = names) as -> by congruence. now rewrite L.
      * assert (names' = names) as -> by congruence. assert (Hin : In (child r n) (limited (s_limit st r) order)).
        { rewrite fits_all by exact Hn. eapply Permutation_in; [exact Hperm|]. apply filter_In. split; [now apply in_map|exact H5]. }
        destruct (Forall2_in_l _ _ _ _ HF Hin) as (e & Hx & Ht). eapply (IH e); eauto. apply in_or_app. now left.
    + intro G. split.
      * intros e Hx. destruct (Forall2_in_r _ _ _ _ _ _ HF Hx) as (c & Hc & Ht). apply (IH e (in_or_app _ _ _ (or_introl Hx)) _ _ Ht).
        intros d' q Hr. apply G. apply limited_incl in Hc. apply (Permutation_in c (Permutation_sym Hperm)) in Hc.
        apply filter_In in Hc as [Hc Ha]. apply in_map_iff in Hc as (n & <- & Hn). eapply reach_trans; [|exact Hr]. eapply reach_child; eauto. constructor.
      * destruct (G _ _ (reach_start _ _ _ _) Hd) as [_ F]. specialize (F names Hl). now rewrite L in F.
  - cbn. split; [|reflexivity]. intros _ d' q Hr Hq. apply reach_first in Hr as [[-> ->]|(? & ? & ? & _)]; contradiction.
Qed.

Lemma tree_whole st dk e : forall d p, tree_at st dk d p e -> entry_dots e = false -> forall d' q, reach st dk d p d' q -> In q (entry_paths e).
Proof.
  induction e as [r es IH|f k|r|n] using entry_ind'; intros d p H E d' q Hq;
    inversion H as [? ? ? Hnd Hk|? ? Hd Hm|? ? names order es0 Hd Hm Hl [Hperm Hsrt] HF]; subst;
    apply reach_first in Hq; destruct Hq as [[-> ->]|(names' & n' & H1 & H2 & H3 & H4 & H5 & H6)];
    try (left; reflexivity); try discriminate; try contradiction.
  right. cbn [entry_dots] in E. rewrite existsb_app, Bool.orb_false_iff, no_marker, existsb_false in E. destruct E as [E1 E2].
  rewrite flat_map_app, marker_no_paths, app_nil_r. assert (names' = names) as -> by congruence.
  assert (Hin : In (child r n') (limited (s_limit st r) order)).
  { rewrite fits_all by exact E2. eapply Permutation_in; [exact Hperm|]. apply filter_In. split; [now apply in_map|exact H5]. }
  destruct (Forall2_in_l _ _ _ _ HF Hin) as (e & He & Ht). apply in_flat_map. exists e. split; [exact He|].
  rewrite Forall_forall in IH. eapply IH; [apply in_or_app; left; exact He|exact Ht|now apply E1|exact H6].
Qed.

Lemma reach_accessible st dk r d q : reach st dk 0 r d q -> accessible st dk r q.
Proof. induction 1; [constructor|]. econstructor; eauto. Qed.

Lemma accessible_reach st dk r q : nothing_cut st dk r -> accessible st dk r q -> exists d, reach st dk 0 r d q.
Proof.
  intro N. induction 1 as [|p names n Ha [d IH] Hd Hl Hi Hc]; [exists 0; constructor|]. exists (d + 1). eapply reach_child; eauto. now apply (N d p).
Qed.

Theorem run_whole o p w h out h' v dk st :
  steady w dk -> distinct_names dk -> uses w o st -> sees w o v -> bare v -> distinguishable (o_tree_format o) ->
  pretty_print o p w h = (Ok out, h') ->
  exists e s, tree_at st dk 0 (location w p) e /\ shows v true e s /\
    (clear_names s -> exists t paths, read_text (o_tree_format o) out = Some t /\ read_paths (o_tree_format o) (location w p) out = Some paths /\
       (has_dots (read_names t) = false <-> nothing_cut st dk (location w p)) /\
       (has_dots (read_names t) = false -> NoDup paths /\ forall q, In q paths <-> accessible st dk (location w p) q)).
Proof.
  intros Hw Hdn Hu Hs B Hd H. destruct (run_paths _ _ _ _ _ _ _ _ _ Hw Hu Hs B Hd H) as (e & s & Ht & Hsh & -> & R). exists e, s. split; [exact Ht|]. split; [exact Hsh|].
  intro C. exists (labelled v s), (entry_paths e). split; [apply read_text_text; [exact Hd|now apply clear_one_line]|]. split; [now apply R|].
  rewrite read_names_labelled by assumption. rewrite (shows_dots _ _ _ _ Hsh). split; [now apply tree_dots|].
  intro E. split; [eapply tree_paths_NoDup; eauto|]. intro q. split.
  - intro Hq. destruct (tree_paths_reach _ _ _ _ _ Ht _ Hq) as [d Hr]. eapply reach_accessible; exact Hr.
  - intro Ha. apply accessible_reach in Ha as [d Hr]; [|exact (proj1 (tree_dots _ _ _ _ _ Ht) E)]. eapply tree_whole; eauto.
Qed.
