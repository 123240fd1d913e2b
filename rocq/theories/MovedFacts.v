(** * Another order moves lines: lemmas for C176 *)

From Verif Require Import SpecMoved RenderFacts LayoutFacts BoundFacts ScanFacts PathFacts SortFacts TreeFacts PrintFacts ScanPrintFacts MetaFacts ApartFacts.

(** The entries of [e1] in another order. *)
Inductive mixed : entry -> entry -> Prop :=
| mixed_same e : ~ is_dir_entry e -> mixed e e
| mixed_dir d es es' es2 : Permutation es es' -> Forall2 mixed es' es2 -> mixed (EDir d es) (EDir d es2).

Lemma Forall2_perm A B (R : A -> B -> Prop) l l' : Permutation l l' -> forall k, Forall2 R l k -> exists k', Permutation k k' /\ Forall2 R l' k'.
Proof.
  induction 1 as [|x l l' H IH|x y l|l l' l'' H1 IH1 H2 IH2]; intros k Hk.
  - exists k. auto.
  - inversion Hk as [|? b ? k0 Hxb Hk0]; subst. destruct (IH k0 Hk0) as (k' & Hp & HF). exists (b :: k'). split; constructor; auto.
  - inversion Hk as [|? b ? k0 Hxb Hk0]; subst. inversion Hk0 as [|? b' ? k1 Hxb' Hk1]; subst. exists (b' :: b :: k1). split; [apply perm_swap|repeat constructor; auto].
  - destruct (IH1 k Hk) as (k' & Hp & HF). destruct (IH2 k' HF) as (k'' & Hp' & HF'). exists k''. split; auto. etransitivity; eauto.
Qed.

Section Two.
  Context (st1 st2 : settings) (dk : disk).
  Hypothesis Em : s_depth st2 = s_depth st1.
  Hypothesis Hl1 : forall q, (s_limit st1 q < 0)%Z.
  Hypothesis Hl2 : forall q, (s_limit st2 q < 0)%Z.
  Hypothesis Hfd : forall q, s_dirs st1 q = s_dirs st2 q.
  Hypothesis Hff : forall q, s_files st1 q = s_files st2 q.

  Lemma tree_mixed : forall e1 d p e2, tree_at st1 dk d p e1 -> tree_at st2 dk d p e2 -> mixed e1 e2.
  Proof.
    induction e1 as [r es IH|f k|r|n] using entry_ind'; intros d p e2 H1 H2.
    - inversion H1 as [| ? ? Hd1 Hm|? ? names order es0 Hd1 Hm Hli Hord HF]; subst;
        inversion H2 as [? ? ? Hnd2 Hk2|? ? Hd2 Hm2|? ? names2 order2 es02 Hd2 Hm2 Hli2 Hord2 HF2]; subst;
        try (exfalso; lia); try (exfalso; now apply Hnd2).
      + econstructor; [reflexivity|]. constructor; [|constructor]. constructor. intros [].
      + rewrite Hli in Hli2. injection Hli2 as <-.
        rewrite marker_neg, app_nil_r in * by auto. rewrite marker_neg, app_nil_r by auto. rewrite limited_neg in HF, HF2 by auto.
        assert (Hp : Permutation order order2).
        { destruct Hord as [Ho1 _], Hord2 as [Ho2 _]. rewrite <- Ho1, <- Ho2.
          erewrite filter_ext; [reflexivity|]. intro q. unfold accepts. now rewrite Hfd, Hff. }
        destruct (Forall2_perm _ _ _ _ _ Hp _ HF) as (es' & Hp' & HF'). apply mixed_dir with es'; [exact Hp'|].
        assert (IH' : Forall (fun e1 => forall d p e2, tree_at st1 dk d p e1 -> tree_at st2 dk d p e2 -> mixed e1 e2) es').
        { apply Forall_forall. intros x Hx. rewrite Forall_forall in IH. apply IH. apply (Permutation_in x (Permutation_sym Hp') Hx). }
        clear -HF' HF2 IH'. revert es02 HF2. induction HF' as [|c e cs es Hce HF IHF]; intros l HF2; inversion HF2; subst; constructor; inversion IH'; subst; eauto.
    - inversion H1 as [? ? ? Hnd Hk| |]; subst. inversion H2 as [? ? ? Hnd2 Hk2|? ? Hd2 Hm2|? ? names2 order2 es02 Hd2 Hm2 Hli2 Hord2 HF2]; subst;
        try (exfalso; now apply Hnd). replace k0 with k by congruence. constructor. intros [].
    - inversion H1.
    - inversion H1.
  Qed.
End Two.

Lemma mixed_dir_entry e1 e2 : mixed e1 e2 -> is_dir_entry e1 -> is_dir_entry e2.
Proof. destruct 1; cbn; tauto. Qed.
Lemma mixed_dir_back e1 e2 : mixed e1 e2 -> is_dir_entry e2 -> is_dir_entry e1.
Proof. destruct 1; cbn; tauto. Qed.

Definition mixed_list (es es2 : list entry) : Prop := exists es', Permutation es es' /\ Forall2 mixed es' es2.

Lemma mixed_one c es2 : mixed_list [c] es2 -> exists c2, es2 = [c2] /\ mixed c c2.
Proof.
  intros (es' & Hp & HF). apply Permutation_length_1_inv in Hp. subst. inversion HF as [|? c2 ? l Hc Hl]; subst. inversion Hl; subst. eauto.
Qed.
Lemma mixed_one_back es c2 : mixed_list es [c2] -> exists c, es = [c] /\ mixed c c2.
Proof.
  intros (es' & Hp & HF). inversion HF as [|c ? ? l Hc Hl]; subst. inversion Hl; subst.
  apply Permutation_sym, Permutation_length_1_inv in Hp. subst. eauto.
Qed.

Lemma mixed_merge v d es es2 : mixed_list es es2 -> mergeable v d es -> mergeable v d es2.
Proof.
  intros H (Hx & c & -> & Hc). destruct (mixed_one _ _ H) as (c2 & -> & Hm). split; [exact Hx|]. exists c2. split; [reflexivity|].
  eapply mixed_dir_entry; eauto.
Qed.
Lemma mixed_merge_back v d es es2 : mixed_list es es2 -> mergeable v d es2 -> mergeable v d es.
Proof.
  intros H (Hx & c & -> & Hc). destruct (mixed_one_back _ _ H) as (c2 & -> & Hm). split; [exact Hx|]. exists c2. split; [reflexivity|].
  eapply mixed_dir_back; eauto.
Qed.

Lemma mixed_inv d es e2 : mixed (EDir d es) e2 -> exists es2, e2 = EDir d es2 /\ mixed_list es es2.
Proof. intro H. inversion H as [? Hn|? ? es' es2 Hp HF]; subst; [now destruct Hn|]. exists es2. split; [reflexivity|]. exists es'. auto. Qed.

Lemma chain_mixed v e1 ds1 es1 : chain_of v e1 ds1 es1 -> forall e2 ds2 es2, mixed e1 e2 -> chain_of v e2 ds2 es2 -> ds1 = ds2 /\ mixed_list es1 es2.
Proof.
  induction 1 as [d es Hn|d c ds es Hm Hch IH]; intros e2 ds2 es2 Hmx H2; destruct (mixed_inv _ _ _ Hmx) as (es' & -> & Hl).
  - inversion H2 as [? ? Hn2|? ? ? ? Hm2 Hc2]; subst; [auto|]. destruct Hn. eapply mixed_merge_back; eauto.
  - destruct (mixed_one _ _ Hl) as (c2 & -> & Hc). inversion H2 as [? ? Hn2|? ? ds' ? Hm2 Hc2]; subst.
    + destruct Hn2. eapply mixed_merge; eauto.
    + destruct (IH _ _ _ Hc Hc2) as [-> Hr]. auto.
Qed.

Lemma count_in x es : In x es -> (entry_count x <= list_sum (map entry_count es))%nat.
Proof. induction es as [|y es IH]; [intros []|]. intros [->|H]; cbn [map list_sum fold_right]; [|specialize (IH H)]; unfold list_sum in *; lia. Qed.

Lemma kids_mixed v es1 es2 ks1 ks2 :
  (forall x, In x es1 -> forall s1 e2 s2, mixed x e2 -> shows v false x s1 -> shows v false e2 s2 -> reordered (labelled v s1) (labelled v s2)) ->
  mixed_list es1 es2 -> Forall2 (shows v false) es1 ks1 -> Forall2 (shows v false) es2 ks2 ->
  exists ks', Permutation (map (labelled v) ks1) ks' /\ Forall2 reordered ks' (map (labelled v) ks2).
Proof.
  intros IH (es' & Hp & HF) H1 H2. destruct (Forall2_perm _ _ _ _ _ Hp _ H1) as (ks' & Hpk & H1').
  exists (map (labelled v) ks'). split; [now apply Permutation_map|].
  assert (IH' : forall x, In x es' -> forall s1 e2 s2, mixed x e2 -> shows v false x s1 -> shows v false e2 s2 -> reordered (labelled v s1) (labelled v s2)).
  { intros x Hx. apply IH. apply (Permutation_in x (Permutation_sym Hp) Hx). }
  clear -HF H1' H2 IH'. revert ks' ks2 H1' H2. induction HF as [|a b l l' Hab HF IHF]; intros ks' ks2 H1 H2; inversion H1; subst; inversion H2; subst; cbn [map]; constructor.
  - eapply IH'; eauto. now left.
  - apply IHF; auto. intros x Hx. apply IH'. now right.
Qed.

Lemma shows_mixed v n : forall e1, (entry_count e1 <= n)%nat -> forall top s1 e2 s2, mixed e1 e2 -> shows v top e1 s1 -> shows v top e2 s2 ->
  reordered (labelled v s1) (labelled v s2).
Proof.
  induction n as [|n IH]; intros e1 Hn top s1 e2 s2 Hmx H1 H2.
  { destruct e1; cbn in Hn; lia. }
  assert (Hleaf : forall l, reordered (DT l []) (DT l [])) by (intro l; econstructor; [reflexivity|constructor]).
  destruct e1 as [d es|f k|d|m].
  2,3,4: inversion Hmx; subst; inversion H1; subst; try (match goal with H : chain_of _ _ _ _ |- _ => inversion H; fail end); inversion H2; subst;
     try (match goal with H : chain_of _ _ _ _ |- _ => inversion H; fail end); apply Hleaf.
  assert (Hrec : forall es', (S (list_sum (map entry_count es')) <= entry_count (EDir d es))%nat -> forall x, In x es' -> forall s1 e2 s2, mixed x e2 -> shows v false x s1 -> shows v false e2 s2 -> reordered (labelled v s1) (labelled v s2)).
  { intros es' Hle x Hx. apply IH. pose proof (count_in x es' Hx). lia. }
  destruct (mixed_inv _ _ _ Hmx) as (es2 & -> & Hl).
  inversion H1 as [| | |? ? ? ks1 Ht1 HF1|? ds1 es1' ks1 Hc1 Hch1 HF1]; subst;
    inversion H2 as [| | |? ? ? ks2 Ht2 HF2|? ds2 es2' ks2 Hc2 Hch2 HF2]; subst.
  - destruct (kids_mixed v es es2 ks1 ks2) as (ks' & Hp & HF); auto. { apply Hrec. cbn. lia. }
    cbn [labelled]. econstructor; eauto.
  - destruct Ht1; congruence.
  - destruct Ht2; congruence.
  - destruct (chain_mixed _ _ _ _ Hch1 _ _ _ Hmx Hch2) as [<- Hl'].
    destruct (kids_mixed v es1' es2' ks1 ks2) as (ks' & Hp & HF); auto. { apply Hrec. now apply chain_count with (v := v) (ds := ds1). }
    cbn [labelled]. econstructor; eauto.
Qed.

Definition deeper (r : nat * jstring) : nat * jstring := (S (fst r), snd r).

Lemma below_levels ks : map level_and_label (rows_below ks) = flat_map (fun k => map deeper (map level_and_label (rows k))) ks.
Proof.
  assert (E : forall b k, map level_and_label (map (under b) (rows k)) = map deeper (map level_and_label (rows k))).
  { intros b k. rewrite !map_map. apply map_ext. reflexivity. }
  induction ks as [|k ks IH]; [reflexivity|]. cbn [rows_below flat_map]. destruct ks as [|k' ks].
  - cbn [flat_map]. rewrite app_nil_r. apply E.
  - rewrite map_app, E, <- IH. reflexivity.
Qed.

Lemma reordered_levels : forall t1 t2, reordered t1 t2 -> Permutation (map level_and_label (rows t1)) (map level_and_label (rows t2)).
Proof.
  induction t1 as [l ks IH] using dtree_ind'. intros t2 H. inversion H as [? ? ks' ks2 Hp HF]; subst.
  rewrite !rows_eq. cbn [map]. constructor. rewrite !below_levels.
  etransitivity; [apply Permutation_flat_map; exact Hp|].
  assert (IH' : Forall (fun t1 => forall t2, reordered t1 t2 -> Permutation (map level_and_label (rows t1)) (map level_and_label (rows t2))) ks').
  { apply Forall_forall. intros x Hx. rewrite Forall_forall in IH. apply IH. apply (Permutation_in x (Permutation_sym Hp) Hx). }
  clear -HF IH'. induction HF as [|a b l l' Hab HF IHF]; [constructor|]. inversion IH'; subst. cbn [flat_map]. apply Permutation_app; auto.
  apply Permutation_map. auto.
Qed.

Lemma C176_lemma : forall o1 o2 p w h1 h2 out1 out2 h1' h2' v dk st1 st2,
  steady w dk -> uses w o1 st1 -> uses w o2 st2 -> sees w o1 v -> sees w o2 v ->
  (forall q, s_dirs st1 q = s_dirs st2 q) -> (forall q, s_files st1 q = s_files st2 q) -> s_depth st2 = s_depth st1 ->
  (forall q, (s_limit st1 q < 0)%Z) -> (forall q, (s_limit st2 q < 0)%Z) ->
  pretty_print o1 p w h1 = (Ok out1, h1') -> pretty_print o2 p w h2 = (Ok out2, h2') ->
  exists e1 s1 e2 s2,
    (tree_at st1 dk 0 (location w p) e1 /\ shows v true e1 s1 /\ out1 = text (o_tree_format o1) (labelled v s1)) /\
    (tree_at st2 dk 0 (location w p) e2 /\ shows v true e2 s2 /\ out2 = text (o_tree_format o2) (labelled v s2)) /\
    reordered (labelled v s1) (labelled v s2) /\
    Permutation (map level_and_label (rows (labelled v s1))) (map level_and_label (rows (labelled v s2))).
Proof.
  intros o1 o2 p w h1 h2 out1 out2 h1' h2' v dk st1 st2 Hw Hu1 Hu2 Hs1 Hs2 Hfd Hff Em Hl1 Hl2 H1 H2.
  destruct (print_tree _ _ _ _ _ _ _ _ _ Hw Hu1 Hs1 H1) as (e1 & s1 & Ht1 & Hsh1 & Ho1).
  destruct (print_tree _ _ _ _ _ _ _ _ _ Hw Hu2 Hs2 H2) as (e2 & s2 & Ht2 & Hsh2 & Ho2).
  exists e1, s1, e2, s2. split; [auto|]. split; [auto|].
  assert (Hr : reordered (labelled v s1) (labelled v s2)).
  { eapply shows_mixed; eauto. eapply tree_mixed; eauto. }
  split; [exact Hr|]. now apply reordered_levels.
Qed.
