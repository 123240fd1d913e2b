(** * The two filters do not interfere: lemmas for C175 *)

From Verif Require Import SpecApart SortFacts RenderFacts ScanFacts PathFacts TreeFacts PrintFacts ScanPrintFacts MetaFacts.
Open Scope Z_scope.

Lemma limited_neg n (l : list path) : n < 0 -> limited n l = l.
Proof. intro H. unfold limited. destruct (Z.ltb_spec n 0); [reflexivity|lia]. Qed.

Lemma marker_neg n (l : list path) p : n < 0 -> marker n l p = [].
Proof. intro H. unfold marker. destruct (Z.leb_spec 0 n); [lia|reflexivity]. Qed.

Lemma filter_and A (f g : A -> bool) l : filter f (filter g l) = filter (fun x => f x && g x)%bool l.
Proof.
  induction l as [|x l IH]; cbn; [reflexivity|]. destruct (g x); cbn; rewrite IH; [|now rewrite Bool.andb_false_r].
  now rewrite Bool.andb_true_r.
Qed.

(** The part of the order on which both filters agree is the same. *)
Lemma orders_agree st1 st2 dk r names order1 order2 f :
  configured_order (s_cmp st1) -> s_cmp st2 = s_cmp st1 -> NoDup names ->
  (forall q, f q = true -> accepts st1 dk q = accepts st2 dk q) ->
  in_order (s_cmp st1) (filter (accepts st1 dk) (map (child r) names)) order1 ->
  in_order (s_cmp st2) (filter (accepts st2 dk) (map (child r) names)) order2 ->
  filter f order1 = filter f order2.
Proof.
  intros Hc Ec Hnd Hf H1 H2. pose proof Hc as Hc2. rewrite <- Ec in Hc2.
  apply strict_sorted_unique with (c := s_cmp st1).
  - apply configured_contract in Hc. destruct Hc as (Hanti & _). intros a b. specialize (Hanti a b). lia.
  - apply filter_StronglySorted. exact (order_strict st1 dk r names order1 Hc Hnd H1).
  - apply filter_StronglySorted. rewrite <- Ec. exact (order_strict st2 dk r names order2 Hc2 Hnd H2).
  - destruct H1 as [H1 _], H2 as [H2 _]. apply filter_perm with (f := f) in H1, H2. rewrite <- H1, <- H2, !filter_and.
    erewrite filter_ext; [reflexivity|]. intro q. cbn. destruct (f q) eqn:E; [|reflexivity]. now rewrite (Hf q E).
Qed.

Lemma file_entry_dir st dk d p e : tree_at st dk d p e -> file_entry e = negb (is_dirb dk p).
Proof.
  intro H. unfold is_dirb. destruct H as [? ? k Hnd _|? ? Hdir _|? ? ? ? ? Hdir]; cbn [file_entry].
  - unfold is_dir in Hnd. destruct (d_kind dk p) as [[]|]; try reflexivity. now destruct Hnd.
  - unfold is_dir in Hdir. now rewrite Hdir.
  - unfold is_dir in Hdir. now rewrite Hdir.
Qed.

Lemma Forall2_part (R : path -> entry -> Prop) (f : path -> bool) (g : entry -> bool) l es :
  (forall p e, R p e -> g e = f p) -> Forall2 R l es -> Forall2 R (filter f l) (filter g es).
Proof.
  intros Hfg H. induction H as [|p e l es Hpe H IH]; cbn; [constructor|]. rewrite (Hfg p e Hpe). destruct (f p); [constructor|]; auto.
Qed.

Lemma filter_without es : filter (fun x => negb (file_entry x)) (map without_files es) = map without_files (filter (fun x => negb (file_entry x)) es).
Proof. induction es as [|[] es IH]; cbn in *; congruence. Qed.

Section Two.
  Context (st1 st2 : settings) (dk : disk).
  Hypothesis Hd : distinct_names dk.
  Hypothesis Hc : configured_order (s_cmp st1).
  Hypothesis Ec : s_cmp st2 = s_cmp st1.
  Hypothesis Em : s_depth st2 = s_depth st1.
  Hypothesis Hl1 : forall q, s_limit st1 q < 0.
  Hypothesis Hl2 : forall q, s_limit st2 q < 0.

  Lemma same_directories : (forall q, s_dirs st1 q = s_dirs st2 q) ->
    forall e1 d p e2, tree_at st1 dk d p e1 -> tree_at st2 dk d p e2 -> without_files e1 = without_files e2.
  Proof.
    intros Hf. induction e1 as [r es IH|f k|r|n] using entry_ind'; intros d p e2 H1 H2.
    - inversion H1 as [| ? ? Hd1 Hm|? ? names order es0 Hd1 Hm Hli Hord HF]; subst;
        inversion H2 as [? ? ? Hnd2 Hk2|? ? Hd2 Hm2|? ? names2 order2 es02 Hd2 Hm2 Hli2 Hord2 HF2]; subst;
        try (exfalso; lia); try (exfalso; now apply Hnd2); auto.
      rewrite Hli in Hli2. injection Hli2 as <-.
      rewrite marker_neg, app_nil_r in * by auto. rewrite marker_neg, app_nil_r by auto. rewrite limited_neg in HF, HF2 by auto.
      pose proof (orders_agree st1 st2 dk r names order order2 (is_dirb dk) Hc Ec) as Ho.
      assert (E : filter (is_dirb dk) order = filter (is_dirb dk) order2).
      { apply Ho; auto. { eapply Hd; eauto. } intros q Hq. unfold accepts. rewrite Hq. apply Hf. }
      cbn [without_files]. f_equal. rewrite !filter_without.
      apply Forall2_part with (f := is_dirb dk) (g := fun x => negb (file_entry x)) in HF, HF2;
        try (intros c e Hce; rewrite (file_entry_dir _ _ _ _ _ Hce); apply Bool.negb_involutive).
      rewrite <- E in HF2. clear -HF HF2 IH.
      assert (IH' : Forall (fun e1 => forall d p e2, tree_at st1 dk d p e1 -> tree_at st2 dk d p e2 -> without_files e1 = without_files e2)
                      (filter (fun x => negb (file_entry x)) es0)).
      { apply Forall_forall. intros x Hx. apply filter_In in Hx. rewrite Forall_forall in IH. apply IH, Hx. }
      clear IH. revert HF2. generalize (filter (fun x => negb (file_entry x)) es02).
      induction HF as [|c e cs es Hce HF IHF]; intros l HF2; inversion HF2; subst; [reflexivity|].
      inversion IH'; subst. cbn [map]. f_equal; eauto.
    - inversion H1 as [? ? ? Hnd Hk| |]; subst. inversion H2 as [? ? ? Hnd2 Hk2|? ? Hd2 Hm2|? ? names2 order2 es02 Hd2 Hm2 Hli2 Hord2 HF2]; subst;
        try (exfalso; now apply Hnd). congruence.
    - inversion H1.
    - inversion H1.
  Qed.

  Lemma same_files : (forall q, s_files st1 q = s_files st2 q) ->
    forall d r es1 es2, tree_at st1 dk d r (EDir r es1) -> tree_at st2 dk d r (EDir r es2) -> files_in es1 = files_in es2.
  Proof.
    intros Hf d r es es2 H1 H2.
    inversion H1 as [| ? ? Hd1 Hm|? ? names order es0 Hd1 Hm Hli Hord HF]; subst;
      inversion H2 as [? ? ? Hnd2 Hk2|? ? Hd2 Hm2|? ? names2 order2 es02 Hd2 Hm2 Hli2 Hord2 HF2]; subst;
      try (exfalso; lia); auto.
    rewrite Hli in Hli2. injection Hli2 as <-.
    rewrite !marker_neg, !app_nil_r by auto. rewrite limited_neg in HF, HF2 by auto.
    pose proof (orders_agree st1 st2 dk r names order order2 (fun q => negb (is_dirb dk q)) Hc Ec) as Ho.
    assert (E : filter (fun q => negb (is_dirb dk q)) order = filter (fun q => negb (is_dirb dk q)) order2).
    { apply Ho; auto. { eapply Hd; eauto. } intros q Hq. unfold accepts. destruct (is_dirb dk q); [discriminate|]. apply Hf. }
    unfold files_in.
    apply Forall2_part with (f := fun q => negb (is_dirb dk q)) (g := file_entry) in HF, HF2;
      try (intros c e Hce; exact (file_entry_dir _ _ _ _ _ Hce)).
    rewrite <- E in HF2. clear -HF HF2.
    assert (Hall1 : forall x, In x (filter file_entry es0) -> file_entry x = true) by (intros x Hx; now apply filter_In in Hx).
    assert (Hall2 : forall x, In x (filter file_entry es02) -> file_entry x = true) by (intros x Hx; now apply filter_In in Hx).
    revert HF2 Hall1 Hall2. generalize (filter file_entry es02). induction HF as [|c e cs es Hce HF IHF]; intros l HF2 A1 A2; inversion HF2; subst; [reflexivity|].
    f_equal; [|apply IHF; auto; intros x Hx; [apply A1|apply A2]; now right].
    specialize (A1 e (or_introl eq_refl)). specialize (A2 y (or_introl eq_refl)).
    destruct e; try discriminate. destruct y; try discriminate.
    inversion Hce; subst. match goal with H : tree_at st2 _ _ _ _ |- _ => inversion H; subst end. congruence.
  Qed.
End Two.

Lemma depth_length st dk k : forall e d p q es, tree_at st dk d p e -> at_depth k e (EDir q es) ->
  length (p_names q) = (length (p_names p) + k)%nat.
Proof.
  induction k as [|k IH]; intros e d p q es Ht Hat; inversion Hat as [|? dd es' c ? Hin Hc]; subst.
  - pose proof (tree_at_path _ _ _ _ _ Ht) as E. injection E as <-. lia.
  - inversion Ht as [| ? ? Hd Hm|? ? names order es0 Hd Hm Hl Hord HF]; subst.
    + destruct Hin as [<-|[]]. inversion Hc.
    + apply in_app_or in Hin. destruct Hin as [Hin|Hin].
      * destruct (Forall2_in_r _ _ _ _ _ _ HF Hin) as (c' & Hin' & Hc').
        rewrite (IH _ _ _ _ _ Hc' Hc).
        assert (Hin2 : In c' order).
        { unfold limited in Hin'. destruct (_ <? 0); [exact Hin'|]. match type of Hin' with In _ (firstn ?n _) => rewrite <- (firstn_skipn n order) end. apply in_or_app. now left. }
        destruct Hord as [Hp _]. apply (Permutation_in _ (Permutation_sym Hp)) in Hin2. apply filter_In in Hin2. destruct Hin2 as [Hin2 _].
        apply in_map_iff in Hin2. destruct Hin2 as (n & <- & _). unfold child. cbn [p_names]. rewrite app_length. cbn. lia.
      * unfold marker in Hin. destruct (_ && _); [|destruct Hin]. destruct Hin as [<-|[]]. inversion Hc.
Qed.

Lemma C175_lemma : forall o1 o2 p w h1 h2 out1 out2 h1' h2' v1 v2 dk st1 st2,
  steady w dk -> distinct_names dk -> uses w o1 st1 -> uses w o2 st2 -> sees w o1 v1 -> sees w o2 v2 ->
  configured_order (s_cmp st1) -> s_cmp st2 = s_cmp st1 -> s_depth st2 = s_depth st1 ->
  (forall q, s_limit st1 q < 0) -> (forall q, s_limit st2 q < 0) ->
  pretty_print o1 p w h1 = (Ok out1, h1') -> pretty_print o2 p w h2 = (Ok out2, h2') ->
  exists e1 s1 e2 s2,
    (tree_at st1 dk 0 (location w p) e1 /\ shows v1 true e1 s1 /\ out1 = text (o_tree_format o1) (labelled v1 s1)) /\
    (tree_at st2 dk 0 (location w p) e2 /\ shows v2 true e2 s2 /\ out2 = text (o_tree_format o2) (labelled v2 s2)) /\
    ((forall q, s_dirs st1 q = s_dirs st2 q) -> without_files e1 = without_files e2) /\
    ((forall q, s_files st1 q = s_files st2 q) ->
     forall n1 n2 d es1 es2, at_depth n1 e1 (EDir d es1) -> at_depth n2 e2 (EDir d es2) -> files_in es1 = files_in es2).
Proof.
  intros o1 o2 p w h1 h2 out1 out2 h1' h2' v1 v2 dk st1 st2 Hw Hd Hu1 Hu2 Hs1 Hs2 Hc Ec Em Hl1 Hl2 H1 H2.
  destruct (print_tree _ _ _ _ _ _ _ _ _ Hw Hu1 Hs1 H1) as (e1 & s1 & Ht1 & Hsh1 & Ho1).
  destruct (print_tree _ _ _ _ _ _ _ _ _ Hw Hu2 Hs2 H2) as (e2 & s2 & Ht2 & Hsh2 & Ho2).
  exists e1, s1, e2, s2. split; [auto|]. split; [auto|]. split.
  - intro Hf. exact (same_directories st1 st2 dk Hd Hc Ec Em Hl1 Hl2 Hf e1 _ _ e2 Ht1 Ht2).
  - intros Hf n1 n2 d es1 es2 A1 A2.
    assert (n1 = n2) as <-.
    { pose proof (depth_length _ _ _ _ _ _ _ _ Ht1 A1). pose proof (depth_length _ _ _ _ _ _ _ _ Ht2 A2). lia. }
    apply (same_files st1 st2 dk Hd Hc Ec Em Hl1 Hl2 Hf (0 + Z.of_nat n1) d); eapply tree_sub; eauto.
Qed.
