(** * A change below one directory: lemmas for C179 *)

From Verif Require Import SpecLocal RenderFacts ScanFacts PathFacts SortFacts TreeFacts PrintFacts ShownFacts ScanPrintFacts MetaFacts LinesFacts.

Definition outside (d : path) (e : entry) : Prop := Forall (fun q => ~ below d q) (entry_paths e).

Inductive only_at (d : path) : entry -> entry -> Prop :=
| oa_here es1 es2 : only_at d (EDir d es1) (EDir d es2)
| oa_in q l e1 e2 r : ~ below d q -> Forall (outside d) l -> Forall (outside d) r -> only_at d e1 e2 -> only_at d (EDir q (l ++ e1 :: r)) (EDir q (l ++ e2 :: r)).

Lemma child_below d p n : ~ below d p -> below d (child p n) -> child p n = d.
Proof.
  intros Hn (ns & E). destruct ns as [|x ns] using rev_ind.
  - rewrite app_nil_r in E. destruct d. exact E.
  - clear IHns. exfalso. apply Hn. exists ns. unfold child in E. destruct p as [pa pn]; cbn in *. pose proof (f_equal p_abs E) as Ea. pose proof (f_equal p_names E) as En. cbn in *.
    rewrite app_assoc in En. apply app_inj_tail in En. destruct En as [-> _]. now subst pa.
Qed.

Lemma below_self p : below p p.
Proof. exists []. destruct p. cbn. now rewrite app_nil_r. Qed.
Lemma below_child_self p n : below p (child p n).
Proof. exists [n]. reflexivity. Qed.
Lemma below_trans' a b c : below a b -> below b c -> below a c.
Proof. intros (x & ->) (y & ->). exists (x ++ y). cbn. now rewrite app_assoc. Qed.

(** Two directories above the same path are one above the other. *)
Lemma below_linear a b c : below a c -> below b c -> below a b \/ below b a.
Proof.
  intros (x & ->) (y & E). pose proof (f_equal p_abs E) as Ea. pose proof (f_equal p_names E) as En. cbn in Ea, En. clear E.
  destruct a as [aa an], b as [ba bn]. cbn in *. subst ba. revert bn En. induction an as [|n an IH]; intros bn En.
  - left. exists bn. reflexivity.
  - destruct bn as [|m bn]; [right; exists (n :: an); reflexivity|]. cbn in En. injection En as <- En.
    destruct (IH bn En) as [(z & Ez)|(z & Ez)]; [left|right]; exists z; cbn in *; injection Ez as ->; reflexivity.
Qed.

Lemma below_dec d q : below d q \/ ~ below d q.
Proof.
  destruct d as [da dn], q as [qa qn]. destruct (Bool.bool_dec da qa) as [->|Hn].
  2:{ right. intros (ns & E). apply Hn. pose proof (f_equal p_abs E) as Ea. cbn in Ea. now symmetry. }
  revert qn. induction dn as [|n dn IH]; intro qn.
  - left. exists qn. reflexivity.
  - destruct qn as [|m qn].
    + right. intros (ns & E). pose proof (f_equal p_names E) as En. discriminate.
    + destruct (list_eq_dec N.eq_dec n m) as [->|Hn].
      * destruct (IH qn) as [(ns & E)|H]; [left; exists ns; cbn in *; injection E as ->; reflexivity|].
        right. intros (ns & E). apply H. exists ns. cbn in *. pose proof (f_equal p_names E) as En. cbn in En. injection En as ->. reflexivity.
      * right. intros (ns & E). pose proof (f_equal p_names E) as En. cbn in En. injection En as En _. now apply Hn.
Qed.

Section Two.
  Context (st1 st2 : settings) (dk1 dk2 : disk) (d : path).
  Hypothesis Hc : configured_order (s_cmp st1).
  Hypothesis Hc2 : configured_order (s_cmp st2).
  Hypothesis Hst : settings_except d st1 st2.
  Hypothesis Hdn : distinct_names dk1.
  Hypothesis Hsame : same_except d dk1 dk2.

  Lemma child_out p n : ~ below d p -> ~ below d (child p n) \/ child p n = d.
  Proof. intro Hp. destruct (below_dec d (child p n)) as [Hb|Hb]; [right; now apply child_below|now left]. Qed.

  Lemma accepts_same p n : ~ below d p -> accepts st1 dk1 (child p n) = accepts st2 dk2 (child p n).
  Proof.
    intro Hp. destruct Hsame as (H1 & H2 & H). destruct Hst as (_ & Hf & _). destruct (Hf _ (child_out p n Hp)) as [Ed Ef]. unfold accepts. rewrite Ed, Ef.
    replace (is_dirb dk1 (child p n)) with (is_dirb dk2 (child p n)); [reflexivity|].
    unfold is_dirb. destruct (child_out p n Hp) as [Hb | Hb].
    - now destruct (H _ Hb) as (-> & _).
    - rewrite Hb. unfold is_dir in *. now rewrite H1, H2.
  Qed.

  Lemma is_dir_same p : ~ below d p \/ p = d -> is_dir dk1 p <-> is_dir dk2 p.
  Proof.
    destruct Hsame as (H1 & H2 & H). intros [Hp | ->]; [|tauto]. unfold is_dir. now destruct (H _ Hp) as (-> & _).
  Qed.

  (** Outside [d] the children that are looked at are the same. *)
  Lemma order_kids st dk p names order c : in_order (s_cmp st) (filter (accepts st dk) (map (child p) names)) order -> In c order -> exists n, c = child p n.
  Proof.
    intros [Hpm _] Hin. apply (Permutation_in _ (Permutation_sym Hpm)), filter_In in Hin. destruct Hin as [Hin _].
    apply in_map_iff in Hin. destruct Hin as (n & <- & _). eauto.
  Qed.

  Lemma sorted_ext (R S : path -> path -> Prop) l : (forall a b, In a l -> In b l -> R a b -> S a b) -> StronglySorted R l -> StronglySorted S l.
  Proof.
    intros H HS. induction HS as [|x l HS IH Hx]; constructor.
    - apply IH. intros a b Ha Hb. apply H; now right.
    - apply Forall_forall. intros y Hy. rewrite Forall_forall in Hx. apply H; [now left|now right|auto].
  Qed.

  Lemma orders_same p names1 names2 order1 order2 : ~ below d p -> d_list dk1 p = Some names1 -> d_list dk2 p = Some names2 ->
    in_order (s_cmp st1) (filter (accepts st1 dk1) (map (child p) names1)) order1 ->
    in_order (s_cmp st2) (filter (accepts st2 dk2) (map (child p) names2)) order2 -> order1 = order2.
  Proof.
    intros Hp Hl1 Hl2 Ho1 Ho2. destruct Hsame as (_ & _ & H). destruct (H _ Hp) as (_ & _ & Hl). rewrite Hl1, Hl2 in Hl.
    assert (Hnd : NoDup names1) by (eapply Hdn; eauto).
    apply strict_sorted_unique with (c := s_cmp st1).
    - pose proof Hc as Hc'. apply configured_contract in Hc'. destruct Hc' as (Hanti & _). intros a b. specialize (Hanti a b). lia.
    - exact (order_strict st1 dk1 p names1 order1 Hc Hnd Ho1).
    - apply sorted_ext with (R := fun a b => (s_cmp st2 a b < 0)%Z).
      + intros a b Ha Hb Hab. destruct (order_kids _ _ _ _ _ _ Ho2 Ha) as [n ->]. destruct (order_kids _ _ _ _ _ _ Ho2 Hb) as [m ->].
        destruct Hst as (_ & _ & _ & Hcm). rewrite Hcm; [exact Hab|now apply child_out|now apply child_out].
      + apply (order_strict st2 dk2 p names2 order2 Hc2); [|exact Ho2]. eapply Permutation_NoDup; eauto.
    - destruct Ho1 as [Ho1 _], Ho2 as [Ho2 _]. rewrite <- Ho1, <- Ho2.
      rewrite !filter_map_child. apply Permutation_map.
      rewrite (filter_ext _ _ (fun n => accepts_same p n Hp)). now apply filter_perm.
  Qed.

  Lemma limit_same p : ~ below d p -> s_limit st2 p = s_limit st1 p.
  Proof. destruct Hst as (_ & _ & Hl & _). intro Hp. symmetry. now apply Hl. Qed.
  Lemma depth_same : s_depth st2 = s_depth st1.
  Proof. destruct Hst as (E & _). now symmetry. Qed.

  Lemma limited_in n (l : list path) c : In c (limited n l) -> In c l.
  Proof. unfold limited. destruct (_ <? 0)%Z; [auto|]. intro H. rewrite <- (firstn_skipn (Z.to_nat n) l). apply in_or_app. now left. Qed.

  Lemma marker_out n l p : flat_map entry_paths (marker n l p) = [].
  Proof. unfold marker. destruct (_ && _); reflexivity. Qed.

  (** Neither above nor below [d]: nothing changes. *)
  Lemma tree_elsewhere : forall e1 z p e2, ~ below d p -> ~ below p d -> tree_at st1 dk1 z p e1 -> tree_at st2 dk2 z p e2 -> e1 = e2 /\ outside d e1.
  Proof.
    induction e1 as [r es IH|f k|r|x] using entry_ind'; intros z p e2 Hp Hp' H1 H2; pose proof depth_same as Em.
    - inversion H1 as [| ? ? Hd Hm|? ? names order es0 Hd Hm Hli Hord HF]; subst;
        inversion H2 as [? ? ? Hnd2 Hk2|? ? Hd2 Hm2|? ? names2 order2 es02 Hd2 Hm2 Hli2 Hord2 HF2]; subst;
        try (exfalso; lia); try (exfalso; apply Hnd2; now apply (is_dir_same r (or_introl Hp))).
      + split; [reflexivity|]. repeat constructor. exact Hp.
      + pose proof (orders_same _ _ _ _ _ Hp Hli Hli2 Hord Hord2) as <-. rewrite (limit_same r Hp) in *.
        assert (Hkids : es0 = es02 /\ Forall (outside d) es0).
        { assert (Hcs : forall c, In c (limited (s_limit st1 r) order) -> exists n, c = child r n).
          { intros c Hcin. apply limited_in in Hcin. eapply order_kids; eauto. }
          apply Forall_app in IH. destruct IH as [IH _]. clear -HF HF2 IH Hcs Hp Hp'. revert es02 HF2.
          induction HF as [|c e cs es Hce HF IHF]; intros es2 HF2; inversion HF2 as [|? e' ? es2' Hce' HF2']; subst; [split; [reflexivity|constructor]|].
          inversion IH as [|? ? IHe IHes]; subst. destruct (Hcs c (or_introl eq_refl)) as [n ->].
          destruct (IHe (z + 1)%Z (child r n) e') as [<- Hn1]; auto.
          { intro Hb. apply Hp'. rewrite <- (child_below _ _ _ Hp Hb). apply below_child_self. }
          { intro Hb. apply Hp'. eapply below_trans'; [apply below_child_self|exact Hb]. }
          destruct (IHF IHes (fun c Hi => Hcs c (or_intror Hi)) es2' HF2') as [<- Hn2].
          split; [reflexivity|]. now constructor. }
        destruct Hkids as [<- Hni]. split; [reflexivity|]. unfold outside. cbn [entry_paths]. constructor; [exact Hp|].
        rewrite flat_map_app, marker_out, app_nil_r. now apply Forall_flat_map.
    - inversion H1 as [? ? ? Hnd Hk| |]; subst. inversion H2 as [? ? ? Hnd2 Hk2|? ? Hd2 Hm2|? ? names2 order2 es02 Hd2 Hm2 Hli2 Hord2 HF2]; subst;
        try (exfalso; apply Hnd; now apply (is_dir_same _ (or_introl Hp))).
      destruct Hsame as (_ & _ & Hse). destruct (Hse _ Hp) as (_ & Ha & _). split; [congruence|]. repeat constructor. exact Hp.
    - inversion H1.
    - inversion H1.
  Qed.

  Lemma between p : below p d -> below d p -> p = d.
  Proof.
    intros (x & E) (y & E2). rewrite E in E2. destruct p as [pa pn]; cbn in *. pose proof (f_equal p_names E2) as En. cbn in En.
    rewrite <- app_assoc in En. rewrite <- (app_nil_r pn) in En at 1. apply app_inv_head in En. symmetry in En. apply app_eq_nil in En. destruct En as [-> _].
    rewrite app_nil_r in E. now symmetry.
  Qed.

  (** Above [d]: one part changes. *)
  Lemma tree_changed : forall e1 z p e2, below p d -> tree_at st1 dk1 z p e1 -> tree_at st2 dk2 z p e2 ->
    (e1 = e2 /\ outside d e1) \/ only_at d e1 e2.
  Proof.
    induction e1 as [r es IH|f k|r|x] using entry_ind'; intros z p e2 Hpd H1 H2; pose proof depth_same as Em.
    - assert (r = p) as -> by (inversion H1; congruence). destruct (below_dec d p) as [Hb|Hp].
      { right. assert (p = d) as -> by now apply between.
        destruct Hsame as (_ & Hd2 & _). inversion H2 as [? ? ? Hnd2 Hk2|? ? Hd3 Hm2|? ? names2 order2 es02 Hd3 Hm2 Hli2 Hord2 HF2]; subst;
          [now destruct Hnd2|constructor|constructor]. }
      inversion H1 as [| ? ? Hd Hm|? ? names order es0 Hd Hm Hli Hord HF]; subst;
        inversion H2 as [? ? ? Hnd2 Hk2|? ? Hd2 Hm2|? ? names2 order2 es02 Hd2 Hm2 Hli2 Hord2 HF2]; subst;
        try (exfalso; lia); try (exfalso; apply Hnd2; now apply (is_dir_same p (or_introl Hp))).
      + left. split; [reflexivity|]. repeat constructor. exact Hp.
      + pose proof (orders_same _ _ _ _ _ Hp Hli Hli2 Hord Hord2) as <-. rewrite (limit_same p Hp) in *.
        assert (Hkids : (es0 = es02 /\ Forall (outside d) es0) \/
                        exists l a b t, es0 = l ++ a :: t /\ es02 = l ++ b :: t /\ Forall (outside d) l /\ Forall (outside d) t /\ only_at d a b).
        { assert (Hcs : forall c, In c (limited (s_limit st1 p) order) -> exists n, c = child p n).
          { intros c Hcin. apply limited_in in Hcin. eapply order_kids; eauto. }
          assert (Hnd : NoDup (limited (s_limit st1 p) order)).
          { assert (Hno : NoDup order).
            { destruct Hord as [Hpm _]. eapply Permutation_NoDup; [exact Hpm|]. apply NoDup_filter, NoDup_map_child. eapply Hdn; eauto. }
            unfold limited. destruct (_ <? 0)%Z; [exact Hno|]. match goal with |- NoDup (firstn ?n _) => rewrite <- (firstn_skipn n order) in Hno end.
            exact (NoDup_part _ [] _ _ Hno). }
          apply Forall_app in IH. destruct IH as [IH _]. clear -HF HF2 IH Hcs Hp Hnd Hc Hc2 Hst Hdn Hsame. revert es02 HF2.
          induction HF as [|c e cs es Hce HF IHF]; intros es2 HF2; inversion HF2 as [|? e' ? es2' Hce' HF2']; subst; [left; split; [reflexivity|constructor]|].
          inversion IH as [|? ? IHe IHes]; subst. inversion Hnd as [|? ? Hni Hnd']; subst.
          specialize (IHF IHes (fun c Hi => Hcs c (or_intror Hi)) Hnd' es2' HF2').
          assert (Hc1 : (e = e' /\ outside d e) \/ (below c d /\ only_at d e e')).
          { destruct (below_dec c d) as [Hcd|Hcd].
            - destruct (IHe (z + 1)%Z c e' Hcd Hce Hce') as [Hq|Hq]; auto.
            - destruct (Hcs c (or_introl eq_refl)) as [n ->]. left. eapply tree_elsewhere; [|exact Hcd|exact Hce|exact Hce'].
              intro Hb. apply Hcd. rewrite (child_below _ _ _ Hp Hb). apply below_self. }
          destruct Hc1 as [[<- Hn1]|[Hcd Ho1]].
          - destruct IHF as [[<- Hn2]|(l & a & b & t & -> & -> & Hl & Ht & Ho)].
            + left. split; [reflexivity|]. now constructor.
            + right. exists (e :: l), a, b, t. repeat split; auto.
          - right. exists [], e, e', es.
            (* the other children are not above [d] *)
            assert (Hoth : forall c', In c' cs -> ~ below c' d).
            { intros c' Hc' Hb. destruct (Hcs c (or_introl eq_refl)) as [n ->]. destruct (Hcs c' (or_intror Hc')) as [m ->].
              assert (En : n = m); [|subst m; now apply Hni].
              destruct Hcd as (x & E), Hb as (y & E2). rewrite E in E2. pose proof (f_equal p_names E2) as En. cbn in En.
              rewrite <- !app_assoc in En. apply app_inv_head in En. cbn in En. now injection En. }
            assert (Hkid : forall c', In c' cs -> exists n, c' = child p n) by (intros c' Hc'; apply Hcs; now right).
            assert (Hrest : es = es2' /\ Forall (outside d) es).
            { clear -HF HF2' Hoth Hkid Hp Hc Hc2 Hst Hdn Hsame. revert es2' HF2'. induction HF as [|c e cs es Hce HF IHF]; intros l HF2; inversion HF2 as [|? e' ? es2' Hce' HF2']; subst; [split; constructor|].
              destruct (Hkid c (or_introl eq_refl)) as [n ->].
              destruct (tree_elsewhere e (z + 1)%Z (child p n) e') as [<- Hn1]; auto; [|apply Hoth; now left|].
              { intro Hb. apply (Hoth _ (or_introl eq_refl)). rewrite (child_below _ _ _ Hp Hb). apply below_self. }
              destruct (IHF (fun c Hi => Hoth c (or_intror Hi)) (fun c Hi => Hkid c (or_intror Hi)) es2' HF2') as [<- Hn2]. split; [reflexivity|now constructor]. }
            destruct Hrest as [<- Hout]. repeat split; auto. }
        destruct Hkids as [[<- Hni]|(l & a & b & t & -> & -> & Hl & Ht & Ho)].
        * left. split; [reflexivity|]. unfold outside. cbn [entry_paths]. constructor; [exact Hp|].
          rewrite flat_map_app, marker_out, app_nil_r. now apply Forall_flat_map.
        * right. rewrite <- !app_assoc. cbn [app]. constructor; auto. apply Forall_app. split; [exact Ht|].
          apply Forall_flat_map. rewrite marker_out. constructor.
    - inversion H1 as [? ? ? Hnd Hk| |]; subst. destruct Hsame as (Hd1 & Hd2 & Hse).
      assert (Hp : ~ below d f).
      { intro Hb. apply Hnd. now rewrite (between _ Hpd Hb). }
      inversion H2 as [? ? ? Hnd2 Hk2|? ? Hd3 Hm2|? ? names2 order2 es02 Hd3 Hm2 Hli2 Hord2 HF2]; subst;
        try (exfalso; apply Hnd; now apply (is_dir_same _ (or_introl Hp))).
      destruct (Hse _ Hp) as (_ & Ha & _). left. split; [congruence|]. repeat constructor. exact Hp.
    - inversion H1.
    - inversion H1.
  Qed.
End Two.

(** ** What is displayed *)

Section Views.
  Context (d : path) (v1 v2 : view).
  Hypothesis Hv : view_except d v1 v2.

  Lemma merge_same q es : ~ below d q -> mergeable v1 q es <-> mergeable v2 q es.
  Proof. intro Hq. destruct Hv as (_ & H). unfold mergeable. destruct (H q Hq) as [-> _]. tauto. Qed.

  Lemma label_same c : c <> [] -> ~ below d (last c (mkPath true [])) -> forall kids1 kids2, map (labelled v1) kids1 = map (labelled v2) kids2 ->
    labelled v1 (SDir c kids1) = labelled v2 (SDir c kids2).
  Proof.
    intros _ Hq k1 k2 Hk. cbn [labelled]. rewrite Hk. destruct Hv as (_ & H). destruct (H _ Hq) as [Ex Ee]. unfold emoji_str. now rewrite Ex, Ee.
  Qed.

  Lemma chain_same e ds es : outside d e -> chain_of v1 e ds es ->
    chain_of v2 e ds es /\ ds <> [] /\ ~ below d (last ds (mkPath true [])) /\ Forall (outside d) es.
  Proof.
    intros Ho H. induction H as [q es Hn|q c ds es Hm Hch IH]; unfold outside in Ho; cbn [entry_paths flat_map] in Ho; inversion Ho as [|? ? Hq Hr]; subst.
    - split; [constructor; now rewrite <- merge_same|]. split; [discriminate|]. split; [exact Hq|]. now apply Forall_flat_map.
    - rewrite app_nil_r in Hr. destruct (IH Hr) as (H1 & H2 & H3 & H4). split; [constructor; [now apply merge_same|exact H1]|]. split; [discriminate|].
      split; [|exact H4]. destruct ds as [|x ds]; [congruence|]. exact H3.
  Qed.

  Lemma shows_same e : outside d e -> forall top s, shows v1 top e s -> shows v2 top e s /\ labelled v1 s = labelled v2 s.
  Proof.
    induction e as [e IH] using entry_inside_ind. intros Ho top s H.
    assert (Hkids : forall es ks, (forall x, In x es -> inside e x) -> Forall (outside d) es -> Forall2 (shows v1 false) es ks ->
              Forall2 (shows v2 false) es ks /\ map (labelled v1) ks = map (labelled v2) ks).
    { intros es ks Hin Hes HF. induction HF as [|x k es ks Hxk HF IHF]; [split; constructor|]. inversion Hes as [|? ? Hx Hr]; subst.
      destruct IHF as [H1 H2]; auto; [intros; apply Hin; now right|].
      destruct (IH x (Hin x (or_introl eq_refl)) Hx false k Hxk) as [H3 H4]. cbn [map]. split; [now constructor|congruence]. }
    inversion H as [? g k| | |t q es ks Ht HF|e' ds es ks Hcm Hch HF]; subst.
    - split; [constructor|]. cbn [labelled]. inversion Ho as [|? ? Hq _]; subst. destruct Hv as (_ & Hv'). destruct (Hv' _ Hq) as [Ex Ee]. unfold emoji_str. now rewrite Ex, Ee.
    - split; [constructor|reflexivity].
    - split; [constructor|reflexivity].
    - unfold outside in Ho. cbn [entry_paths] in Ho. inversion Ho as [|? ? Hq Hr]; subst.
      destruct (Hkids es ks) as [H1 H2]; auto; [intros; now apply inside_child|now apply Forall_flat_map|].
      split; [|apply label_same; auto; discriminate]. apply shows_plain; [|exact H1]. destruct Hv as [<- _]. exact Ht.
    - destruct (chain_same _ _ _ Ho Hch) as (H1 & H2 & H3 & H4).
      destruct (Hkids es ks) as [H5 H6]; auto; [intros; eapply chain_smaller; eauto|].
      split; [|now apply label_same]. eapply shows_compact; eauto. destruct Hv as [<- _]. exact Hcm.
  Qed.

  Inductive shown_at : shown -> shown -> Prop :=
  | sa_here pre tl1 tl2 ks1 ks2 : shown_at (SDir (pre ++ d :: tl1) ks1) (SDir (pre ++ d :: tl2) ks2)
  | sa_in c l k1 k2 r : c <> [] -> ~ below d (last c (mkPath true [])) -> map (labelled v1) l = map (labelled v2) l -> map (labelled v1) r = map (labelled v2) r ->
      shown_at k1 k2 -> shown_at (SDir c (l ++ k1 :: r)) (SDir c (l ++ k2 :: r)).

  Lemma only_at_dirs e1 e2 : only_at d e1 e2 -> is_dir_entry e1 /\ is_dir_entry e2.
  Proof. destruct 1; cbn; auto. Qed.

  Lemma only_at_merge e1 e2 v q l r : only_at d e1 e2 -> mergeable v q (l ++ e1 :: r) -> mergeable v q (l ++ e2 :: r) /\ l = [] /\ r = [].
  Proof.
    intros H (Hx & c & E & Hcd). destruct (one_element _ _ _ _ _ E) as (-> & -> & ->). split; [|auto]. split; [exact Hx|]. exists e2. split; [reflexivity|].
    now apply only_at_dirs in H.
  Qed.
  Lemma only_at_sym e1 e2 : only_at d e1 e2 -> only_at d e2 e1.
  Proof. induction 1; constructor; auto. Qed.

  Lemma kids_same es : Forall (outside d) es -> forall ks ks', Forall2 (shows v1 false) es ks -> Forall2 (shows v2 false) es ks' ->
    ks' = ks /\ map (labelled v1) ks = map (labelled v2) ks.
  Proof.
    induction 1 as [|e es He Hes IH]; intros ks ks' H H'; inversion H as [|? k ? l Hk Hl]; subst; inversion H' as [|? k' ? l' Hk' Hl']; subst; [auto|].
    destruct (IH _ _ Hl Hl') as [-> E]. destruct (shows_same e He false k Hk) as [H2 E2]. rewrite (shows_fun _ _ _ _ _ Hk' H2). cbn [map]. split; congruence.
  Qed.

  Lemma sa_kids q l r e1 e2 ks1 ks2 : ~ below d q -> Forall (outside d) l -> Forall (outside d) r ->
    Forall2 (shows v1 false) (l ++ e1 :: r) ks1 -> Forall2 (shows v2 false) (l ++ e2 :: r) ks2 ->
    (forall s1 s2, shows v1 false e1 s1 -> shows v2 false e2 s2 -> shown_at s1 s2) -> shown_at (SDir [q] ks1) (SDir [q] ks2).
  Proof.
    intros Hq Hl Hr H1 H2 IH. apply Forall2_app_inv_l in H1. destruct H1 as (a1 & b1 & Ha1 & Hb1 & ->). apply Forall2_app_inv_l in H2. destruct H2 as (a2 & b2 & Ha2 & Hb2 & ->).
    destruct (kids_same _ Hl _ _ Ha1 Ha2) as [-> El]. inversion Hb1 as [|? k1 ? r1 Hk1 Hr1]; subst. inversion Hb2 as [|? k2 ? r2 Hk2 Hr2]; subst.
    destruct (kids_same _ Hr _ _ Hr1 Hr2) as [-> Er]. constructor; auto. discriminate.
  Qed.

  Lemma shows_changed e1 e2 : only_at d e1 e2 -> forall top s1 s2, shows v1 top e1 s1 -> shows v2 top e2 s2 -> shown_at s1 s2.
  Proof.
    induction 1 as [es1 es2|q l e1 e2 r Hq Hl Hr Ho IH]; intros top s1 s2 H1 H2.
    - assert (Hh : forall v es top s, shows v top (EDir d es) s -> exists tl ks, s = SDir (d :: tl) ks).
      { intros v es t s H. inversion H as [| | |? ? ? ks Ht HF|? ds es' ks Hcm Hch HF]; subst; [eauto|]. destruct (chain_of_head _ _ _ _ Hch) as (d' & es'' & E & rr & ->). injection E as <- <-. eauto. }
      destruct (Hh _ _ _ _ H1) as (tl1 & ks1 & ->). destruct (Hh _ _ _ _ H2) as (tl2 & ks2 & ->). exact (sa_here [] tl1 tl2 ks1 ks2).
    - pose proof Hv as (Hcv & _).
      inversion H1 as [| | |? ? ? ks1 Ht1 HF1|? ds1 es1' ks1 Hc1 Hch1 HF1]; subst;
        inversion H2 as [| | |? ? ? ks2 Ht2 HF2|? ds2 es2' ks2 Hc2 Hch2 HF2]; subst.
      + eapply (sa_kids q l r e1 e2); eauto.
      + destruct Ht1; congruence.
      + destruct Ht2; congruence.
      + inversion Hch1 as [? ? Hn1|? c1 ds1' ? Hm1 Hcc1]; subst.
        * inversion Hch2 as [? ? Hn2|? c2 ds2' ? Hm2 Hcc2 E]; subst.
          -- eapply (sa_kids q l r e1 e2); eauto.
          -- exfalso. apply Hn1. assert (Hm2' : mergeable v2 q (l ++ e2 :: r)) by (match goal with E : _ = l ++ e2 :: r |- _ => now rewrite <- E | E : l ++ e2 :: r = _ |- _ => now rewrite E end).
             apply merge_same; [exact Hq|]. now apply (only_at_merge e2 e1 v2 q l r (only_at_sym _ _ Ho)).
        * assert (Hm1' : mergeable v1 q (l ++ e1 :: r)) by (match goal with E : _ = l ++ e1 :: r |- _ => now rewrite <- E | E : l ++ e1 :: r = _ |- _ => now rewrite E end).
          destruct (only_at_merge e1 e2 v1 q l r Ho Hm1') as (Hm2' & -> & ->). cbn [app] in *.
          assert (c1 = e1) as -> by (match goal with E : [_] = [_] |- _ => now injection E end).
          inversion Hch2 as [? ? Hn2|? c2 ds2' ? Hm2 Hcc2]; subst; [destruct Hn2; now apply merge_same|].
          pose proof (IH false _ _ (shows_compact v1 _ _ _ _ Hc1 Hcc1 HF1) (shows_compact v2 _ _ _ _ Hc2 Hcc2 HF2)) as Hs.
          inversion Hs as [pre tl1 tl2 k1 k2 E1 E2|c l k1 k2 r Hne Hla El Er Hk E1 E2]; subst.
          -- exact (sa_here (q :: pre) tl1 tl2 ks1 ks2).
          -- apply (sa_in (q :: ds2') l k1 k2 r); auto; [discriminate|]. destruct ds2' as [|x ds]; [congruence|exact Hla].
  Qed.

  Lemma kid_place l r : exists A b B, forall k, kid_rows (l ++ k :: r) = A ++ map (under b) (rows k) ++ B.
  Proof.
    destruct r as [|k' r].
    - exists (flat_map (fun k => map (under false) (rows k)) l), true, []. intro k. rewrite kid_rows_app by discriminate. cbn [kid_rows]. now rewrite app_nil_r.
    - exists (flat_map (fun k => map (under false) (rows k)) l), false, (kid_rows (k' :: r)). intro k. rewrite kid_rows_app by discriminate. now rewrite kid_rows_cons by discriminate.
  Qed.

  Lemma shown_rows s1 s2 : shown_at s1 s2 -> exists above flags after pre tl1 ks1 tl2 ks2,
    rows (labelled v1 s1) = above ++ map (placed flags) (rows (labelled v1 (SDir (pre ++ d :: tl1) ks1))) ++ after /\
    rows (labelled v2 s2) = above ++ map (placed flags) (rows (labelled v2 (SDir (pre ++ d :: tl2) ks2))) ++ after.
  Proof.
    induction 1 as [pre tl1 tl2 ks1 ks2|c l k1 k2 r Hne Hla El Er Hk (above & flags & after & pre & tl1 & ks1 & tl2 & ks2 & E1 & E2)].
    - exists [], [], [], pre, tl1, ks1, tl2, ks2.
      assert (Hid : forall l : list row, map (placed []) l = l).
      { induction l as [|[a b] l IH]; [reflexivity|]. cbn [map]. rewrite IH. reflexivity. }
      rewrite !Hid, !app_nil_r. auto.
    - destruct (kid_place (map (labelled v1) l) (map (labelled v1) r)) as (A & b & B & HK).
      exists (([], emoji_str v1 (last c (mkPath true [])) ++ concat (map (fun d => last_name d ++ js "/") c) ++ opt_str (v_ext v1 (last c (mkPath true [])))) :: A ++ map (under b) above), (b :: flags), (map (under b) after ++ B), pre, tl1, ks1, tl2, ks2.
      assert (Hpl : forall l : list row, map (under b) (map (placed flags) l) = map (placed (b :: flags)) l).
      { intro l0. rewrite map_map. reflexivity. }
      assert (Elab : emoji_str v2 (last c (mkPath true [])) = emoji_str v1 (last c (mkPath true [])) /\ v_ext v2 (last c (mkPath true [])) = v_ext v1 (last c (mkPath true []))).
      { destruct Hv as (_ & H). destruct (H _ Hla) as [Ex Ee]. unfold emoji_str. now rewrite Ex, Ee. }
      destruct Elab as [Ee Ex].
      revert E1 E2. generalize (rows (labelled v1 (SDir (pre ++ d :: tl1) ks1))) (rows (labelled v2 (SDir (pre ++ d :: tl2) ks2))). intros R1 R2 E1 E2.
      split; cbn [labelled]; rewrite ?Ee, ?Ex, rows_kids, map_app; cbn [map]; rewrite <- ?El, <- ?Er, HK, ?E1, ?E2, !(map_app (under b)), Hpl; cbn [app]; f_equal; now rewrite <- !app_assoc.
  Qed.
End Views.

Lemma C179_lemma : forall o1 o2 p d w1 w2 h1 h2 out1 out2 h1' h2' v1 v2 dk1 dk2 st1 st2,
  steady w1 dk1 -> steady w2 dk2 -> w_jvm w1 = w_jvm w2 -> distinct_names dk1 -> same_except d dk1 dk2 ->
  uses w1 o1 st1 -> uses w2 o2 st2 -> settings_except d st1 st2 -> configured_order (s_cmp st1) -> configured_order (s_cmp st2) ->
  sees w1 o1 v1 -> sees w2 o2 v2 -> view_except d v1 v2 -> o_tree_format o1 = o_tree_format o2 ->
  ~ below d (location w1 p) \/ location w1 p = d ->
  pretty_print o1 p w1 h1 = (Ok out1, h1') -> pretty_print o2 p w2 h2 = (Ok out2, h2') ->
  exists e1 s1 e2 s2,
    (tree_at st1 dk1 0 (location w1 p) e1 /\ shows v1 true e1 s1 /\ out1 = text (o_tree_format o1) (labelled v1 s1)) /\
    (tree_at st2 dk2 0 (location w2 p) e2 /\ shows v2 true e2 s2 /\ out2 = text (o_tree_format o2) (labelled v2 s2)) /\
    ((~ In d (entry_paths e1) /\ out1 = out2) \/
     exists above flags after pre tl1 ks1 tl2 ks2,
       rows (labelled v1 s1) = above ++ map (placed flags) (rows (labelled v1 (SDir (pre ++ d :: tl1) ks1))) ++ after /\
       rows (labelled v2 s2) = above ++ map (placed flags) (rows (labelled v2 (SDir (pre ++ d :: tl2) ks2))) ++ after).
Proof.
  intros o1 o2 p d w1 w2 h1 h2 out1 out2 h1' h2' v1 v2 dk1 dk2 st1 st2 Hw1 Hw2 Hj Hd Hse Hu1 Hu2 Hst Hc Hc2 Hs1 Hs2 Hv Hf Hloc H1 H2.
  destruct (print_tree _ _ _ _ _ _ _ _ _ Hw1 Hu1 Hs1 H1) as (e1 & s1 & Ht1 & Hsh1 & Ho1).
  destruct (print_tree _ _ _ _ _ _ _ _ _ Hw2 Hu2 Hs2 H2) as (e2 & s2 & Ht2 & Hsh2 & Ho2).
  exists e1, s1, e2, s2. split; [auto|]. split; [auto|].
  assert (Hl : location w2 p = location w1 p) by (unfold location; now rewrite Hj).
  rewrite Hl in Ht2.
  assert (Hcase : (e1 = e2 /\ outside d e1) \/ only_at d e1 e2).
  { destruct (below_dec (location w1 p) d) as [Hb|Hb].
    - eapply (tree_changed st1 st2 dk1 dk2); eauto.
    - left. eapply (tree_elsewhere st1 st2 dk1 dk2); eauto. destruct Hloc as [Hloc|Hloc]; [exact Hloc|]. destruct Hb. rewrite Hloc. apply below_self. }
  destruct Hcase as [[<- Hn]|Ho].
  - left. split.
    + intro Hin. unfold outside in Hn. rewrite Forall_forall in Hn. apply (Hn d Hin), below_self.
    + rewrite Ho1, Ho2, Hf. destruct (shows_same d v1 v2 Hv e1 Hn true s1 Hsh1) as [Hx ->]. now rewrite (shows_fun _ _ _ _ _ Hsh2 Hx).
  - right. apply (shown_rows d v1 v2 Hv). eapply shows_changed; eauto.
Qed.
