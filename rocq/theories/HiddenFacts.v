(** * What is not displayed has no influence: proofs *)

From Verif Require Import SpecHidden RenderFacts SortFacts ScanFacts TreeFacts ShownFacts PrintFacts ScanPrintFacts MetaFacts CallFacts.
Open Scope Z_scope.

Lemma is_dirb_is_dir dk q : is_dir dk q <-> is_dirb dk q = true.
Proof. unfold is_dir, is_dirb. destruct (d_kind dk q) as [[]|]; split; congruence. Qed.

Lemma contained_app dk l1 l2 : contained dk (l1 ++ l2) = contained dk l1 ++ contained dk l2.
Proof. apply flat_map_app. Qed.
Lemma contained_sub dk l1 l2 : incl l1 l2 -> incl (contained dk l1) (contained dk l2).
Proof.
  intros H q Hq. apply in_flat_map in Hq. destruct Hq as (x & Hx & Hq). apply in_flat_map. exists x. split; [now apply H|exact Hq].
Qed.

Definition all_alike (dk1 dk2 : disk) (st1 st2 : settings) (dirs shown : list path) : Prop :=
  (forall q, In q (contained dk1 dirs) -> is_dirb dk2 q = is_dirb dk1 q) /\
  (forall q, In q shown -> is_dirb dk1 q = false -> d_attr dk2 q = d_attr dk1 q) /\
  (forall q l, In q dirs -> d_list dk1 q = Some l -> exists l', d_list dk2 q = Some l' /\ Permutation l l') /\
  (forall q, In q (contained dk1 dirs) -> accepts st2 dk1 q = accepts st1 dk1 q) /\
  (forall q, In q dirs -> s_limit st2 q = s_limit st1 q) /\
  (forall q a b, In q dirs -> In a (contained dk1 [q]) -> In b (contained dk1 [q]) -> Z.sgn (s_cmp st1 a b) = Z.sgn (s_cmp st2 a b)).

Lemma all_alike_sub dk1 dk2 st1 st2 l1 s1 l2 s2 : incl l1 l2 -> incl s1 s2 -> all_alike dk1 dk2 st1 st2 l2 s2 -> all_alike dk1 dk2 st1 st2 l1 s1.
Proof.
  intros H Hs (H1 & H2 & H3 & H4 & H5 & H6). pose proof (contained_sub dk1 _ _ H) as Hc.
  split; [auto|]. split; [auto|]. split; [eauto|]. split; [auto|]. split; [auto|]. eauto.
Qed.

Lemma tree_alike dk1 dk2 st1 st2 : s_depth st1 = s_depth st2 -> configured_order (s_cmp st1) ->
  forall e d p, tree_at st1 dk1 d p e -> is_dirb dk2 p = is_dirb dk1 p -> all_alike dk1 dk2 st1 st2 (opened e) (entry_paths e) ->
    tree_at st2 dk2 d p e.
Proof.
  intros Hdep Hc. induction e as [r es IH|f k|r|n] using entry_ind'; intros d p H Hp Ha;
    inversion H as [? ? k' Hnd Hk|? ? Hdir Hm|? ? names order es0 Hdir Hm Hli Hord HF]; subst.
  - apply tree_cut; [|lia]. apply is_dirb_is_dir. rewrite Hp. now apply is_dirb_is_dir.
  - rewrite opened_dir in Ha by (intro n; eapply dir_not_mark; exact HF).
    pose proof Ha as (H1 & H2 & H3 & H4 & H5 & H6).
    destruct (H3 r names (or_introl eq_refl) Hli) as (names' & Hli' & HP').
    assert (Hin : forall q, In q (map (child r) names) -> In q (contained dk1 (r :: flat_map opened (es0 ++ marker (s_limit st1 r) order r)))).
    { intros q Hq. unfold contained. cbn [flat_map]. apply in_or_app. left. now rewrite Hli. }
    assert (Hin1 : forall q, In q (map (child r) names) -> In q (contained dk1 [r])).
    { intros q Hq. unfold contained. cbn [flat_map]. apply in_or_app. left. now rewrite Hli. }
    assert (Hsub : forall q, In q order -> In q (map (child r) names)).
    { intros q Hq. destruct Hord as [HP _]. apply (Permutation_in q (Permutation_sym HP)) in Hq. apply filter_In in Hq. tauto. }
    rewrite <- (H5 r (or_introl eq_refl)) in *. apply tree_dir with (names := names').
    + apply is_dirb_is_dir. rewrite Hp. now apply is_dirb_is_dir.
    + lia.
    + exact Hli'.
    + destruct Hord as [HP Hso]. split.
      * rewrite <- HP. transitivity (filter (accepts st2 dk2) (map (child r) names)).
        { apply filter_perm. apply Permutation_map. now apply Permutation_sym. }
        apply Permutation_refl'. apply filter_same. intros q Hq. rewrite <- (H4 q (Hin q Hq)). unfold accepts. now rewrite (H1 q (Hin q Hq)).
      * intros _. apply configured_contract in Hc. specialize (Hso Hc). rewrite <- (map_id order). revert Hso. apply map_StronglySorted.
        intros a b Ha' Hb Hab. specialize (H6 r a b (or_introl eq_refl) (Hin1 _ (Hsub _ Ha')) (Hin1 _ (Hsub _ Hb))). lia.
    + apply Forall_app in IH. destruct IH as [IH _].
      assert (Hsub' : forall q, In q (limited (s_limit st2 r) order) -> is_dirb dk2 q = is_dirb dk1 q).
      { intros q Hq. apply H1. apply Hin. apply Hsub. unfold limited in Hq. destruct (_ <? 0); [exact Hq|].
        rewrite <- (firstn_skipn (Z.to_nat (s_limit st2 r)) order). apply in_or_app. now left. }
      assert (Ha' : Forall (fun e => all_alike dk1 dk2 st1 st2 (opened e) (entry_paths e)) es0).
      { apply Forall_forall. intros e He. eapply all_alike_sub; [| |exact Ha].
        - intros q Hq. right. rewrite flat_map_app. apply in_or_app. left. apply in_flat_map. now exists e.
        - intros q Hq. cbn [entry_paths]. right. rewrite flat_map_app. apply in_or_app. left. apply in_flat_map. now exists e. }
      clear -HF IH Hsub' Ha'. induction HF as [|c e cs es Hce HF IHF]; [constructor|]. inversion IH; subst. inversion Ha'; subst.
      constructor; [|apply IHF; auto; intros; apply Hsub'; now right].
      apply H1; auto. apply Hsub'. now left.
  - destruct Ha as (_ & H2 & _). assert (Hf : is_dirb dk1 f = false) by (destruct (is_dirb dk1 f) eqn:E; [exfalso; now apply Hnd, is_dirb_is_dir|reflexivity]).
    apply tree_file; [intro X; apply is_dirb_is_dir in X; congruence|]. rewrite H2; auto. now left.
Qed.

Section Decorated.
  Context (v1 v2 : view).
  Let inner (p : path) : Prop := v_ext v1 p = v_ext v2 p /\ v_emoji v1 p = v_emoji v2 p.
  Hypothesis Hcompact : v_compact v1 = v_compact v2.

  Lemma alike_mergeable p es : inner p -> mergeable v2 p es <-> mergeable v1 p es.
  Proof. intros [E _]. unfold mergeable. now rewrite E. Qed.

  Lemma alike_chain e ds es : Forall inner (entry_paths e) -> chain_of v1 e ds es ->
    chain_of v2 e ds es /\ Forall inner ds /\ Forall inner (flat_map entry_paths es) /\ ds <> [].
  Proof.
    intros Hb H. induction H as [d es Hn|d c ds es Hm Hc IH]; cbn [entry_paths flat_map] in Hb; inversion Hb as [|? ? Hd Hr]; subst.
    - split; [constructor; now rewrite alike_mergeable|]. split; [auto|]. split; [exact Hr|discriminate].
    - rewrite app_nil_r in Hr. destruct (IH Hr) as (H1 & H2 & H3 & _). split; [|split; [auto|]; split; [exact H3|discriminate]].
      constructor; [now apply alike_mergeable|exact H1].
  Qed.

  Lemma alike_label ds ks : Forall inner ds -> ds <> [] -> map (labelled v2) ks = map (labelled v1) ks ->
    labelled v2 (SDir ds ks) = labelled v1 (SDir ds ks).
  Proof.
    intros Hb Hne Hk. cbn [labelled]. rewrite Hk.
    assert (Hl : inner (last ds (mkPath true []))) by (rewrite Forall_forall in Hb; apply Hb; now apply last_in).
    destruct Hl as [E1 E2]. unfold emoji_str. now rewrite E1, E2.
  Qed.

  Lemma alike_shows e : Forall inner (entry_paths e) -> forall top s, shows v1 top e s -> shows v2 top e s /\ labelled v2 s = labelled v1 s.
  Proof.
    induction e as [e IH] using entry_inside_ind. intros Hb top s H.
    assert (Hmap : forall es ks, (forall x, In x es -> inside e x) -> Forall inner (flat_map entry_paths es) ->
              Forall2 (shows v1 false) es ks -> Forall2 (shows v2 false) es ks /\ map (labelled v2) ks = map (labelled v1) ks).
    { intros es ks Hin Hbe HF. induction HF as [|x k es ks Hxk HF IHF]; [split; constructor|].
      cbn [flat_map] in Hbe. apply Forall_app in Hbe. destruct Hbe as [Hbx Hbe].
      destruct IHF as [H1 H2]; auto; [intros; apply Hin; now right|].
      destruct (IH x (Hin x (or_introl eq_refl)) Hbx false k Hxk) as [H3 H4].
      cbn [map]. split; [now constructor|congruence]. }
    inversion H as [? g k| | |t d es ks Ht HF|e' ds es ks Hc Hch HF]; subst.
    - split; [constructor|]. cbn [labelled entry_paths] in *. inversion Hb as [|? ? [E1 E2] _]; subst. unfold emoji_str. now rewrite E1, E2.
    - split; [constructor|reflexivity].
    - split; [constructor|reflexivity].
    - cbn [entry_paths] in Hb. inversion Hb as [|? ? Hd Hr]; subst.
      destruct (Hmap es ks) as [H1 H2]; auto; [intros; now apply inside_child|].
      split; [|apply alike_label; auto; discriminate]. apply shows_plain; [|exact H1]. now rewrite <- Hcompact.
    - destruct (alike_chain _ _ _ Hb Hch) as (Hch2 & Hb1 & Hb2 & Hne).
      destruct (Hmap es ks) as [H1 H2]; auto; [intros; eapply chain_smaller; eauto|].
      split; [|now apply alike_label]. eapply shows_compact; [now rewrite <- Hcompact|exact Hch2|exact H1].
  Qed.
End Decorated.

Lemma C137_lemma : forall o p w1 w2 h out h' v1 v2 dk1 dk2 st1 st2 e,
  steady w1 dk1 -> steady w2 dk2 -> w_jvm w1 = w_jvm w2 -> distinct_names dk1 -> distinct_names dk2 ->
  uses w1 o st1 -> uses w2 o st2 -> sees w1 o v1 -> sees w2 o v2 -> configured_order (s_cmp st1) -> configured_order (s_cmp st2) ->
  tree_at st1 dk1 0 (location w1 p) e ->
  as_shown dk1 dk2 (location w1 p) e -> treated_alike dk1 st1 st2 e -> decorated_alike v1 v2 e ->
  pretty_print o p w1 h = (Ok out, h') ->
  forall h2, exists h2', pretty_print o p w2 h2 = (Ok out, h2').
Proof.
  intros o p w1 w2 h out h' v1 v2 dk1 dk2 st1 st2 e Hw1 Hw2 Hj Hd1 Hd2 Hu1 Hu2 Hs1 Hs2 Hc1 Hc2 He (Ha1 & Ha2 & Ha3) (Ht1 & Ht2 & Ht3 & Ht4) (Hcp & Hdc) H.
  assert (El : location w2 p = location w1 p) by (unfold location; now rewrite Hj).
  destruct (print_tree _ _ _ _ _ _ _ _ _ Hw1 Hu1 Hs1 H) as (e1 & s & Ht & Hsh & Ho).
  assert (E : e1 = e) by exact (tree_unique st1 dk1 dk1 Hc1 Hd1 (same_disk dk1) e1 0 _ e Ht He). subst e1.
  destruct (print_complete o p w2 dk2 st2 v2 e) as (s' & Hs' & Hy); auto.
  - rewrite El. eapply print_named; eauto.
  - rewrite El. eapply tree_alike; eauto. split; [auto|]. split; [exact Ha2|]. split; [exact Ha3|]. auto.
  - assert (Hb : Forall (fun q => v_ext v1 q = v_ext v2 q /\ v_emoji v1 q = v_emoji v2 q) (entry_paths e)) by (apply Forall_forall; exact Hdc).
    destruct (alike_shows v1 v2 Hcp e Hb true s Hsh) as [Hsh2 Hl].
    assert (Es : s' = s) by (exact (shows_fun _ _ _ _ _ Hs' Hsh2)). subst s'. rewrite Hl in Hy. rewrite Ho. exact Hy.
Qed.
