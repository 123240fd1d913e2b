(** * Consequences of the tree specification *)

From Verif Require Import SpecScan RenderFacts SortFacts PathFacts ScanFacts ShownFacts.
Open Scope Z_scope.

(** ** Reachability *)

Lemma reach_trans st dk d0 p0 d1 p1 d2 p2 :
  reach st dk d0 p0 d1 p1 -> reach st dk d1 p1 d2 p2 -> reach st dk d0 p0 d2 p2.
Proof. intros H1 H2. induction H2; [exact H1|]. eapply reach_child; eauto. Qed.

Lemma reach_first st dk d0 p0 d q : reach st dk d0 p0 d q ->
  (d = d0 /\ q = p0) \/
  exists names n, is_dir dk p0 /\ d0 < s_depth st /\ d_list dk p0 = Some names /\ In n names /\
    accepts st dk (child p0 n) = true /\ reach st dk (d0 + 1) (child p0 n) d q.
Proof.
  induction 1 as [|d p names n Hr IH Hd Hlt Hl Hin Ha]; [left; auto|right].
  destruct IH as [[-> ->]|(names' & n' & H1 & H2 & H3 & H4 & H5 & H6)].
  - exists names, n. repeat split; auto. constructor.
  - exists names', n'. repeat split; auto. eapply reach_child; eauto.
Qed.

Lemma reach_below st dk d0 p0 d q : reach st dk d0 p0 d q -> below p0 q.
Proof.
  induction 1 as [|d p names n Hr IH Hd Hlt Hl Hin Ha]; [|now apply below_child].
  exists []. rewrite app_nil_r. destruct p0; reflexivity.
Qed.

(** A path [k] levels below. *)
Lemma reach_depth st dk d0 p0 d q : reach st dk d0 p0 d q ->
  exists ns, q = mkPath (p_abs p0) (p_names p0 ++ ns) /\ d = d0 + Z.of_nat (length ns).
Proof.
  induction 1 as [|d p names n Hr IH Hd Hlt Hl Hin Ha].
  - exists []. rewrite app_nil_r. simpl. split; [destruct p0; reflexivity|lia].
  - destruct IH as (ns & -> & ->). exists (ns ++ [n]). unfold child. cbn [p_abs p_names]. rewrite app_assoc.
    split; [reflexivity|]. rewrite app_length. simpl. lia.
Qed.

Lemma limited_incl n l x : In x (limited n l) -> In x l.
Proof.
  unfold limited. destruct (n <? 0); auto. intro H.
  rewrite <- (firstn_skipn (Z.to_nat n) l). apply in_or_app. now left.
Qed.

Lemma Forall2_in_r A B (R : A -> B -> Prop) l l' y : Forall2 R l l' -> In y l' -> exists x, In x l /\ R x y.
Proof.
  induction 1 as [|a b l l' Hab HF IH]; intro Hin; [destruct Hin|].
  destruct Hin as [->|Hin]; [exists a; split; [now left|exact Hab]|].
  destruct (IH Hin) as (x & Hx & HR). exists x. split; [now right|exact HR].
Qed.

Lemma marker_no_paths n l p : flat_map entry_paths (marker n l p) = [].
Proof. unfold marker. destruct (_ && _); reflexivity. Qed.

Lemma tree_paths_reach st dk e : forall d p, tree_at st dk d p e ->
  forall q, In q (entry_paths e) -> exists d', reach st dk d p d' q.
Proof.
  induction e as [r es IH|f k|r|n] using entry_ind'; intros d p H q Hq;
    inversion H as [? ? ? Hnd Hk|? ? Hd Hm|? ? names order es0 Hd Hm Hl [Hperm Hsrt] HF]; subst.
  - destruct Hq as [<-|[]]. exists d. constructor.
  - destruct Hq as [<-|Hq]; [exists d; constructor|].
    rewrite flat_map_app, marker_no_paths, app_nil_r in Hq.
    apply in_flat_map in Hq. destruct Hq as (e & He & Hq).
    destruct (Forall2_in_r _ _ _ _ _ _ HF He) as (c & Hc & Ht).
    rewrite Forall_forall in IH. assert (Hin : In e (es0 ++ marker (s_limit st r) order r)) by (apply in_or_app; now left).
    destruct (IH e Hin _ _ Ht q Hq) as [d' Hr].
    apply limited_incl in Hc. apply (Permutation_in c (Permutation_sym Hperm)) in Hc.
    apply filter_In in Hc. destruct Hc as [Hc Ha]. apply in_map_iff in Hc. destruct Hc as (n & <- & Hn).
    exists d'. eapply reach_trans; [|exact Hr]. eapply reach_child; eauto. constructor.
  - destruct Hq as [<-|[]]. exists d. constructor.
Qed.

Lemma tree_reach_paths st dk e : (forall p, s_limit st p < 0) -> forall d p, tree_at st dk d p e ->
  forall d' q, reach st dk d p d' q -> In q (entry_paths e).
Proof.
  intro Hlim. induction e as [r es IH|f k|r|n] using entry_ind'; intros d p H d' q Hq;
    inversion H as [? ? ? Hnd Hk|? ? Hd Hm|? ? names order es0 Hd Hm Hl [Hperm Hsrt] HF]; subst;
    apply reach_first in Hq; destruct Hq as [[-> ->]|(names' & n' & H1 & H2 & H3 & H4 & H5 & H6)];
    try (left; reflexivity); try (exfalso; lia); try contradiction.
  right. rewrite flat_map_app, marker_no_paths, app_nil_r.
  assert (names' = names) as -> by congruence.
  assert (Hin : In (child r n') (limited (s_limit st r) order)).
  { unfold limited. specialize (Hlim r). destruct (Z.ltb_spec (s_limit st r) 0); [|lia].
    eapply Permutation_in; [exact Hperm|]. apply filter_In. split; [|exact H5]. apply in_map. exact H4. }
  destruct (Forall2_in_l _ _ _ _ HF Hin) as (e & He & Ht).
  apply in_flat_map. exists e. split; [exact He|].
  rewrite Forall_forall in IH. eapply IH; [apply in_or_app; left; exact He|exact Ht|exact H6].
Qed.

(** ** No path is displayed twice *)

Lemma child_inj p n m : child p n = child p m -> n = m.
Proof. unfold child. intro H. injection H as H. apply app_inj_tail in H. tauto. Qed.

Lemma NoDup_map_child p l : NoDup l -> NoDup (map (child p) l).
Proof.
  intro H. induction H as [|n l Hn Hl IH]; simpl; constructor; auto.
  intro Hin. apply in_map_iff in Hin. destruct Hin as (m & E & Hm). apply child_inj in E. congruence.
Qed.

Lemma firstn_NoDup A n (l : list A) : NoDup l -> NoDup (firstn n l).
Proof. intro H. rewrite <- (firstn_skipn n l) in H. clear -H. induction (firstn n l); [constructor|].
  simpl in H. inversion H; subst. constructor; auto. intro Hin. apply H2. apply in_or_app. now left. Qed.

Lemma order_NoDup st dk p names order n : NoDup names ->
  Permutation (filter (accepts st dk) (map (child p) names)) order -> NoDup (limited n order).
Proof.
  intros Hnd Hp. assert (NoDup order).
  { eapply Permutation_NoDup; [exact Hp|]. apply NoDup_filter. now apply NoDup_map_child. }
  unfold limited. destruct (n <? 0); auto. now apply firstn_NoDup.
Qed.

Lemma NoDup_app A (a b : list A) : NoDup a -> NoDup b -> (forall x, In x a -> In x b -> False) -> NoDup (a ++ b).
Proof.
  induction 1 as [|x a Hx Ha IH]; intros Hb Hd; [exact Hb|]. simpl. constructor.
  - rewrite in_app_iff. intros [H|H]; [contradiction|]. eapply Hd; [left; reflexivity|exact H].
  - apply IH; auto. intros y H1 H2. eapply Hd; [right; exact H1|exact H2].
Qed.

Lemma tree_paths_NoDup st dk e : distinct_names dk -> forall d p, tree_at st dk d p e -> NoDup (entry_paths e).
Proof.
  intro Hdn. induction e as [r es IH|f k|r|n] using entry_ind'; intros d p H; try (repeat constructor; now intros []).
  inversion H as [| ? ? Hd Hm|? ? names order es0 Hd Hm Hl [Hperm Hsrt] HF]; subst.
  - repeat constructor. now intros [].
  - cbn [entry_paths]. rewrite flat_map_app, marker_no_paths, app_nil_r.
    assert (Hord : NoDup (limited (s_limit st r) order)) by (eapply order_NoDup; [eapply Hdn; exact Hl|exact Hperm]).
    assert (Hkid : forall c, In c (limited (s_limit st r) order) -> exists n, c = child r n).
    { intros c Hc. apply limited_incl in Hc. apply (Permutation_in c (Permutation_sym Hperm)) in Hc.
      apply filter_In in Hc. destruct Hc as [Hc _]. apply in_map_iff in Hc. destruct Hc as (n & <- & _). eauto. }
    apply Forall_app in IH. destruct IH as [IH _].
    assert (Hbelow : forall c e q, tree_at st dk (d + 1) c e -> In q (entry_paths e) -> below c q).
    { intros c e q Ht Hq. apply (tree_paths_reach _ _ _ _ _ Ht) in Hq. destruct Hq as [d' Hr]. eapply reach_below; eauto. }
    assert (Hdis : forall n m q, below (child r n) q -> below (child r m) q -> n = m).
    { intros n m q [ns E1] [ms E2]. rewrite E1 in E2. injection E2 as E2. cbn [child p_names] in E2.
      rewrite <- !app_assoc in E2. apply app_inv_head in E2. cbn [app] in E2. now injection E2. }
    constructor.
    + intro Hin. apply in_flat_map in Hin. destruct Hin as (e & He & Hq).
      destruct (Forall2_in_r _ _ _ _ _ _ HF He) as (c & Hc & Ht). destruct (Hkid c Hc) as [n ->].
      destruct (Hbelow _ _ _ Ht Hq) as [ns E]. apply (f_equal (fun p => length (p_names p))) in E.
      cbn [child p_names] in E. rewrite !app_length in E. simpl in E. lia.
    + clear Hperm Hsrt H. revert Hord Hkid IH. induction HF as [|c e cs es Hce HF IHF]; intros Hord Hkid IH; [constructor|].
      cbn [flat_map]. inversion Hord as [|? ? Hc Hcs]; subst. inversion IH as [|? ? He Hes]; subst.
      apply NoDup_app.
      * eapply He; exact Hce.
      * apply IHF; auto. intros; apply Hkid; now right.
      * intros q Hq1 Hq2. apply in_flat_map in Hq2. destruct Hq2 as (e2 & He2 & Hq2).
        destruct (Forall2_in_r _ _ _ _ _ _ HF He2) as (c2 & Hc2 & Ht2).
        destruct (Hkid c (or_introl eq_refl)) as [n ->]. destruct (Hkid c2 (or_intror Hc2)) as [m ->].
        assert (n = m) as -> by (eapply Hdis; eapply Hbelow; eauto). contradiction.
Qed.

(** ** Sibling order *)

Lemma jcompare_lt a : forall b, jcompare a b < 0 <-> name_lt a b.
Proof.
  induction a as [|x a IH]; intros [|y b]; cbn [jcompare].
  - split; [lia|]. intro H. inversion H.
  - split; [constructor|]. cbn [length]. lia.
  - split; [cbn [length]; lia|]. intro H. inversion H.
  - destruct (N.eqb_spec x y) as [->|Hne].
    + rewrite IH. split; intro H; [now constructor|]. inversion H; subst; [lia|assumption].
    + split; intro H; [constructor; lia|]. inversion H; subst; [lia|congruence].
Qed.

Lemma alpha_key_last p : alpha_key p = last_name p.
Proof.
  unfold alpha_key, get_file_name, last_name. destruct (p_names p) as [|n l] using rev_ind; [destruct (p_abs p); reflexivity|].
  rewrite rev_app_distr, last_last. reflexivity.
Qed.

Lemma alphabetical_lt a b : alphabetical a b < 0 <-> name_lt (last_name a) (last_name b).
Proof. unfold alphabetical. rewrite !alpha_key_last. apply jcompare_lt. Qed.

Lemma refined_lt c a b : then_by c alphabetical a b < 0 <-> refined c a b.
Proof.
  unfold then_by, refined. destruct (Z.eqb_spec (c a b) 0) as [E|E].
  - rewrite alphabetical_lt. rewrite E. split; [auto|]. intros [H|[_ H]]; [lia|exact H].
  - split; [auto|]. intros [H|[H _]]; [exact H|contradiction].
Qed.

Lemma refined_sgn c c0 : contract c0 -> (forall a b, (c a b < 0 <-> refined c0 a b) /\ (c a b > 0 <-> refined c0 b a)) ->
  forall a b, Z.sgn (c a b) = Z.sgn (then_by c0 alphabetical a b).
Proof.
  intros Hc H a b. destruct (H a b) as [H1 H2]. rewrite <- refined_lt in H1, H2.
  pose proof (proj1 (contract_then _ _ Hc contract_alphabetical) a b). lia.
Qed.

Lemma contract_sgn c c' : (forall a b, Z.sgn (c a b) = Z.sgn (c' a b)) -> contract c' -> contract c.
Proof.
  intros E (A & B & C). split; [|split].
  - intros x y. rewrite !E. apply A.
  - intros x y z H1 H2. pose proof (E x y). pose proof (E y z). pose proof (E x z). specialize (B x y z). lia.
  - intros x y z H1. rewrite !E. apply C. specialize (E x y). lia.
Qed.

Lemma refined_configured c0 c : contract c0 -> (forall a b, c a b = then_by c0 alphabetical a b) -> configured_order c.
Proof.
  intros Hc E. exists c0. split; [exact Hc|]. intros a b. rewrite <- !refined_lt, E.
  pose proof (proj1 (contract_then _ _ Hc contract_alphabetical) a b). lia.
Qed.

Lemma contract_const : contract (fun _ _ => 0).
Proof. split; [|split]; intros; lia. Qed.

Lemma alphabetical_configured c : (forall a b, c a b = alphabetical a b) -> configured_order c.
Proof. intro E. apply (refined_configured (fun _ _ => 0)); [apply contract_const|exact E]. Qed.

Lemma configured_contract c : configured_order c -> contract c.
Proof.
  intros (c0 & Hc & H). apply (contract_sgn c (then_by c0 alphabetical)); [now apply refined_sgn|].
  apply contract_then; [exact Hc|apply contract_alphabetical].
Qed.

Lemma configured_tie c p n m : configured_order c -> c (child p n) (child p m) = 0 -> n = m.
Proof.
  intros (c0 & Hc & H) E. pose proof (refined_sgn c c0 Hc H (child p n) (child p m)) as Es. rewrite E in Es.
  assert (E0 : then_by c0 alphabetical (child p n) (child p m) = 0) by lia.
  apply then_alpha_tie in E0. now rewrite !alpha_key_child in E0.
Qed.

Lemma order_strict st dk p names order : configured_order (s_cmp st) -> NoDup names ->
  in_order (s_cmp st) (filter (accepts st dk) (map (child p) names)) order ->
  StronglySorted (fun a b => s_cmp st a b < 0) order.
Proof.
  intros Hc Hnd [Hp Hs]. apply StronglySorted_strict.
  - apply Hs. now apply configured_contract.
  - assert (Hkid : forall a, In a order -> exists n, a = child p n).
    { intros a Ha. apply (Permutation_in a (Permutation_sym Hp)) in Ha. apply filter_In in Ha. destruct Ha as [Ha _].
      apply in_map_iff in Ha. destruct Ha as (n & <- & _). eauto. }
    intros a b Ha Hb E. destruct (Hkid a Ha) as [n ->]. destruct (Hkid b Hb) as [m ->].
    f_equal. eapply configured_tie; eauto.
  - eapply Permutation_NoDup; [exact Hp|]. apply NoDup_filter. now apply NoDup_map_child.
Qed.

Lemma StronglySorted_firstn A (R : A -> A -> Prop) n l : StronglySorted R l -> StronglySorted R (firstn n l).
Proof.
  intro H. revert n. induction H as [|x l Hl IH Hx]; intros [|n]; simpl; constructor; auto.
  apply Forall_forall. intros y Hy. rewrite Forall_forall in Hx. apply Hx.
  rewrite <- (firstn_skipn n l). apply in_or_app. now left.
Qed.

Lemma StronglySorted_limited (R : path -> path -> Prop) n l : StronglySorted R l -> StronglySorted R (limited n l).
Proof. intro H. unfold limited. destruct (n <? 0); auto. now apply StronglySorted_firstn. Qed.

Lemma child_paths_app a b : child_paths (a ++ b) = child_paths a ++ child_paths b.
Proof. apply flat_map_app. Qed.

Lemma child_paths_marker n l p : child_paths (marker n l p) = [].
Proof. unfold marker. destruct (_ && _); reflexivity. Qed.

Lemma tree_at_path st dk d p e : tree_at st dk d p e -> entry_path e = Some p.
Proof. destruct 1; reflexivity. Qed.

Lemma child_paths_trees st dk d ps es : Forall2 (tree_at st dk d) ps es -> child_paths es = ps.
Proof.
  induction 1 as [|p e ps es Hpe HF IH]; [reflexivity|]. unfold child_paths in *. cbn [flat_map].
  rewrite (tree_at_path _ _ _ _ _ Hpe), IH. reflexivity.
Qed.

(** Every directory occurring in the tree satisfies the specification at its depth. *)
Lemma tree_sub st dk k : forall e d p q es, tree_at st dk d p e -> at_depth k e (EDir q es) ->
  tree_at st dk (d + Z.of_nat k) q (EDir q es).
Proof.
  induction k as [|k IH]; intros e d p q es Ht Hat; inversion Hat as [|? dd es' c ? Hin Hc]; subst.
  - rewrite Z.add_0_r. pose proof (tree_at_path _ _ _ _ _ Ht) as E. injection E as <-. exact Ht.
  - inversion Ht as [| ? ? Hd Hm|? ? names order es0 Hd Hm Hl Hord HF]; subst.
    + destruct Hin as [<-|[]]. inversion Hc.
    + apply in_app_or in Hin. destruct Hin as [Hin|Hin].
      * destruct (Forall2_in_r _ _ _ _ _ _ HF Hin) as (c' & _ & Hc').
        replace (d + Z.of_nat (S k)) with (d + 1 + Z.of_nat k) by lia. eapply IH; eauto.
      * unfold marker in Hin. destruct (_ && _); [|destruct Hin]. destruct Hin as [<-|[]]. inversion Hc.
Qed.

(** ** Independence of the listing order *)

Lemma tree_unique st dk1 dk2 : configured_order (s_cmp st) -> distinct_names dk1 -> same_but_order dk1 dk2 ->
  forall e1 d p e2, tree_at st dk1 d p e1 -> tree_at st dk2 d p e2 -> e1 = e2.
Proof.
  intros Hc Hdn (Hk & Ha & Hl). induction e1 as [r es IH|f k|r|n] using entry_ind'; intros d p e2 H1 H2.
  - inversion H1 as [| ? ? Hd Hm|? ? names order es0 Hd Hm Hli Hord HF]; subst;
      inversion H2 as [? ? ? Hnd2 Hk2|? ? Hd2 Hm2|? ? names2 order2 es02 Hd2 Hm2 Hli2 Hord2 HF2]; subst;
      try (exfalso; lia); try (exfalso; apply Hnd2; unfold is_dir in *; rewrite <- Hk; assumption); auto.
    pose proof (Hl r) as Hlr. rewrite Hli, Hli2 in Hlr.
    assert (Hacc : forall q, accepts st dk1 q = accepts st dk2 q) by (intro q; unfold accepts, is_dirb; now rewrite Hk).
    assert (order = order2) as <-.
    { apply strict_sorted_unique with (c := s_cmp st).
      - apply configured_contract in Hc. destruct Hc as (Hanti & _). intros a b. specialize (Hanti a b). lia.
      - apply (order_strict st dk1 r names order Hc); [|exact Hord]. eapply Hdn; eauto.
      - apply (order_strict st dk2 r names2 order2 Hc); [|exact Hord2].
        eapply Permutation_NoDup; [exact Hlr|]. eapply Hdn; eauto.
      - destruct Hord as [Hp _]. destruct Hord2 as [Hp2 _]. rewrite <- Hp, <- Hp2.
        rewrite (filter_ext _ _ Hacc). clear -Hlr. apply Permutation_map with (f := child r) in Hlr.
        induction Hlr as [| x l l' Hp IHp| x y l| l l' l'' Hp1 IH1 Hp2 IH2]; simpl.
        + constructor.
        + destruct (accepts st dk2 x); [now constructor|exact IHp].
        + destruct (accepts st dk2 x), (accepts st dk2 y); try reflexivity. apply perm_swap.
        + etransitivity; eauto. }
    assert (es0 = es02) as <-; [|reflexivity].
    apply Forall_app in IH. destruct IH as [IH _].
    clear -HF HF2 IH. revert es02 HF2 IH. induction HF as [|c e cs es Hce HF IHF]; intros es2 HF2 IH; inversion HF2; subst; auto.
    inversion IH; subst. f_equal; eauto.
  - inversion H1 as [? ? ? Hnd Hkk| |]; subst. inversion H2 as [? ? ? Hnd2 Hk2|? ? Hd2 Hm2|? ? names2 order2 es02 Hd2 Hm2 Hli2 Hord2 HF2]; subst.
    + rewrite Ha in Hkk. congruence.
    + exfalso. apply Hnd. unfold is_dir in *. now rewrite Hk.
    + exfalso. apply Hnd. unfold is_dir in *. now rewrite Hk.
  - inversion H1.
  - inversion H1.
Qed.

(** ** From [prettyPrint] to the tree *)

Lemma extension_answers w o g : extension_is w o g -> answers w (compute_line_extension o) g.
Proof.
  unfold extension_is, compute_line_extension. destruct (o_line_extension o) as [f|]; [auto|].
  intros H a h. rewrite H. exists h. reflexivity.
Qed.

Lemma pretty_print_scan o p w h out h' :
  pretty_print o p w h = (Ok out, h') ->
  exists e h1, handle (Z.to_nat (o_max_depth o)) o 0 (location w p) (path_filter o) w h = (Ok (Some e), h1) /\
               render_tree o (line_renderer_create o) e w h1 = (Ok out, h').
Proof.
  unfold pretty_print, pretty_print_with. intro H.
  apply bind_ok in H. destruct H as (j & h0 & E & H). cbn in E. injection E as <- <-.
  apply bind_ok in H. destruct H as (e & h1 & Hs & Hr). apply scan_ok in Hs. rewrite clean_of_clean in Hs. eauto.
Qed.

Lemma scan_unfold o p w h :
  pretty_print o p w h =
  bind (handle (Z.to_nat (o_max_depth o)) o 0 (location w p) (path_filter o))
       (fun r => match r with
                 | Some e => render_tree o (line_renderer_create o) e
                 | None => throw ExNullPointer
                 end) w h.
Proof.
  unfold pretty_print, pretty_print_with, scan, clean_path. unfold bind at 1. cbn [get_jvm].
  unfold bind. cbn. fold (location w p).
  replace (to_absolute (jv_cwd (w_jvm w)) (normalize (location w p))) with (location w p)
    by (unfold location; now rewrite clean_of_clean).
  destruct (handle _ _ _ _ _ _ _) as [[[e|]|x] h1]; reflexivity.
Qed.

Lemma location_abs w p : p_abs (location w p) = true.
Proof. unfold location. now rewrite normalize_to_absolute. Qed.

Lemma render_dir_named o lr d es w h out h' : p_abs d = true ->
  render_tree o lr (EDir d es) w h = (Ok out, h') -> p_names d <> [].
Proof.
  intros Habs H E. unfold render_tree in H. cbn [render_entry initial_compact_paths] in H.
  assert (Hfin : forall (k : jstring -> M jstring) h0, (bind (render_directory_begin lr [] d [d]) k) w h0 = (Ok out, h') -> False).
  { intros k h0 H0. apply bind_ok in H0. destruct H0 as (l & h1 & H1 & _).
    unfold render_directory_begin in H1. apply bind_ok in H1. destruct H1 as (e & h2 & _ & H1).
    apply bind_ok in H1. destruct H1 as (l' & h3 & H1 & _). unfold format_directory_begin in H1.
    apply bind_ok in H1. destruct H1 as (l'' & h4 & H1 & _). cbn [mapM] in H1. apply bind_ok in H1.
    destruct H1 as (b & h5 & H1 & _). unfold dir_label, get_file_name in H1. rewrite E in H1. simpl in H1.
    rewrite Habs in H1. discriminate. }
  destruct es as [|c es]; [eapply Hfin; exact H|]. destruct es as [|c' es]; [|destruct c; eapply Hfin; exact H].
  destruct c; try (eapply Hfin; exact H). rewrite andb_false_r in H. eapply Hfin; exact H.
Qed.

Lemma render_file_named o lr f k w h out h' : p_abs f = true ->
  render_tree o lr (EFile f k) w h = (Ok out, h') -> p_names f <> [].
Proof.
  intros Habs H E. unfold render_tree in H. cbn [render_entry initial_compact_paths] in H.
  unfold render_file in H. apply bind_ok in H. destruct H as (l & h1 & H & _).
  unfold render_file_line in H. apply bind_ok in H. destruct H as (e & h2 & _ & H).
  apply bind_ok in H. destruct H as (l' & h3 & H & _). unfold format_file, get_file_name in H.
  rewrite E in H. simpl in H. rewrite Habs in H. discriminate.
Qed.

Lemma scanned_named o p w h e h1 out h' :
  handle (Z.to_nat (o_max_depth o)) o 0 (location w p) (path_filter o) w h = (Ok (Some e), h1) ->
  render_tree o (line_renderer_create o) e w h1 = (Ok out, h') ->
  p_names (location w p) <> [] /\ named e.
Proof.
  intros Hh Hr. apply handle_shaped in Hh. pose proof (shaped_root_path _ _ _ _ Hh) as Ep.
  pose proof (location_abs w p) as Habs.
  assert (Hne : p_names (location w p) <> []).
  { destruct e as [d es|f k|d|n]; cbn in Ep; try discriminate; injection Ep as ->;
      [eapply render_dir_named|eapply render_file_named]; eauto. }
  split; [exact Hne|]. now apply (shaped_named_below _ _ _ _ Hh).
Qed.

(** What a successful run prints, in any world with total rendering callbacks. *)
Lemma pretty_print_displays o p w h out h' v :
  sees w o v -> pretty_print o p w h = (Ok out, h') ->
  exists e h1, handle (Z.to_nat (o_max_depth o)) o 0 (location w p) (path_filter o) w h = (Ok (Some e), h1) /\
               displayed v (o_tree_format o) out e.
Proof.
  intros (Hx & He & Hc) H. apply pretty_print_scan in H. destruct H as (e & h1 & Hh & Hr).
  exists e, h1. split; [exact Hh|].
  destruct (scanned_named _ _ _ _ _ _ _ _ Hh Hr) as [_ Hn].
  destruct (render_tree_spec w o (line_renderer_create o) v (extension_answers _ _ _ Hx) He Hc e Hn) as (s & Hs & Hy).
  exists s. split; [exact Hs|]. destruct (Hy h1) as [h2 E2]. rewrite E2 in Hr. injection Hr as <- _. reflexivity.
Qed.

(** On a steady, readable disk a run returns. *)
Lemma pretty_print_returns o p w dk st v :
  steady w dk -> uses w o st -> sees w o v -> readable st dk (location w p) ->
  p_names (location w p) <> [] ->
  exists out, yields w (pretty_print o p) out.
Proof.
  intros Hw Hu (Hx & He & Hc) Hr Hne.
  destruct (handle_returns w dk o st Hw Hu _ Hr (Z.to_nat (o_max_depth o)) 0 (location w p)) as [e Hh]; auto; try lia; try constructor.
  assert (Hn : named e).
  { destruct (Hh []) as [h1 E1]. apply handle_shaped in E1. now apply (shaped_named_below _ _ _ _ E1). }
  destruct (render_tree_spec w o (line_renderer_create o) v (extension_answers _ _ _ Hx) He Hc e Hn) as (s & Hs & Hy).
  exists (text (o_tree_format o) (labelled v s)). intro h. rewrite scan_unfold.
  exact (yields_bind _ _ w _ _ _ _ Hh Hy h).
Qed.
