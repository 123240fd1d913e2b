(** * What is printed of a volume *)

From Verif Require Import ShownFacts RenderFacts ScanFacts PathFacts TreeFacts ScanPrintFacts MetaFacts HistFacts TraceFacts RunFacts AccessFacts.
From Verif Require Export SpecVolume SpecHist VolumeFacts.
From Coq Require Import Lia.
Close Scope Z_scope.

Lemma volume_steady top j : steady (volume_world top j) (volume_disk top (jv_cwd j)).
Proof. repeat split. Qed.

Lemma real_plain n : real_name n -> plain n.
Proof. intros (_ & H). exact H. Qed.

Lemma entry_named_in n es x : entry_named n es = Some x -> In n (map fst es).
Proof.
  induction es as [|[m y] es IH]; [discriminate|]. cbn. destruct (jeqb_spec n m); [left; congruence|]. intro H. right. auto.
Qed.

Lemma in_entry_named n es : In n (map fst es) -> exists x, entry_named n es = Some x.
Proof.
  induction es as [|[m y] es IH]; [contradiction|]. cbn. destruct (jeqb_spec n m); [eauto|]. intros [H|H]; [congruence|auto].
Qed.

Lemma top_folder top : well_formed top -> folder_at top [].
Proof. intros [(b & es & ->) _]. exists b, es. reflexivity. Qed.

Section Volume.
Variables (top : node) (cwd : list jstring).
Hypothesis Hwf : well_formed top.
Let dk := volume_disk top cwd.

Lemma volume_distinct : distinct_names dk.
Proof.
  intros p l H. unfold dk in H. cbn in H. destruct (found top true cwd p) as [[|[] es| |]|] eqn:E; try discriminate. injection H as <-.
  unfold found, opt_bind in E. destruct (place top true cwd p) as [q|]; [|discriminate]. apply (proj2 Hwf) in E. tauto.
Qed.

(** Places have real names. *)
Lemma place_real l x : node_at top l = Some x -> Forall real_name l.
Proof.
  revert x. induction l as [|n l IH] using rev_ind; intros x H; [constructor|].
  destruct (folder_above _ _ _ _ H ltac:(discriminate)) as (b & es & Hf). apply Forall_app. split; [eauto|]. constructor; [|constructor].
  rewrite node_at_app, Hf in H. cbn in H. destruct (entry_named n es) as [y|] eqn:E; [|discriminate]. apply entry_named_in in E.
  destruct (proj2 Hwf _ _ _ Hf) as [_ Hr]. rewrite Forall_forall in Hr. auto.
Qed.

Lemma place_plain l x : node_at top l = Some x -> Forall plain l.
Proof. intro H. apply place_real in H. eapply Forall_impl; [|exact H]. exact real_plain. Qed.

Lemma own_place f k l x : node_at top l = Some x -> f = false \/ no_link top l -> search top f k [] l = Some l.
Proof. intros H Hf. apply (search_place top) with x; auto. now apply place_plain with x. Qed.

Lemma found_abs f l : found top f cwd (mkPath true l) = opt_bind (search top f max_links [] l) (node_at top).
Proof. reflexivity. Qed.

Lemma folder_no_link l : folder_at top l -> no_link top l.
Proof. intros (b & es & H) t. congruence. Qed.

Section Root.
Variables (P l : list jstring).
Hypothesis HP : Forall plain P.
Hypothesis Hl : search top false max_links [] P = Some l.

Lemma listed_place ns : listed dk (mkPath true P) ns ->
  Forall real_name ns /\ node_at top (l ++ ns) <> None /\ search top false max_links [] (P ++ ns) = Some (l ++ ns).
Proof.
  induction 1 as [|ns ls n H (IH1 & IH2 & IH3) Hd Hli Hn].
  - rewrite !app_nil_r. split; [constructor|]. split; [|exact Hl]. apply (search_ends top (top_folder top Hwf) _ _ _ _ _ (top_folder top Hwf) Hl).
  - unfold is_dir, deeper, dk in Hd. cbn [d_kind volume_disk p_abs p_names] in Hd. rewrite found_abs, IH3 in Hd. cbn [opt_bind] in Hd.
    destruct (node_at top (l ++ ns)) as [[| b es | |]|] eqn:E; try discriminate.
    assert (Hf : folder_at top (l ++ ns)) by (eexists; eauto).
    assert (Ht : search top true max_links [] (P ++ ns) = Some (l ++ ns)) by (apply search_follow; [exact IH3|now apply folder_no_link]).
    unfold deeper, dk in Hli. cbn [d_list volume_disk p_abs p_names] in Hli. rewrite found_abs, Ht in Hli. cbn [opt_bind] in Hli. rewrite E in Hli.
    destruct b; [|discriminate]. injection Hli as <-. destruct (in_entry_named _ _ Hn) as (x & Hx).
    assert (Hx' : node_at top ((l ++ ns) ++ [n]) = Some x) by (rewrite node_at_app, E; cbn; now rewrite Hx).
    rewrite !app_assoc. assert (Hrn : real_name n).
    { destruct (proj2 Hwf _ _ _ E) as [_ Hr]. rewrite Forall_forall in Hr. auto. }
    split; [apply Forall_app; split; [exact IH1|constructor; [exact Hrn|constructor]]|]. split; [congruence|].
    apply search_more with (max_links + 0); [|lia]. apply (search_join top) with (l ++ ns); auto; [discriminate|].
    apply search_place with x; [constructor; [now apply real_plain|constructor]|exact Hx'|now left].
Qed.

Lemma kind_at ns : listed dk (mkPath true P) ns -> d_kind dk (deeper (mkPath true P) ns) = option_map node_kind (node_at top (l ++ ns)).
Proof.
  intro H. destruct (listed_place ns H) as (_ & _ & Hs). unfold deeper, dk. cbn [d_kind volume_disk p_abs p_names]. now rewrite found_abs, Hs.
Qed.

Lemma is_dir_at ns : listed dk (mkPath true P) ns -> is_dir dk (deeper (mkPath true P) ns) <-> folder_at top (l ++ ns).
Proof.
  intro H. unfold is_dir. rewrite (kind_at ns H). unfold folder_at. destruct (node_at top (l ++ ns)) as [[| b es | |]|]; cbn;
    (split; [try discriminate; intros _; eauto|intros (b' & es' & E); try discriminate; reflexivity]).
Qed.

Lemma list_at ns b es : listed dk (mkPath true P) ns -> node_at top (l ++ ns) = Some (NDir b es) ->
  d_list dk (deeper (mkPath true P) ns) = if b then Some (map fst es) else None.
Proof.
  intros H E. destruct (listed_place ns H) as (_ & _ & Hs).
  assert (Ht : search top true max_links [] (P ++ ns) = Some (l ++ ns)).
  { apply search_follow; [exact Hs|]. apply folder_no_link. eexists; eauto. }
  unfold deeper, dk. cbn [d_list volume_disk p_abs p_names]. rewrite found_abs, Ht. cbn [opt_bind]. rewrite E. now destruct b.
Qed.

Lemma attr_at ns x : listed dk (mkPath true P) ns -> node_at top (l ++ ns) = Some x -> no_link top (l ++ ns) ->
  d_attr dk (deeper (mkPath true P) ns) = Some (node_kind x).
Proof.
  intros H E Hn. destruct (listed_place ns H) as (_ & _ & Hs).
  assert (Ht : search top true max_links [] (P ++ ns) = Some (l ++ ns)) by now apply search_follow.
  unfold deeper, dk. cbn [d_attr volume_disk p_abs p_names]. rewrite found_abs, Ht. cbn [opt_bind]. now rewrite E.
Qed.

Lemma listed_plain ns : listed dk (mkPath true P) ns -> Forall plain (P ++ ns).
Proof.
  intro H. destruct (listed_place ns H) as (Hr & _). apply Forall_app. split; [exact HP|]. eapply Forall_impl; [|exact Hr]. exact real_plain.
Qed.
End Root.

(** Cutting off the last name of a path that is found. *)
Lemma last_step k N l : Forall plain N -> N <> [] -> search top false k [] N = Some l ->
  exists Q c m j, N = Q ++ [c] /\ l = m ++ [c] /\ folder_at top m /\ j <= k /\ search top true j [] Q = Some m /\ plain c.
Proof.
  intros Hp Hne H. destruct (list_end N) as [->|(Q & c & ->)]; [congruence|].
  destruct (search_split top (top_folder top Hwf) false k Q [c] [] l H ltac:(discriminate) (top_folder top Hwf)) as (j & m & Hj & H1 & H2 & H3).
  apply Forall_app in Hp as [_ Hp]. inversion Hp as [|? ? Hc _]; subst.
  destruct (search_last top false _ _ _ _ Hc H3 (or_introl eq_refl)) as [-> _]. exists Q, c, m, j. auto 10.
Qed.

(** Two paths that are found at the same place. What can be found behind the link there through the first can be found through the second, unless the second
    takes so many links that the limit is met. *)
Lemma behind_link k1 k2 N1 N2 l r : Forall plain N1 -> Forall plain N2 -> N1 <> [] -> N2 <> [] -> k1 <= max_links ->
  search top false k1 [] N1 = Some l -> search top false k2 [] N2 = Some l ->
  search top true k1 [] N1 = Some r -> search top true (k2 + k1) [] N2 = Some r.
Proof.
  intros P1 P2 E1 E2 Hk H1 H2 H3. destruct (last_step k1 N1 l P1 E1 H1) as (Q1 & c1 & m1 & j1 & -> & -> & F1 & J1 & S1 & C1).
  destruct (last_step k2 N2 _ P2 E2 H2) as (Q2 & c2 & m2 & j2 & -> & E & F2 & J2 & S2 & C2). apply app_inj_tail in E as [<- <-].
  destruct (search_split top (top_folder top Hwf) true k1 Q1 [c1] [] r H3 ltac:(discriminate) (top_folder top Hwf)) as (j & m & Hj & A1 & A2 & A3).
  assert (m = m1) as ->.
  { pose proof (search_more top true _ _ _ _ k1 A1 ltac:(lia)) as B1. pose proof (search_more top true _ _ _ _ k1 S1 ltac:(lia)) as B2. congruence. }
  apply search_more with (j2 + (k1 - j)); [|lia]. apply (search_join top) with m1; auto. discriminate.
Qed.
End Volume.

(** ** Printing through a path and printing at its place *)
Section Moved.
Variables (top : node) (j : jvm).
Hypothesis Hwf : well_formed top.
Let w := volume_world top j.
Let dk := volume_disk top (jv_cwd j).

Lemma content_forth P l : Forall plain P -> search top false max_links [] P = Some l -> same_content dk (mkPath true P) dk (mkPath true l).
Proof.
  intros HP Hl ns Hns. destruct (listed_place top (jv_cwd j) Hwf P l Hl ns Hns) as (Hr & Hx & Hs).
  destruct (node_at top (l ++ ns)) as [x|] eqn:E; [clear Hx|congruence].
  pose proof (own_place top Hwf false max_links _ _ E (or_introl eq_refl)) as Ho.
  assert (Ek : d_kind dk (deeper (mkPath true l) ns) = Some (node_kind x)).
  { unfold dk, deeper. cbn [d_kind volume_disk p_abs p_names]. rewrite found_abs, Ho. cbn. now rewrite E. }
  assert (Ek' : d_kind dk (deeper (mkPath true P) ns) = Some (node_kind x)) by (unfold dk; rewrite (kind_at top _ Hwf P l Hl ns Hns), E; reflexivity).
  split; [congruence|]. split.
  - intros Hd l1 El. unfold is_dir in Hd. rewrite Ek' in Hd. destruct x as [|b es| |]; try discriminate.
    unfold dk in El. rewrite (list_at top _ Hwf P l Hl ns b es Hns E) in El. exists l1. split; [|apply Permutation_refl].
    unfold dk, deeper. cbn [d_list volume_disk p_abs p_names]. rewrite found_abs, (own_place top Hwf true max_links _ _ E).
    + cbn. rewrite E. destruct b; [exact El|discriminate].
    + right. apply folder_no_link. eexists; eauto.
  - intros Hd k Ea. unfold dk, deeper in *. cbn [d_attr volume_disk p_abs p_names] in *. rewrite found_abs in *.
    destruct (search top true max_links [] (P ++ ns)) as [r|] eqn:Er; [|discriminate].
    change max_links with (0 + max_links). rewrite (behind_link top Hwf max_links 0 (P ++ ns) (l ++ ns) (l ++ ns) r); auto.
    + exact (listed_plain top (jv_cwd j) Hwf P l HP Hl ns Hns).
    + now apply (place_plain top Hwf _ x).
    + intro E0. rewrite E0 in *. rewrite search_nil in Hs. injection Hs as Hs. rewrite <- Hs in E. destruct Hwf as [(b & es & Et) _]. rewrite Et in E.
      injection E as <-. apply Hd. unfold is_dir. exact Ek'.
    + intro E0. rewrite E0 in E. destruct Hwf as [(b & es & Et) _]. rewrite Et in E. injection E as <-. apply Hd. exact Ek'.
    + exact (own_place top Hwf false 0 _ _ E (or_introl eq_refl)).
Qed.

Lemma content_back k P l : Forall plain P -> k <= max_links -> search top false k [] P = Some l ->
  (forall ns t r, node_at top (l ++ ns) = Some (NLink t) -> search top true max_links [] (l ++ ns) = Some r ->
     search top true (max_links - k) [] (l ++ ns) = Some r) ->
  same_content dk (mkPath true l) dk (mkPath true P).
Proof.
  intros HP Hk Hl Hlim ns Hns.
  destruct (search_ends top (top_folder top Hwf) _ _ _ _ _ (top_folder top Hwf) Hl) as [Hx _].
  destruct (node_at top l) as [y|] eqn:Ey; [clear Hx|congruence].
  pose proof (own_place top Hwf false max_links _ _ Ey (or_introl eq_refl)) as Ho.
  destruct (listed_place top (jv_cwd j) Hwf l l Ho ns Hns) as (Hr & Hx & Hs).
  destruct (node_at top (l ++ ns)) as [x|] eqn:E; [clear Hx|congruence].
  assert (Hp : search top false k [] (P ++ ns) = Some (l ++ ns)).
  { destruct ns as [|n ns0]; [now rewrite !app_nil_r|]. set (ns := n :: ns0) in *.
    assert (Hf : folder_at top l) by (apply (folder_above _ _ _ _ E); discriminate).
    apply search_more with (k + 0); [|lia]. apply (search_join top) with l; [|exact Hf|discriminate|].
    - apply search_follow; [exact Hl|]. now apply folder_no_link.
    - apply search_place with x; [|exact E|now left]. eapply Forall_impl; [|exact Hr]. exact real_plain. }
  pose proof (search_more top _ _ _ _ _ _ Hp Hk) as Hp'.
  assert (Ek : d_kind dk (deeper (mkPath true l) ns) = Some (node_kind x)).
  { unfold dk, deeper. cbn [d_kind volume_disk p_abs p_names]. rewrite found_abs, Hs. cbn. now rewrite E. }
  assert (Ek' : d_kind dk (deeper (mkPath true P) ns) = Some (node_kind x)).
  { unfold dk, deeper. cbn [d_kind volume_disk p_abs p_names]. rewrite found_abs, Hp'. cbn. now rewrite E. }
  split; [congruence|]. split.
  - intros Hd l1 El. unfold is_dir in Hd. rewrite Ek in Hd. destruct x as [|b es| |]; try discriminate.
    unfold dk in El. rewrite (list_at top _ Hwf l l Ho ns b es Hns E) in El. exists l1. split; [|apply Permutation_refl].
    unfold dk, deeper. cbn [d_list volume_disk p_abs p_names]. rewrite found_abs, (search_follow top _ _ _ _ Hp').
    + cbn. rewrite E. destruct b; [exact El|discriminate].
    + apply folder_no_link. eexists; eauto.
  - intros Hd q Ea. unfold dk, deeper in *. cbn [d_attr volume_disk p_abs p_names] in *. rewrite found_abs in *.
    destruct (search top true max_links [] (l ++ ns)) as [r|] eqn:Er; [|discriminate].
    assert (Er' : search top true (max_links - k) [] (l ++ ns) = Some r).
    { destruct x as [z|b es|t|]; [| |now apply (Hlim ns t)|].
      all: assert (Hn : no_link top (l ++ ns)) by (intro t; congruence); rewrite (own_place top Hwf true _ _ _ E (or_intror Hn)) in Er;
        rewrite (own_place top Hwf true _ _ _ E (or_intror Hn)); exact Er. }
    replace max_links with (k + (max_links - k)) by lia.
    rewrite (behind_link top Hwf (max_links - k) k (l ++ ns) (P ++ ns) (l ++ ns) r); auto; try lia.
    + now apply (place_plain top Hwf _ x).
    + apply Forall_app. split; [exact HP|]. eapply Forall_impl; [|exact Hr]. exact real_plain.
    + intro E0. rewrite E0 in E. destruct Hwf as [(b & es & Et) _]. rewrite Et in E. injection E as <-. apply Hd. exact Ek.
    + intro E0. rewrite E0 in *. rewrite search_nil in Hp. injection Hp as Hp. rewrite <- Hp in E. destruct Hwf as [(b & es & Et) _]. rewrite Et in E.
      injection E as <-. apply Hd. exact Ek.
    + exact (own_place top Hwf false _ _ _ E (or_introl eq_refl)).
Qed.
End Moved.

Lemma dots_of top cwd N : dots_after_directories top cwd N -> dots_ok top N.
Proof.
  intros H l1 n l2 E. destruct (H l1 n l2 E) as [H1 H2]. split.
  - intros Hn t Ht. apply (H1 Hn). exists t. exact Ht.
  - intros Hn E2 t Ht. apply (H2 Hn E2). exists t. exact Ht.
Qed.

Section Print.
Variables (top : node) (j : jvm).
Hypothesis Hwf : well_formed top.
Let w := volume_world top j.
Let dk := volume_disk top (jv_cwd j).

Lemma location_names p : location w p = mkPath true (norm_names true (p_names (to_absolute (jv_cwd j) p))).
Proof. unfold location, normalize, w. cbn [w_jvm volume_world]. destruct p as [[] N]; reflexivity. Qed.

Lemma location_place l x : node_at top l = Some x -> location w (mkPath true l) = mkPath true l.
Proof. intro H. rewrite location_names. cbn [to_absolute p_abs p_names]. now rewrite norm_names_plain by now apply (place_plain top Hwf l x). Qed.

Lemma same_last k P l : Forall plain P -> search top false k [] P = Some l -> last_name (mkPath true P) = last_name (mkPath true l).
Proof.
  intros HP H. destruct P as [|n P]; [rewrite search_nil in H; injection H as <-; reflexivity|].
  destruct (last_step top Hwf k _ l HP ltac:(discriminate) H) as (Q & c & m & i & E & -> & _). rewrite E. unfold last_name. cbn [p_names]. now rewrite !last_last.
Qed.

Lemma named_place k P l : Forall plain P -> search top false k [] P = Some l -> l <> [] -> P <> [].
Proof. intros HP H Hl ->. rewrite search_nil in H. congruence. Qed.

(** What the printer asks about is at the place of the given path. *)
Lemma place_of_location k p l : k <= max_links -> dots_after_directories top (jv_cwd j) (p_names (to_absolute (jv_cwd j) p)) ->
  search top false k [] (p_names (to_absolute (jv_cwd j) p)) = Some l ->
  search top false k [] (norm_names true (p_names (to_absolute (jv_cwd j) p))) = Some l.
Proof. intros Hk Hd Hl. apply (normal_place top (top_folder top Hwf)); auto. now apply dots_of with (jv_cwd j). Qed.

Lemma print_forth o p st v h out h' l :
  uses w o st -> sees w o v -> configured_order (s_cmp st) ->
  place top false (jv_cwd j) p = Some l -> l <> [] -> dots_after_directories top (jv_cwd j) (p_names (to_absolute (jv_cwd j) p)) ->
  same_settings dk st (location w p) st (mkPath true l) -> same_view dk v (location w p) v (mkPath true l) ->
  pretty_print o p w h = (Ok out, h') -> forall h2, exists h2', pretty_print o (mkPath true l) w h2 = (Ok out, h2').
Proof.
  intros Hu Hs Hc Hl Hne Hd Hss Hv H. apply (place_of_location max_links p l (le_n _) Hd) in Hl.
  set (P := norm_names true (p_names (to_absolute (jv_cwd j) p))) in *. pose proof (norm_names_abs_plain (p_names (to_absolute (jv_cwd j) p))) as HP. fold P in HP.
  assert (EL : location w p = mkPath true P) by apply location_names.
  destruct (search_ends top (top_folder top Hwf) _ _ _ _ _ (top_folder top Hwf) Hl) as [Hx _].
  destruct (node_at top l) as [x|] eqn:Ex; [clear Hx|congruence]. pose proof (location_place l x Ex) as EL'.
  apply (C91_lemma o o p (mkPath true l) w w h out h' v v dk dk st st); auto; try apply volume_steady; try now apply volume_distinct.
  - rewrite EL, EL'. now apply content_forth.
  - now rewrite EL'.
  - now rewrite EL'.
  - rewrite EL'. exact Hne.
  - rewrite EL, EL'. now apply same_last with max_links.
Qed.

Lemma print_back o p st v h out h' k l :
  uses w o st -> sees w o v -> configured_order (s_cmp st) ->
  k <= max_links -> search top false k [] (p_names (to_absolute (jv_cwd j) p)) = Some l ->
  dots_after_directories top (jv_cwd j) (p_names (to_absolute (jv_cwd j) p)) ->
  (forall ns t r, node_at top (l ++ ns) = Some (NLink t) -> search top true max_links [] (l ++ ns) = Some r ->
     search top true (max_links - k) [] (l ++ ns) = Some r) ->
  same_settings dk st (mkPath true l) st (location w p) -> same_view dk v (mkPath true l) v (location w p) ->
  pretty_print o (mkPath true l) w h = (Ok out, h') -> forall h2, exists h2', pretty_print o p w h2 = (Ok out, h2').
Proof.
  intros Hu Hs Hc Hk Hl Hd Hlim Hss Hv H. apply (place_of_location k p l Hk Hd) in Hl.
  set (P := norm_names true (p_names (to_absolute (jv_cwd j) p))) in *. pose proof (norm_names_abs_plain (p_names (to_absolute (jv_cwd j) p))) as HP. fold P in HP.
  assert (EL : location w p = mkPath true P) by apply location_names.
  destruct (search_ends top (top_folder top Hwf) _ _ _ _ _ (top_folder top Hwf) Hl) as [Hx _].
  destruct (node_at top l) as [x|] eqn:Ex; [clear Hx|congruence]. pose proof (location_place l x Ex) as EL'.
  assert (Hne : l <> []) by (pose proof (print_named _ _ _ _ _ _ H) as Hn; rewrite EL' in Hn; exact Hn).
  apply (C91_lemma o o (mkPath true l) p w w h out h' v v dk dk st st); auto; try apply volume_steady; try now apply volume_distinct.
  - rewrite EL, EL'. now apply content_back with k.
  - now rewrite EL'.
  - now rewrite EL'.
  - rewrite EL. now apply named_place with k l.
  - rewrite EL, EL'. symmetry. now apply same_last with k.
Qed.

(** ** What is shown *)
Lemma tree_reach_list st dk0 e : (forall p, (s_limit st p < 0)%Z) -> forall d p, tree_at st dk0 d p e ->
  forall d' q, reach st dk0 d p d' q -> is_dir dk0 q -> (d' < s_depth st)%Z -> d_list dk0 q <> None.
Proof.
  intros Hlim. induction e as [r es IH|f k|r|n] using entry_ind'; intros d p H d' q Hr Hnd Hlt'.
  - inversion H as [|? ? Hd Hm|? ? names order es0 Hd Hm Hl [Hperm Hsrt] HF]; subst; apply reach_first in Hr;
      destruct Hr as [[-> ->]|(names' & n & _ & Hlt & Hl' & Hin & Hacc & Hr)]; try contradiction; try lia; try congruence.
    rewrite Hl in Hl'. injection Hl' as <-.
    assert (Hc : In (child r n) order).
    { eapply Permutation_in; [exact Hperm|]. apply filter_In. split; [now apply in_map|exact Hacc]. }
    unfold limited in HF. destruct (Z.ltb_spec (s_limit st r) 0) as [_|Hge]; [|specialize (Hlim r); lia].
    apply Forall_app in IH. destruct IH as [IH _].
    destruct (Forall2_in_l _ _ _ _ HF Hc) as (y & Hy & Hty). rewrite Forall_forall in IH. eapply IH; eauto.
  - inversion H; subst. apply reach_first in Hr. destruct Hr as [[-> ->]|(? & ? & Hd & _)]; congruence.
  - inversion H.
  - inversion H.
Qed.

Lemma search_leaf k N : forall here r, search top true k here N = Some r -> exists r', search top false k here N = Some r'.
Proof.
  revert k N. apply (search_ind (fun k N => forall here r, search top true k here N = Some r -> exists r', search top false k here N = Some r')).
  - intros k here r _. exists here. apply search_nil.
  - intros k n rest IH IHk here r H. rewrite search_cons in *.
    destruct (jeqb n n_dot); [eauto|]. destruct (jeqb n n_dotdot); [eauto|].
    destruct (node_at top (here ++ [n])) as [[z|b es|t|]|] eqn:En; try discriminate; eauto.
    destruct rest as [|c rest]; [eauto|]. destruct k as [|k]; [discriminate|]. apply (IHk k _ (Nat.lt_succ_diag_r k) _ _ H).
Qed.

Lemma shown_places o p st v h out h' :
  uses w o st -> sees w o v -> (forall q, s_limit st q < 0)%Z -> pretty_print o p w h = (Ok out, h') ->
  exists e s l, tree_at st dk 0 (location w p) e /\ shows v true e s /\ out = text (o_tree_format o) (labelled v s) /\
    place top false (jv_cwd j) (location w p) = Some l /\ NoDup (shown_paths s) /\
    forall q, In q (shown_paths s) <->
      exists ns, q = deeper (location w p) ns /\ node_at top (l ++ ns) <> None /\ (ns = [] \/ (Z.of_nat (length ns) <= s_depth st)%Z) /\
        forall a b, ns = a ++ b -> a <> [] ->
          (folder_at top (l ++ a) -> s_dirs st (deeper (location w p) a) = true) /\
          (~ folder_at top (l ++ a) -> s_files st (deeper (location w p) a) = true).
Proof.
  intros Hu Hs Hlim H.
  destruct (C05_lemma o p w h out h' v dk st (volume_steady top j) (volume_distinct top _ Hwf) Hu Hs Hlim H) as (e & s & Ht & Hsh & Ho & Hnd & Hin).
  pose proof (location_names p) as EL. set (P := norm_names true _) in EL. rewrite EL in *.
  assert (HP : Forall plain P) by apply norm_names_abs_plain.
  assert (Hpl : exists l, search top false max_links [] P = Some l).
  { inversion Ht as [? ? kd Hnd' Ha|? ? Hd|? ? ? ? ? Hd]; subst.
    - unfold dk in Ha. cbn [d_attr volume_disk] in Ha. rewrite found_abs in Ha. destruct (search top true max_links [] P) eqn:E; [|discriminate].
      now apply search_leaf in E.
    - unfold is_dir, dk in Hd. cbn [d_kind volume_disk] in Hd. rewrite found_abs in Hd. destruct (search top false max_links [] P); [eauto|discriminate].
    - unfold is_dir, dk in Hd. cbn [d_kind volume_disk] in Hd. rewrite found_abs in Hd. destruct (search top false max_links [] P); [eauto|discriminate]. }
  destruct Hpl as (l & Hl). exists e, s, l. split; [exact Ht|]. split; [exact Hsh|]. split; [exact Ho|]. split; [exact Hl|]. split; [exact Hnd|].
  assert (Hdir : forall ns, listed dk (mkPath true P) ns -> is_dirb dk (deeper (mkPath true P) ns) = true <-> folder_at top (l ++ ns)).
  { intros ns Hns. rewrite <- (is_dir_at top (jv_cwd j) Hwf P l Hl ns Hns). unfold is_dirb, is_dir. fold dk.
    destruct (d_kind dk _) as [[]|]; split; intro; congruence. }
  intro q. rewrite Hin. split.
  - intros (d & Hr). remember 0%Z as d0 eqn:E0.
    assert (K : exists ns, q = deeper (mkPath true P) ns /\ listed dk (mkPath true P) ns /\ d = Z.of_nat (length ns) /\
              (ns = [] \/ (Z.of_nat (length ns) <= s_depth st)%Z) /\
              forall a b, ns = a ++ b -> a <> [] ->
                (folder_at top (l ++ a) -> s_dirs st (deeper (mkPath true P) a) = true) /\
                (~ folder_at top (l ++ a) -> s_files st (deeper (mkPath true P) a) = true)).
    { clear Hin. subst d0. induction Hr as [|d q names n Hr IH Hd Hlt Hli Hn Ha].
      - exists []. split; [symmetry; apply under_nil|]. split; [constructor|]. split; [reflexivity|]. split; [now left|].
        intros a b E Hne. symmetry in E. apply app_eq_nil in E as [-> _]. congruence.
      - destruct IH as (ns & -> & Hns & -> & Hb & Hf). exists (ns ++ [n]). split; [apply under_child|].
        assert (Hns' : listed dk (mkPath true P) (ns ++ [n])) by (eapply listed_entry; eauto). split; [exact Hns'|].
        rewrite app_length. cbn [length]. split; [lia|]. split; [right; lia|]. intros a b E Hne.
        destruct b as [|c b] using rev_ind; [|clear IHb].
        + rewrite app_nil_r in E. subst a. rewrite under_child in Ha. unfold accepts in Ha. pose proof (Hdir _ Hns') as HD.
          destruct (is_dirb dk (deeper (mkPath true P) (ns ++ [n]))).
          * split; [auto|]. intro K. exfalso. apply K. now apply HD.
          * split; [|auto]. intro K. apply HD in K. discriminate.
        + rewrite app_assoc in E. apply app_inj_tail in E as [-> _]. now apply (Hf a b). }
    destruct K as (ns & -> & Hns & _ & Hb & Hf). exists ns. split; [reflexivity|]. split; [apply (listed_place top (jv_cwd j) Hwf P l Hl ns Hns)|]. auto.
  - intros (ns & -> & Hx & Hb & Hf).
    assert (K : reach st dk 0 (mkPath true P) (Z.of_nat (length ns)) (deeper (mkPath true P) ns) /\ listed dk (mkPath true P) ns).
    { clear Hin. induction ns as [|n ns IH] using rev_ind; [rewrite under_nil; split; constructor|].
      destruct (node_at top (l ++ ns ++ [n])) as [x|] eqn:Ex; [clear Hx|congruence].
      rewrite app_assoc in Ex. destruct (folder_above _ _ _ _ Ex ltac:(discriminate)) as (b & es & Eb).
      destruct IH as [IHr IHl].
      - rewrite Eb. discriminate.
      - right. destruct Hb as [Hb|Hb]; [now destruct ns|]. rewrite app_length in Hb. cbn in Hb. lia.
      - intros a c -> Hne. apply (Hf a (c ++ [n])); [now rewrite app_assoc|exact Hne].
      - assert (Hd : is_dir dk (deeper (mkPath true P) ns)) by (apply (is_dir_at top (jv_cwd j) Hwf P l Hl ns IHl); eexists; eauto).
        assert (Hlt : (Z.of_nat (length ns) < s_depth st)%Z) by (destruct Hb as [Hb|Hb]; [now destruct ns|]; rewrite app_length in Hb; cbn in Hb; lia).
        pose proof (tree_reach_list st dk e Hlim _ _ Ht _ _ IHr Hd Hlt) as Hne.
        pose proof (list_at top (jv_cwd j) Hwf P l Hl ns b es IHl Eb) as El. fold dk in El. destruct b; [|congruence].
        assert (Hn : In n (map fst es)).
        { rewrite node_at_app, Eb in Ex. cbn in Ex. destruct (entry_named n es) as [y|] eqn:Ey; [|discriminate]. now apply entry_named_in in Ey. }
        assert (Hns' : listed dk (mkPath true P) (ns ++ [n])) by (eapply listed_entry; eauto). split; [|exact Hns'].
        replace (Z.of_nat (length (ns ++ [n]))) with (Z.of_nat (length ns) + 1)%Z by (rewrite app_length; cbn; lia).
        rewrite <- under_child. apply reach_child with (map fst es); auto. rewrite under_child. unfold accepts.
        destruct (Hf (ns ++ [n]) [] ltac:(now rewrite app_nil_r) ltac:(now destruct ns)) as [F1 F2].
        pose proof (Hdir _ Hns') as HD. destruct (is_dirb dk _); [apply F1; now apply HD|apply F2; intro K; apply HD in K; discriminate]. }
    exists (Z.of_nat (length ns)). apply K.
Qed.

(** ** What is opened *)
Lemma kept_listed st d q p0 : SpecHist.kept st dk 0 p0 d q -> exists ns, listed dk p0 ns /\ q = deeper p0 ns.
Proof.
  induction 1 as [|d q names order c H (ns & Hns & ->) Hd Hlt Hli [Hp _] Hc]; [exists []; split; [constructor|symmetry; apply under_nil]|].
  apply limited_incl in Hc. apply (Permutation_in c (Permutation_sym Hp)) in Hc. apply filter_In in Hc as [Hc _]. apply in_map_iff in Hc as (n & <- & Hn).
  exists (ns ++ [n]). split; [eapply listed_entry; eauto|apply under_child].
Qed.

Lemma opened_directory o p w0 dk0 h : steady w0 dk0 -> callbacks w0 o (modest w0) (fun _ => True) ->
  exists r t, pretty_print o p w0 h = (r, rev t ++ h) /\ forall ev q, In ev t -> opening ev q -> is_dir dk0 q.
Proof.
  intros Hst Hc. destruct Hst as (Hk & _).
  destruct (print_runs w0 o (modest w0) (fun _ => True) _ p (modest_nil w0) (modest_app w0) I Hc (scan_links _ _ Hc) h) as (r & t & Er & H).
  exists r, t. split; [exact Er|].
  assert (HA : always after_lstat [] t /\ truthful w0 t).
  { destruct H as [(x & _ & H & H' & _)|(e & t1 & t2 & -> & _ & (H & H' & _) & Hq & _)]; [auto|]. split.
    - apply always_mono_app; [exact after_lstat_mono|exact H|]. apply always_modest with (w := w0); [exact (user_not_opening w0)|exact Hq].
    - apply truthful_app; [exact H'|now apply truthful_modest]. }
  destruct HA as [HA HT]. intros ev q Hin Hop. apply in_split in Hin. destruct Hin as (t1 & t2 & E).
  destruct (HA t1 ev t2 E q Hop) as (t0 & E0). cbn in E0. subst t1.
  destruct (HT q (Some KDir)) as (h0 & Hh); [|rewrite Hk in Hh; exact Hh].
  rewrite E. rewrite <- app_assoc. apply in_or_app. right. now left.
Qed.

Lemma opened_places o p st h l (E : exn -> Prop) :
  callbacks w o (modest w) E ->
  agrees w (o_dir_matcher o) (s_dirs st) -> agrees w (o_file_matcher o) (s_files st) -> agrees w (o_child_limit o) (s_limit st) ->
  (forall a, agrees w (o_comparator o a) (s_cmp st a)) -> o_max_depth o = s_depth st ->
  place top false (jv_cwd j) (location w p) = Some l ->
  exists r t, pretty_print o p w h = (r, rev t ++ h) /\
    forall ev q, In ev t -> looks_into ev q ->
      exists ns, q = deeper (location w p) ns /\ place top false (jv_cwd j) q = Some (l ++ ns) /\
        (opening ev q -> folder_at top (l ++ ns) /\ place top true (jv_cwd j) q = Some (l ++ ns)).
Proof.
  intros Hc Ha1 Ha2 Ha3 Ha4 Hdep Hl.
  destruct (C13_kept o p w dk st h E (volume_steady top j) Hc Ha1 Ha2 Ha3 Ha4 Hdep) as (r & t & Er & HK).
  destruct (opened_directory o p w dk h (volume_steady top j)) as (r' & t' & Er' & HD).
  { exact (callbacks_weaken w o _ (modest w) E (fun _ => True) (fun _ H => H) (fun _ _ => I) Hc). }
  rewrite Er in Er'. injection Er' as <- Et. apply app_inv_tail in Et. apply (f_equal (@rev _)) in Et. rewrite !rev_involutive in Et. subst t'.
  exists r, t. split; [exact Er|]. intros ev q Hin Hlo. destruct (HK ev q Hin Hlo) as (d & Hkp). apply kept_listed in Hkp as (ns & Hns & ->).
  pose proof (location_names p) as EL. set (P := norm_names true _) in EL. rewrite EL in *.
  destruct (listed_place top (jv_cwd j) Hwf P l Hl ns Hns) as (_ & _ & Hs). exists ns. split; [reflexivity|]. split; [exact Hs|].
  intro Hop. specialize (HD ev _ Hin Hop). apply (is_dir_at top (jv_cwd j) Hwf P l Hl ns Hns) in HD. split; [exact HD|].
  apply (search_follow top); [exact Hs|now apply folder_no_link].
Qed.
End Print.
