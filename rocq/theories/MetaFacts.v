(** * Comparing two runs *)

From Verif Require Import SpecMeta RenderFacts ScanFacts PathFacts TreeFacts HistFacts ShownFacts LayoutFacts SortFacts PrintFacts ScanPrintFacts.
Open Scope Z_scope.

(** ** A run returns exactly when there is a tree to show *)

Section Complete.
  Context (w : world) (dk : disk) (o : options) (st : settings).
  Hypothesis Hw : steady w dk.
  Hypothesis Ho : uses w o st.
  Hypothesis Hc : configured_order (s_cmp st).
  Hypothesis Hd : distinct_names dk.

  Lemma loop_yields (hc : path -> M (option entry)) (hl : bool) mc : forall it count acc,
    (forall c, In c (if hl then firstn (Z.to_nat (mc - count)) it else it) -> exists e, yields w (hc c) (Some e)) ->
    exists r, yields w (children_loop hc hl mc count acc it) r.
  Proof.
    induction it as [|c it IH]; intros count acc H; cbn [children_loop]; [eexists; apply yields_ret|].
    destruct hl; cbn [andb].
    - destruct (Z.ltb_spec mc (count + 1)); [eexists; apply yields_ret|].
      assert (E : Z.to_nat (mc - count) = S (Z.to_nat (mc - (count + 1)))) by lia. rewrite E in H.
      destruct (H c) as [e He]; [now left|].
      destruct (IH (count + 1) (acc ++ [e])) as [r Hr]; [intros; apply H; now right|].
      exists r. eapply yields_bind; [exact He|exact Hr].
    - destruct (H c) as [e He]; [now left|].
      destruct (IH (count + 1) (acc ++ [e])) as [r Hr]; [intros; apply H; now right|].
      exists r. eapply yields_bind; [exact He|exact Hr].
  Qed.

  Lemma handle_some fuel : forall d p e, tree_at st dk d p e -> 0 <= d -> (Z.to_nat (o_max_depth o - d) <= fuel)%nat ->
    exists e', yields w (handle fuel o d p (path_filter o)) (Some e').
  Proof.
    destruct Hw as (Hl & Hs & Hop & Hcl & _). destruct Ho as (Hdm & Hfm & Hlim & Hcmp & Hmd).
    assert (Hstart : forall fuel d p e', is_dirb dk p = true -> 
              yields w (if o_max_depth o <=? d then (e <- new_max_depth_entry d; ret (Some (EDir p [e]))) else
                        match fuel with
                        | O => throw ExFuel
                        | S fuel' => dl <- open_dir p;
                            match dl with
                            | None => throw (ExUncheckedIO ListFiles p)
                            | Some dl => es <- with_close p (ExUncheckedIO ListFiles p) (handle_directory_children o (fun c => handle fuel' o (d + 1) c (path_filter o)) p dl (path_filter o));
                                         ret (Some (EDir p es))
                            end
                        end) (Some e') -> yields w (handle fuel o d p (path_filter o)) (Some e')).
    { intros f d p e' Hb H. destruct f; cbn [handle]; (eapply yields_bind; [apply (has_kind_yields w dk Hw)|]);
        rewrite is_dirb_kind, Hb; exact H. }
    induction fuel as [|fuel IH]; intros d p e Ht Hdd Hfuel; inversion Ht as [? ? k Hnd Hk|? ? Hdir Hm|? ? names order es Hdir Hm Hli Hord HF]; subst.
    - exists (EFile p k). cbn [handle]. eapply yields_bind; [apply (has_kind_yields w dk Hw)|].
      rewrite is_dirb_kind. replace (is_dirb dk p) with false by (unfold is_dirb; unfold is_dir in Hnd; destruct (d_kind dk p) as [[]|]; congruence).
      intro h. unfold handle_file, bind, stat. rewrite Hs, Hk. eexists; reflexivity.
    - exists (EDir p [EMaxDepth d]). apply Hstart; [unfold is_dirb, is_dir in *; now rewrite Hdir|].
      rewrite Hmd. destruct (Z.leb_spec (s_depth st) d); [|lia]. unfold new_max_depth_entry.
      destruct (Z.ltb_spec d 0); [lia|]. eapply yields_bind; apply yields_ret.
    - exfalso. rewrite Hmd in Hfuel. lia.
    - exists (EFile p k). cbn [handle]. eapply yields_bind; [apply (has_kind_yields w dk Hw)|].
      rewrite is_dirb_kind. replace (is_dirb dk p) with false by (unfold is_dirb; unfold is_dir in Hnd; destruct (d_kind dk p) as [[]|]; congruence).
      intro h. unfold handle_file, bind, stat. rewrite Hs, Hk. eexists; reflexivity.
    - exists (EDir p [EMaxDepth d]). apply Hstart; [unfold is_dirb, is_dir in *; now rewrite Hdir|].
      rewrite Hmd. destruct (Z.leb_spec (s_depth st) d); [|lia]. unfold new_max_depth_entry.
      destruct (Z.ltb_spec d 0); [lia|]. eapply yields_bind; apply yields_ret.
    - set (hc := fun c => handle fuel o (d + 1) c (path_filter o)).
      assert (Eo : psort (s_cmp st) (filter (accepts st dk) (map (child p) names)) = order).
      { pose proof (tim_sort_in_order (s_cmp st) (filter (accepts st dk) (map (child p) names))) as Hio.
        apply strict_sorted_unique with (c := s_cmp st).
        - pose proof (configured_contract _ Hc) as (Hanti & _). intros a b. specialize (Hanti a b). lia.
        - eapply order_strict; eauto.
        - eapply order_strict; eauto.
        - destruct Hord as [Hp _]. destruct Hio as [Hp2 _]. now rewrite <- Hp, <- Hp2. }
      destruct (loop_yields hc (0 <=? s_limit st p) (s_limit st p) order 0 []) as [[es' rest] Hloop].
      { intros c Hin. rewrite Z.sub_0_r in Hin.
        assert (Hin' : In c (limited (s_limit st p) order)).
        { unfold limited. destruct (Z.leb_spec 0 (s_limit st p)), (Z.ltb_spec (s_limit st p) 0); try lia; exact Hin. }
        destruct (Forall2_in_l _ _ _ c HF Hin') as (e & _ & He). apply IH with (e := e); [exact He|lia|lia]. }
      exists (EDir p (es' ++ match rest with [] => [] | _ :: _ => [ESkipped p] end)).
      apply Hstart; [unfold is_dirb, is_dir in *; now rewrite Hdir|].
      rewrite Hmd. destruct (Z.leb_spec (s_depth st) d); [lia|].
      eapply yields_bind with (a := Some (mkDirlist names false)).
      { intro h. unfold open_dir. rewrite Hop, Hli. eexists; reflexivity. }
      eapply yields_bind; [|apply yields_ret].
      assert (Hbody : yields w (handle_directory_children o hc p (mkDirlist names false) (path_filter o))
                        (es' ++ match rest with [] => [] | _ :: _ => [ESkipped p] end)).
      { unfold handle_directory_children. eapply yields_bind; [intro h; apply Hlim|].
        eapply yields_bind.
        { unfold stream_paths. eapply yields_bind; [apply filterM_yields with (g := accepts st dk); intros; apply path_filter_yields; auto|].
          cbn [dl_fail dl_names]. apply yields_ret. }
        eapply yields_bind with (a := order).
        { intro h. rewrite <- Eo. destruct (sorted_answers w _ _ (filter (accepts st dk) (map (child p) names)) h Hcmp) as [h1 E1].
          rewrite sort_fine in E1 by (left; now apply configured_contract). eauto. }
        eapply yields_bind; [exact Hloop|]. apply yields_ret. }
      intro h. unfold with_close. destruct (Hbody h) as [h1 E1]. unfold hc in E1. rewrite E1. unfold close_dir. rewrite Hcl.
      eexists; reflexivity.
  Qed.
End Complete.

Lemma same_disk dk : same_but_order dk dk.
Proof. split; [reflexivity|]. split; [reflexivity|]. intro p. destruct (d_list dk p); [apply Permutation_refl|exact I]. Qed.

Lemma handle_complete w dk o st : steady w dk -> uses w o st -> configured_order (s_cmp st) -> distinct_names dk ->
  forall fuel d p e, tree_at st dk d p e -> 0 <= d -> (Z.to_nat (o_max_depth o - d) <= fuel)%nat ->
  yields w (handle fuel o d p (path_filter o)) (Some e).
Proof.
  intros Hw Ho Hc Hd fuel d p e Ht Hdd Hfuel.
  destruct (handle_some w dk o st Hw Ho Hc Hd fuel d p e Ht Hdd Hfuel) as [e' He'].
  assert (E : e = e').
  { destruct (He' []) as [h' E']. apply (handle_tree w dk o st Hw Ho) in E'. eapply tree_unique; eauto. apply same_disk. }
  subst e'. exact He'.
Qed.

Lemma print_complete o p w dk st v e :
  steady w dk -> distinct_names dk -> uses w o st -> sees w o v -> configured_order (s_cmp st) -> p_names (location w p) <> [] ->
  tree_at st dk 0 (location w p) e ->
  exists s, shows v true e s /\ yields w (pretty_print o p) (text (o_tree_format o) (labelled v s)).
Proof.
  intros Hw Hd Hu (Hx & He & Hcp) Hc Hne Ht.
  pose proof (handle_complete w dk o st Hw Hu Hc Hd (Z.to_nat (o_max_depth o)) 0 (location w p) e Ht (Z.le_refl 0)) as Hh.
  assert (Hf : (Z.to_nat (o_max_depth o - 0) <= Z.to_nat (o_max_depth o))%nat) by lia. specialize (Hh Hf).
  assert (Hn : named e).
  { destruct (Hh []) as [h1 E1]. apply handle_shaped in E1. now apply (shaped_named_below _ _ _ _ E1). }
  destruct (render_tree_spec w o (line_renderer_create o) v (extension_answers _ _ _ Hx) He Hcp e Hn) as (s & Hs & Hy).
  exists s. split; [exact Hs|]. intro h. rewrite scan_unfold. exact (yields_bind _ _ w _ _ _ _ Hh Hy h).
Qed.

Lemma print_named o p w h out h' : pretty_print o p w h = (Ok out, h') -> p_names (location w p) <> [].
Proof.
  intro H. apply pretty_print_scan in H. destruct H as (e & h1 & Hh & Hr). exact (proj1 (scanned_named _ _ _ _ _ _ _ _ Hh Hr)).
Qed.

(** ** C86 *)
Lemma C86_lemma o p w dk st v :
  steady w dk -> distinct_names dk -> uses w o st -> sees w o v -> configured_order (s_cmp st) -> p_names (location w p) <> [] ->
  forall h out, (exists h', pretty_print o p w h = (Ok out, h')) <->
    exists e s, tree_at st dk 0 (location w p) e /\ shows v true e s /\ out = text (o_tree_format o) (labelled v s).
Proof.
  intros Hw Hd Hu Hs Hc Hne h out. split.
  - intros [h' H]. eapply print_tree; eauto.
  - intros (e & s & Ht & Hsh & ->). destruct (print_complete o p w dk st v e Hw Hd Hu Hs Hc Hne Ht) as (s' & Hs' & Hy).
    rewrite (shows_fun _ _ _ _ _ Hsh Hs'). apply Hy.
Qed.

(** ** C87 *)
Definition set_depth (m : Z) (st : settings) : settings := mkSettings (s_dirs st) (s_files st) (s_limit st) (s_cmp st) m.
Definition set_limit (f : path -> Z) (st : settings) : settings := mkSettings (s_dirs st) (s_files st) f (s_cmp st) (s_depth st).
Definition set_filters (fd ff : path -> bool) (st : settings) : settings := mkSettings fd ff (s_limit st) (s_cmp st) (s_depth st).

Lemma marker_cut m d n l p : map (cut m d) (marker n l p) = marker n l p.
Proof. unfold marker. destruct (_ && _); reflexivity. Qed.

Lemma tree_cut_at st dk m : m <= s_depth st -> forall e d p, tree_at st dk d p e -> tree_at (set_depth m st) dk d p (cut m d e).
Proof.
  intros Hm. induction e as [r es IH|f k|r|n] using entry_ind'; intros d p H;
    inversion H as [? ? k' Hnd Hk|? ? Hdir Hm'|? ? names order es0 Hdir Hm' Hli Hord HF]; subst; cbn [cut].
  - destruct (Z.leb_spec m d); [now apply tree_cut|lia].
  - destruct (Z.leb_spec m d); [now apply tree_cut|]. rewrite map_app, marker_cut.
    change (s_limit st r) with (s_limit (set_depth m st) r).
    apply tree_dir with (names := names); auto.
    apply Forall_app in IH. destruct IH as [IH _]. clear -HF IH. unfold set_depth at 2. cbn [s_limit].
    induction HF as [|c e cs es Hce HF IHF]; [constructor|]. inversion IH; subst. constructor; eauto.
  - now apply tree_file.
Qed.

Lemma uses_depth w o st m : uses w o st -> uses w (with_max_depth m o) (set_depth m st).
Proof. intros (H1 & H2 & H3 & H4 & H5). repeat split; auto. Qed.

Lemma C87_lemma o p w h out h' v dk st m :
  steady w dk -> distinct_names dk -> uses w o st -> sees w o v -> configured_order (s_cmp st) -> m <= s_depth st ->
  pretty_print o p w h = (Ok out, h') ->
  exists e s s', tree_at st dk 0 (location w p) e /\ shows v true e s /\ out = text (o_tree_format o) (labelled v s) /\
    shows v true (cut m 0 e) s' /\
    forall h1, exists h1', pretty_print (with_max_depth m o) p w h1 = (Ok (text (o_tree_format o) (labelled v s')), h1').
Proof.
  intros Hw Hd Hu Hs Hc Hm H. destruct (print_tree _ _ _ _ _ _ _ _ _ Hw Hu Hs H) as (e & s & Ht & Hsh & Ho).
  destruct (print_complete (with_max_depth m o) p w dk (set_depth m st) v (cut m 0 e)) as (s' & Hs' & Hy); auto.
  - now apply uses_depth.
  - eapply print_named; eauto.
  - now apply tree_cut_at.
  - exists e, s, s'. auto.
Qed.

(** ** C88 *)
Lemma prune_dir f p es : (forall n, es <> [EMaxDepth n]) ->
  prune f (EDir p es) = EDir p ((if f p <? 0 then map (prune f) es else firstn (Z.to_nat (f p)) (map (prune f) es)) ++
                                if (0 <=? f p) && (f p <? Z.of_nat (length es)) then [ESkipped p] else []).
Proof.
  intro H. destruct es as [|[| | |n] [|]]; try reflexivity. now destruct (H n).
Qed.

Lemma tree_not_mark st dk d p e n : tree_at st dk d p e -> e <> EMaxDepth n.
Proof. intro H. destruct H; discriminate. Qed.

Lemma dir_not_mark st dk d c order es n p m : Forall2 (tree_at st dk d) c es -> es ++ marker m order p <> [EMaxDepth n].
Proof.
  intros HF E. destruct HF as [|x y xs ys Hxy HF].
  - unfold marker in E. destruct (_ && _); discriminate.
  - cbn in E. apply (f_equal (hd (EMaxDepth (n + 1)))) in E. cbn in E. exact (tree_not_mark _ _ _ _ _ _ Hxy E).
Qed.

Lemma Forall2_len A B (R : A -> B -> Prop) l l' : Forall2 R l l' -> length l = length l'.
Proof. intro H. induction H; simpl; congruence. Qed.

Lemma Forall2_firstn A B (R : A -> B -> Prop) n : forall l l', Forall2 R l l' -> Forall2 R (firstn n l) (firstn n l').
Proof. induction n as [|n IH]; intros l l' H; [constructor|]. destruct H; simpl; [constructor|]. constructor; auto. Qed.

Lemma tree_prune_at st dk f : as_strict f (s_limit st) -> forall e d p, tree_at st dk d p e -> tree_at (set_limit f st) dk d p (prune f e).
Proof.
  intros Hf. induction e as [r es IH|g k|r|n] using entry_ind'; intros d p H;
    inversion H as [? ? k' Hnd Hk|? ? Hdir Hm'|? ? names order es0 Hdir Hm' Hli Hord HF]; subst.
  - now apply tree_cut.
  - rewrite prune_dir by (intro n; eapply dir_not_mark; eauto).
    set (mk := marker (s_limit st r) order r) in *.
    assert (HF' : Forall2 (tree_at (set_limit f st) dk (d + 1)) (limited (s_limit st r) order) (map (prune f) es0)).
    { apply Forall_app in IH. destruct IH as [IH _]. clear -HF IH.
      induction HF as [|c e cs es Hce HF IHF]; [constructor|]. inversion IH; subst. constructor; eauto. }
    assert (Elen : length es0 = length (limited (s_limit st r) order)) by (symmetry; eapply Forall2_len; eauto).
    assert (Emk : (if (0 <=? f r) && (f r <? Z.of_nat (length (es0 ++ mk))) then [ESkipped r] else []) = marker (f r) order r).
    { unfold marker. replace (f r <? Z.of_nat (length (es0 ++ mk))) with (f r <? Z.of_nat (length order)) at 1; [reflexivity|].
      rewrite app_length, Elen. unfold mk, marker, limited. specialize (Hf r).
      destruct (Z.ltb_spec (s_limit st r) 0) as [H0|H0].
      - destruct (Z.leb_spec 0 (s_limit st r)); [lia|]. cbn [andb length]. now rewrite Nat.add_0_r.
      - destruct (Z.leb_spec 0 (s_limit st r)); [|lia]. cbn [andb]. rewrite firstn_length.
        destruct (Z.ltb_spec (s_limit st r) (Z.of_nat (length order))); cbn [length];
          destruct (Z.ltb_spec (f r) (Z.of_nat (length order))); symmetry;
          first [apply Z.ltb_lt; lia | apply Z.ltb_ge; lia]. }
    rewrite Emk. change (marker (f r) order r) with (marker (s_limit (set_limit f st) r) order r). apply tree_dir with (names := names); auto. cbn [set_limit s_limit].
    specialize (Hf r). unfold limited in *. destruct (Z.ltb_spec (f r) 0) as [H0|H0].
    + destruct (Z.ltb_spec (s_limit st r) 0); [|lia]. unfold mk, marker. destruct (Z.leb_spec 0 (s_limit st r)); [lia|].
      cbn [andb]. rewrite app_nil_r. exact HF'.
    + rewrite map_app. destruct (Z.ltb_spec (s_limit st r) 0) as [H1|H1].
      * unfold mk, marker. destruct (Z.leb_spec 0 (s_limit st r)); [lia|]. cbn [andb map]. rewrite app_nil_r.
        now apply Forall2_firstn.
      * assert (E1 : firstn (Z.to_nat (f r)) order = firstn (Z.to_nat (f r)) (firstn (Z.to_nat (s_limit st r)) order)).
        { rewrite firstn_firstn. f_equal. lia. }
        rewrite E1. unfold mk, marker. destruct (Z.leb_spec 0 (s_limit st r)); [|lia]. cbn [andb].
        destruct (Z.ltb_spec (s_limit st r) (Z.of_nat (length order))) as [H3|H3].
        -- rewrite firstn_app. rewrite map_length, Elen, firstn_length.
           replace (Z.to_nat (f r) - Nat.min (Z.to_nat (s_limit st r)) (length order))%nat with 0%nat by lia.
           cbn [firstn]. rewrite app_nil_r. now apply Forall2_firstn.
        -- cbn [map]. rewrite app_nil_r. now apply Forall2_firstn.
  - now apply tree_file.
Qed.

Lemma uses_limit w o st fn f : uses w o st -> answers w fn f -> uses w (with_child_limit_fn fn o) (set_limit f st).
Proof. intros (H1 & H2 & H3 & H4 & H5) H. repeat split; auto. Qed.

Lemma C88_lemma o p w h out h' v dk st fn f :
  steady w dk -> distinct_names dk -> uses w o st -> sees w o v -> configured_order (s_cmp st) ->
  answers w fn f -> as_strict f (s_limit st) ->
  pretty_print o p w h = (Ok out, h') ->
  exists e s s', tree_at st dk 0 (location w p) e /\ shows v true e s /\ out = text (o_tree_format o) (labelled v s) /\
    shows v true (prune f e) s' /\
    forall h1, exists h1', pretty_print (with_child_limit_fn fn o) p w h1 = (Ok (text (o_tree_format o) (labelled v s')), h1').
Proof.
  intros Hw Hd Hu Hs Hc Hfn Hf H. destruct (print_tree _ _ _ _ _ _ _ _ _ Hw Hu Hs H) as (e & s & Ht & Hsh & Ho).
  destruct (print_complete (with_child_limit_fn fn o) p w dk (set_limit f st) v (prune f e)) as (s' & Hs' & Hy); auto.
  - now apply uses_limit.
  - eapply print_named; eauto.
  - now apply tree_prune_at.
  - exists e, s, s'. auto.
Qed.

(** ** C89 *)
Lemma filter_perm A (f : A -> bool) l l' : Permutation l l' -> Permutation (filter f l) (filter f l').
Proof.
  intro H. induction H as [|x l l' H IH|x y l|l l' l'' H1 IH1 H2 IH2]; simpl.
  - constructor.
  - destruct (f x); [now constructor|exact IH].
  - destruct (f x), (f y); try reflexivity. apply perm_swap.
  - etransitivity; eauto.
Qed.

Lemma filter_StronglySorted A (R : A -> A -> Prop) (f : A -> bool) l : StronglySorted R l -> StronglySorted R (filter f l).
Proof.
  intro H. induction H as [|x l Hl IH Hx]; simpl; [constructor|]. destruct (f x); [|exact IH].
  constructor; [exact IH|]. apply Forall_forall. intros y Hy. apply filter_In in Hy. destruct Hy as [Hy _].
  rewrite Forall_forall in Hx. auto.
Qed.

Lemma filter_filter A (f g : A -> bool) l : (forall x, f x = true -> g x = true) -> filter f (filter g l) = filter f l.
Proof.
  intro H. induction l as [|x l IH]; simpl; [reflexivity|]. destruct (g x) eqn:Eg; simpl; rewrite IH; [reflexivity|].
  destruct (f x) eqn:Ef; [|reflexivity]. rewrite (H x Ef) in Eg. discriminate.
Qed.

Lemma select_kept fd ff e : kept fd ff (select fd ff e) = kept fd ff e.
Proof. destruct e; reflexivity. Qed.

Lemma kept_accepts st dk fd ff d p e : tree_at st dk d p e -> kept fd ff e = accepts (set_filters fd ff st) dk p.
Proof.
  intro H. unfold accepts, is_dirb. destruct H as [? ? k Hnd _|? ? Hdir _|? ? ? ? ? Hdir]; cbn [kept set_filters s_dirs s_files].
  - unfold is_dir in Hnd. destruct (d_kind dk p) as [[]|]; try reflexivity. now destruct Hnd.
  - unfold is_dir in Hdir. now rewrite Hdir.
  - unfold is_dir in Hdir. now rewrite Hdir.
Qed.

Lemma tree_select_at st dk fd ff : (forall q, s_limit st q < 0) ->
  (forall q, accepts (set_filters fd ff st) dk q = true -> accepts st dk q = true) ->
  forall e d p, tree_at st dk d p e -> tree_at (set_filters fd ff st) dk d p (select fd ff e).
Proof.
  intros Hl Hsub. induction e as [r es IH|f k|r|n] using entry_ind'; intros d p H;
    inversion H as [? ? k' Hnd Hk|? ? Hdir Hm'|? ? names order es0 Hdir Hm' Hli Hord HF]; subst; cbn [select].
  - now apply tree_cut.
  - assert (Hmk : forall l, marker (s_limit st r) l r = []).
    { intro l. unfold marker. specialize (Hl r). destruct (Z.leb_spec 0 (s_limit st r)); [lia|reflexivity]. }
    assert (Hlm : forall l, limited (s_limit st r) l = l).
    { intro l. unfold limited. specialize (Hl r). destruct (Z.ltb_spec (s_limit st r) 0); [reflexivity|lia]. }
    rewrite Hmk, app_nil_r in *. rewrite Hlm in HF.
    set (st' := set_filters fd ff st) in *.
    assert (HF' : Forall2 (tree_at st' dk (d + 1)) (filter (accepts st' dk) order) (filter (kept fd ff) (map (select fd ff) es0))).
    { clear -HF IH. induction HF as [|c e cs es Hce HF IHF]; [constructor|]. inversion IH; subst.
      cbn [map filter]. rewrite select_kept, (kept_accepts _ _ fd ff _ _ _ Hce). fold st'.
      destruct (accepts st' dk c); [constructor|]; auto. }
    rewrite <- (app_nil_r (filter _ (map _ _))), <- (Hmk (filter (accepts st' dk) order)).
    apply tree_dir with (st := st') (names := names) (order := filter (accepts st' dk) order); auto.
    + destruct Hord as [Hp Hso]. split.
      * rewrite <- (filter_filter _ (accepts st' dk) (accepts st dk)) by exact Hsub. now apply filter_perm.
      * intro Hct. apply filter_StronglySorted. now apply Hso.
    + cbn [s_limit st' set_filters]. rewrite Hlm. exact HF'.
  - now apply tree_file.
Qed.

Lemma uses_filters w o st md mf fd ff : uses w o st -> answers w md fd -> answers w mf ff ->
  uses w (filter_directories md (filter_files mf o)) (set_filters fd ff st).
Proof. intros (H1 & H2 & H3 & H4 & H5) Hmd Hmf. repeat split; auto. Qed.

Lemma C89_lemma o p w h out h' v dk st md mf fd ff :
  steady w dk -> distinct_names dk -> uses w o st -> sees w o v -> configured_order (s_cmp st) -> (forall q, s_limit st q < 0) ->
  answers w md fd -> answers w mf ff ->
  (forall q, fd q = true -> s_dirs st q = true) -> (forall q, ff q = true -> s_files st q = true) ->
  pretty_print o p w h = (Ok out, h') ->
  exists e s s', tree_at st dk 0 (location w p) e /\ shows v true e s /\ out = text (o_tree_format o) (labelled v s) /\
    shows v true (select fd ff e) s' /\
    forall h1, exists h1', pretty_print (filter_directories md (filter_files mf o)) p w h1 = (Ok (text (o_tree_format o) (labelled v s')), h1').
Proof.
  intros Hw Hd Hu Hs Hc Hl Hmd Hmf Hfd Hff H. destruct (print_tree _ _ _ _ _ _ _ _ _ Hw Hu Hs H) as (e & s & Ht & Hsh & Ho).
  destruct (print_complete (filter_directories md (filter_files mf o)) p w dk (set_filters fd ff st) v (select fd ff e)) as (s' & Hs' & Hy); auto.
  - now apply uses_filters.
  - eapply print_named; eauto.
  - apply tree_select_at; auto. intro q. unfold accepts. cbn [set_filters s_dirs s_files]. destruct (is_dirb dk q); auto.
  - exists e, s, s'. auto.
Qed.

(** ** Deleted files *)

Lemma filter_map_child (f : path -> bool) p l : filter f (map (child p) l) = map (child p) (filter (fun n => f (child p n)) l).
Proof. induction l as [|n l IH]; cbn; [reflexivity|]. destruct (f (child p n)); cbn; now rewrite IH. Qed.

Lemma filter_comm {A} (f g : A -> bool) l : filter f (filter g l) = filter g (filter f l).
Proof. induction l as [|x l IH]; cbn; [reflexivity|]. destruct (f x) eqn:F, (g x) eqn:G; cbn; rewrite ?F, ?G, IH; reflexivity. Qed.

Lemma filter_same {A} (f g : A -> bool) l : (forall x, In x l -> f x = g x) -> filter f l = filter g l.
Proof.
  induction l as [|x l IH]; intro H; cbn; [reflexivity|]. rewrite (H x (or_introl eq_refl)), IH; [reflexivity|]. intros y Hy. apply H. now right.
Qed.

Lemma tree_deleted_at st gone dk1 dk2 : roomy st gone dk1 -> deleted gone dk1 dk2 ->
  forall e d p, tree_at st dk1 d p e -> gone p = false ->
    tree_at st dk2 d p (select (fun q => negb (gone q)) (fun q => negb (gone q)) e).
Proof.
  intros Hl Hdel. set (keep := fun q => negb (gone q)).
  induction e as [r es IH|f k|r|n] using entry_ind'; intros d p H Hp; destruct (Hdel p Hp) as (Hk1 & Ha1 & Hl1);
    inversion H as [? ? k' Hnd Hk|? ? Hdir Hm'|? ? names order es0 Hdir Hm' Hli Hord HF]; subst; cbn [select].
  - apply tree_cut; [|exact Hm']. unfold is_dir. now rewrite Hk1.
  - destruct (Hl1 _ Hli) as (names' & Hli' & HP').
    assert (Hlm : limited (s_limit st r) (filter keep order) = filter keep (limited (s_limit st r) order) /\ marker (s_limit st r) (filter keep order) r = marker (s_limit st r) order r).
    { destruct (existsb gone order) eqn:Eg.
      - apply existsb_exists in Eg. destruct Eg as (c & Hc & Hgc). destruct Hord as [HP _]. pose proof (Permutation_in _ (Permutation_sym HP) Hc) as Ic.
        apply filter_In in Ic. destruct Ic as [Ic Hac]. apply in_map_iff in Ic. destruct Ic as (n & <- & Hn).
        pose proof (Hl r names n Hp Hli Hn Hgc Hac) as Hlim. rewrite (Permutation_length HP) in Hlim.
        assert (A : forall l : list path, (length l <= length order)%nat -> limited (s_limit st r) l = l /\ marker (s_limit st r) l r = []).
        { intros l Hlen. unfold limited, marker. destruct (Z.ltb_spec (s_limit st r) 0).
          - split; [reflexivity|]. destruct (Z.leb_spec 0 (s_limit st r)); [lia|reflexivity].
          - split; [apply firstn_all2; lia|]. destruct (Z.ltb_spec (s_limit st r) (Z.of_nat (length l))); [lia|]. now rewrite andb_false_r. }
        assert (Hfl : (length (filter keep order) <= length order)%nat) by apply filter_length_le.
        destruct (A _ Hfl) as [-> ->], (A order (le_n _)) as [-> ->]. auto.
      - assert (K : forall l, (forall x, In x l -> In x order) -> filter keep l = l).
        { induction l as [|x l IHl]; intro Hin; [reflexivity|]. cbn [filter]. assert (Ex : keep x = true).
          { unfold keep. apply negb_true_iff. destruct (gone x) eqn:E; [|reflexivity]. assert (existsb gone order = true) by (apply existsb_exists; exists x; split; [apply Hin; now left|exact E]). congruence. }
          rewrite Ex, IHl; [reflexivity|]. intros y Hy. apply Hin. now right. }
        rewrite (K order) by auto. split; [|reflexivity]. symmetry. apply K. intros x Hx. unfold limited in Hx. destruct (_ <? _); [exact Hx|].
        rewrite <- (firstn_skipn (Z.to_nat (s_limit st r)) order). apply in_or_app. now left. }
    destruct Hlm as [Hlm Hmk].
    assert (HF' : Forall2 (tree_at st dk2 (d + 1)) (filter keep (limited (s_limit st r) order)) (filter (kept keep keep) (map (select keep keep) es0))).
    { apply Forall_app in IH. destruct IH as [IH _]. clear -HF IH. induction HF as [|c e cs es Hce HF IHF]; [constructor|]. inversion IH; subst.
      cbn [map filter]. rewrite select_kept.
      assert (E : kept keep keep e = keep c) by (destruct Hce; reflexivity). rewrite E.
      destruct (keep c) eqn:Ek; [constructor|]; auto. apply H1; [exact Hce|]. unfold keep in Ek. now apply negb_true_iff in Ek. }
    rewrite map_app, filter_app.
    assert (Hm0 : filter (kept keep keep) (map (select keep keep) (marker (s_limit st r) order r)) = marker (s_limit st r) order r) by (unfold marker; destruct (_ && _); reflexivity).
    rewrite Hm0, <- Hmk.
    apply tree_dir with (names := names') (order := filter keep order); auto.
    + unfold is_dir. now rewrite Hk1.
    + destruct Hord as [HP Hso]. split.
      * transitivity (filter keep (filter (accepts st dk1) (map (child r) names))); [|now apply filter_perm].
        rewrite filter_comm. rewrite (filter_map_child keep).
        transitivity (filter (accepts st dk2) (map (child r) (filter (fun n => keep (child r n)) names))).
        { apply filter_perm. apply Permutation_map. symmetry. exact HP'. }
        apply Permutation_refl'. apply filter_same. intros x Hx. apply in_map_iff in Hx. destruct Hx as (n & <- & Hn). apply filter_In in Hn.
        destruct Hn as [_ Hn]. unfold keep in Hn. apply negb_true_iff in Hn. destruct (Hdel _ Hn) as (E & _ & _).
        unfold accepts, is_dirb. now rewrite E.
      * intro Hct. apply filter_StronglySorted. now apply Hso.
    + rewrite Hlm. exact HF'.
  - apply tree_file; [unfold is_dir; now rewrite Hk1|now rewrite Ha1].
Qed.

Lemma C131_lemma : forall o p w1 w2 h out h' v dk1 dk2 st gone,
  steady w1 dk1 -> steady w2 dk2 -> w_jvm w1 = w_jvm w2 -> distinct_names dk2 ->
  uses w1 o st -> uses w2 o st -> sees w1 o v -> sees w2 o v -> configured_order (s_cmp st) -> roomy st gone dk1 ->
  deleted gone dk1 dk2 -> gone (location w1 p) = false ->
  pretty_print o p w1 h = (Ok out, h') ->
  exists e s s', tree_at st dk1 0 (location w1 p) e /\ shows v true e s /\ out = text (o_tree_format o) (labelled v s) /\
    shows v true (select (fun q => negb (gone q)) (fun q => negb (gone q)) e) s' /\
    forall h2, exists h2', pretty_print o p w2 h2 = (Ok (text (o_tree_format o) (labelled v s')), h2').
Proof.
  intros o p w1 w2 h out h' v dk1 dk2 st gone Hw1 Hw2 Hj Hd Hu1 Hu2 Hs1 Hs2 Hc Hl Hdel Hg H.
  assert (El : location w2 p = location w1 p) by (unfold location; now rewrite Hj).
  destruct (print_tree _ _ _ _ _ _ _ _ _ Hw1 Hu1 Hs1 H) as (e & s & Ht & Hsh & Ho).
  destruct (print_complete o p w2 dk2 st v (select (fun q => negb (gone q)) (fun q => negb (gone q)) e)) as (s' & Hs' & Hy); auto.
  - rewrite El. eapply print_named; eauto.
  - rewrite El. eapply tree_deleted_at; eauto.
  - exists e, s, s'. auto.
Qed.

(** ** The same directory elsewhere *)

Fixpoint mv (f : path -> path) (s : Z) (e : entry) : entry :=
  match e with
  | EDir p es => EDir (f p) (map (mv f s) es)
  | EFile p k => EFile (f p) k
  | ESkipped p => ESkipped (f p)
  | EMaxDepth n => EMaxDepth (n + s)
  end.

Fixpoint smv (f : path -> path) (s : shown) : shown :=
  match s with
  | SDir ps ks => SDir (map f ps) (map (smv f) ks)
  | SFile p k => SFile (f p) k
  | SDots => SDots
  end.

Lemma under_child r ns n : child (deeper r ns) n = deeper r (ns ++ [n]).
Proof. unfold child, deeper. cbn [p_abs p_names]. now rewrite app_assoc. Qed.

Lemma under_nil r : deeper r [] = r.
Proof. unfold deeper. rewrite app_nil_r. now destruct r. Qed.

Lemma map_filter A B (f : A -> B) (g : A -> bool) (g' : B -> bool) l : (forall a, In a l -> g a = g' (f a)) ->
  map f (filter g l) = filter g' (map f l).
Proof.
  induction l as [|a l IH]; intro H; simpl; [reflexivity|]. rewrite <- (H a (or_introl eq_refl)).
  destruct (g a); simpl; rewrite IH by (intros; apply H; now right); reflexivity.
Qed.

Lemma map_StronglySorted A B (f : A -> B) (R : A -> A -> Prop) (S : B -> B -> Prop) l :
  (forall a b, In a l -> In b l -> R a b -> S (f a) (f b)) -> StronglySorted R l -> StronglySorted S (map f l).
Proof.
  intros H HS. induction HS as [|x l Hl IH Hx]; simpl; constructor.
  - apply IH. intros; apply H; auto; now right.
  - apply Forall_forall. intros y Hy. apply in_map_iff in Hy. destruct Hy as (z & <- & Hz). rewrite Forall_forall in Hx.
    apply H; [now left|now right|auto].
Qed.

Section Move.
  Context (r1 r2 : path).
  Let f (p : path) : path := deeper r2 (skipn (length (p_names r1)) (p_names p)).

  Lemma move_under ns : f (deeper r1 ns) = deeper r2 ns.
  Proof. unfold f, deeper at 2. cbn [p_names]. rewrite skipn_app, skipn_all, Nat.sub_diag. reflexivity. Qed.

  Lemma tree_move st1 st2 dk1 dk2 s :
    same_content dk1 r1 dk2 r2 -> configured_order (s_cmp st1) -> same_settings dk1 st1 r1 st2 r2 ->
    s_depth st1 + s = s_depth st2 ->
    forall e ns d, listed dk1 r1 ns -> tree_at st1 dk1 d (deeper r1 ns) e -> tree_at st2 dk2 (d + s) (deeper r2 ns) (mv f s e).
  Proof.
    intros Hsc Hc (Hfl & Hlim & Hcmp) Hdep. induction e as [r es IH|g k|r|n] using entry_ind'; intros ns d Hns H;
      inversion H as [? ? k' Hnd Hk|? ? Hdir Hm|? ? names order es0 Hdir Hm Hli Hord HF]; subst;
      cbn [mv]; rewrite move_under; destruct (Hsc ns Hns) as (Hk1 & Hl1 & Ha1).
    - cbn [map mv]. apply tree_cut; [unfold is_dir in *; congruence|lia].
    - destruct (Hl1 Hdir names Hli) as (names2 & Hli2 & Hperm).
      assert (Hnn : forall n, In n names -> listed dk1 r1 (ns ++ [n])) by (intros; eapply listed_entry; eauto).
      assert (Hacc : forall n, In n names -> accepts st1 dk1 (deeper r1 (ns ++ [n])) = accepts st2 dk2 (f (deeper r1 (ns ++ [n])))).
      { intros n Hn. rewrite move_under. unfold accepts, is_dirb. destruct (Hsc (ns ++ [n]) (Hnn n Hn)) as (E & _). rewrite E.
        destruct (Hfl (ns ++ [n]) (Hnn n Hn)) as [E1 E2]; [now destruct ns|]. rewrite E1, E2. reflexivity. }
      assert (Hkid : forall c, In c order -> exists n, c = deeper r1 (ns ++ [n]) /\ listed dk1 r1 (ns ++ [n])).
      { intros c Hc'. destruct Hord as [Hp _]. apply (Permutation_in c (Permutation_sym Hp)) in Hc'.
        apply filter_In in Hc'. destruct Hc' as [Hc' _]. apply in_map_iff in Hc'. destruct Hc' as (n & <- & Hn).
        exists n. split; [apply under_child|auto]. }
      rewrite map_app.
      assert (Hmk : map (mv f s) (marker (s_limit st1 (deeper r1 ns)) order (deeper r1 ns)) =
                    marker (s_limit st2 (deeper r2 ns)) (map f order) (deeper r2 ns)).
      { unfold marker. rewrite map_length, (Hlim ns Hns). destruct (_ && _); [|reflexivity]. cbn [map mv]. now rewrite move_under. }
      rewrite Hmk. apply tree_dir with (names := names2).
      + unfold is_dir in *. congruence.
      + lia.
      + exact Hli2.
      + destruct Hord as [Hp Hso]. split.
        * rewrite <- Hp. rewrite map_filter with (g' := accepts st2 dk2).
          -- apply filter_perm. rewrite map_map.
             rewrite (map_ext (fun n => f (child (deeper r1 ns) n)) (child (deeper r2 ns))) by (intro n; rewrite !under_child; apply move_under).
             apply Permutation_map. now apply Permutation_sym.
          -- intros c Hin. apply in_map_iff in Hin. destruct Hin as (n & <- & Hn). rewrite under_child. now apply Hacc.
        * intros _. apply configured_contract in Hc. specialize (Hso Hc). revert Hso. apply map_StronglySorted.
          intros a b Hina Hinb Hab. destruct (Hkid a Hina) as (x & -> & Hx). destruct (Hkid b Hinb) as (y & -> & Hy).
          rewrite !move_under. specialize (Hcmp ns x y Hx Hy). lia.
      + assert (El : limited (s_limit st2 (deeper r2 ns)) (map f order) = map f (limited (s_limit st1 (deeper r1 ns)) order)).
        { rewrite <- (Hlim ns Hns). unfold limited. destruct (_ <? 0); [reflexivity|]. apply firstn_map. }
        rewrite El. apply Forall_app in IH. destruct IH as [IH _].
        assert (Hkid' : forall c, In c (limited (s_limit st1 (deeper r1 ns)) order) -> exists n, c = deeper r1 (ns ++ [n]) /\ listed dk1 r1 (ns ++ [n])).
        { intros c Hin. apply Hkid. unfold limited in Hin. destruct (_ <? 0); [exact Hin|]. rewrite <- (firstn_skipn (Z.to_nat (s_limit st1 (deeper r1 ns))) order). apply in_or_app. now left. }
        clear -HF IH Hkid'. induction HF as [|c e cs es Hce HF IHF]; [constructor|]. inversion IH as [|? ? IHe IHes]; subst.
        cbn [map]. constructor; [|apply IHF; auto; intros; apply Hkid'; now right].
        destruct (Hkid' c (or_introl eq_refl)) as (n & -> & Hn). rewrite move_under.
        replace (d + s + 1) with (d + 1 + s) by lia. now apply IHe.
    - apply tree_file; [unfold is_dir in *; congruence|auto].
  Qed.

  Section View.
    Context (dk1 : disk) (v1 v2 : view).
    Hypothesis Hv : same_view dk1 v1 r1 v2 r2.
    Hypothesis Hlast : last_name r1 = last_name r2.
    Let inner (p : path) : Prop := exists ns, listed dk1 r1 ns /\ p = deeper r1 ns.

    Lemma move_last p : inner p -> last_name (f p) = last_name p.
    Proof.
      intros (ns & _ & ->). rewrite move_under. unfold last_name, deeper in *. cbn [p_names].
      destruct ns as [|n ns] using rev_ind; [rewrite !app_nil_r; congruence|]. now rewrite !app_assoc, !last_last.
    Qed.

    Lemma move_ext p : inner p -> v_ext v2 (f p) = v_ext v1 p.
    Proof. intros (ns & Hns & ->). rewrite move_under. symmetry. destruct Hv as [_ H]. apply (H ns Hns). Qed.

    Lemma move_emoji p : inner p -> emoji_str v2 (f p) = emoji_str v1 p.
    Proof. intros (ns & Hns & ->). rewrite move_under. unfold emoji_str. destruct Hv as [_ H]. now rewrite (proj2 (H ns Hns)). Qed.

    Lemma move_mergeable s p es : inner p -> mergeable v2 (f p) (map (mv f s) es) <-> mergeable v1 p es.
    Proof.
      intro Hb. unfold mergeable. rewrite (move_ext p Hb). split; intros (He & c & E & Hd); (split; [exact He|]).
      - destruct es as [|x [|]]; try discriminate. cbn [map] in E. exists x. split; [reflexivity|].
        apply (f_equal (hd (EMaxDepth 0))) in E. cbn in E. subst c. now destruct x.
      - subst es. exists (mv f s c). split; [reflexivity|]. now destruct c.
    Qed.

    Lemma move_chain s e ds es : Forall inner (entry_paths e) -> chain_of v1 e ds es ->
      chain_of v2 (mv f s e) (map f ds) (map (mv f s) es).
    Proof.
      intros Hb H. induction H as [d es Hn|d c ds es Hm Hc IH]; cbn [mv map] in *.
      - constructor. rewrite move_mergeable; auto. now inversion Hb.
      - cbn [entry_paths flat_map] in Hb. inversion Hb as [|? ? Hd Hr]; subst. apply Forall_app in Hr. constructor.
        + apply (move_mergeable s d [c] Hd). exact Hm.
        + apply IH. tauto.
    Qed.

    Lemma chain_below e ds es : Forall inner (entry_paths e) -> chain_of v1 e ds es ->
      Forall inner ds /\ Forall inner (flat_map entry_paths es) /\ ds <> [].
    Proof.
      intros Hb H. induction H as [d es Hn|d c ds es Hm Hc IH]; cbn [entry_paths flat_map] in Hb; inversion Hb as [|? ? Hd Hr]; subst.
      - split; [auto|]. split; [exact Hr|discriminate].
      - rewrite app_nil_r in Hr. destruct (IH Hr) as (H1 & H2 & _). split; [auto|]. split; [exact H2|discriminate].
    Qed.

    Lemma Forall_flat_map A B (g : A -> list B) (Q : B -> Prop) l : Forall Q (flat_map g l) <-> Forall (fun a => Forall Q (g a)) l.
    Proof.
      induction l as [|a l IH]; simpl; [split; constructor|]. rewrite Forall_app, IH. split.
      - intros [H1 H2]. now constructor.
      - intro H. inversion H; auto.
    Qed.

    Lemma last_map A B (g : A -> B) l a b : l <> [] -> last (map g l) b = g (last l a).
    Proof.
      intro H. induction l as [|x [|y l] IH]; [congruence|reflexivity|]. cbn [map last] in *. apply IH. discriminate.
    Qed.

    Lemma last_in A (l : list A) a : l <> [] -> In (last l a) l.
    Proof. intro H. induction l as [|x [|y l] IH]; [congruence|now left|]. right. apply IH. discriminate. Qed.

    Lemma move_label ds ks ks' : Forall inner ds -> ds <> [] -> map (labelled v2) ks' = map (labelled v1) ks ->
      labelled v2 (SDir (map f ds) ks') = labelled v1 (SDir ds ks).
    Proof.
      intros Hb Hne Hk. cbn [labelled]. rewrite Hk. f_equal.
      rewrite (last_map _ _ f ds (mkPath true []) (mkPath true []) Hne).
      assert (Hl : inner (last ds (mkPath true []))) by (rewrite Forall_forall in Hb; apply Hb; now apply last_in).
      rewrite (move_emoji _ Hl), (move_ext _ Hl). f_equal. f_equal. rewrite map_map. f_equal.
      apply map_ext_in. intros p Hp. rewrite Forall_forall in Hb. now rewrite move_last by auto.
    Qed.

    Lemma move_shows z e : Forall inner (entry_paths e) -> forall top s, shows v1 top e s ->
      shows v2 top (mv f z e) (smv f s) /\ labelled v2 (smv f s) = labelled v1 s.
    Proof.
      induction e as [e IH] using entry_inside_ind. intros Hb top s H.
      assert (Hmap : forall es ks, (forall x, In x es -> inside e x) -> Forall inner (flat_map entry_paths es) ->
                Forall2 (shows v1 false) es ks ->
                Forall2 (shows v2 false) (map (mv f z) es) (map (smv f) ks) /\ map (labelled v2) (map (smv f) ks) = map (labelled v1) ks).
      { intros es ks Hin Hbe HF. induction HF as [|x k es ks Hxk HF IHF]; [split; constructor|].
        cbn [flat_map] in Hbe. apply Forall_app in Hbe. destruct Hbe as [Hbx Hbe].
        destruct IHF as [H1 H2]; auto; [intros; apply Hin; now right|].
        destruct (IH x (Hin x (or_introl eq_refl)) Hbx false k Hxk) as [H3 H4].
        cbn [map]. split; [now constructor|congruence]. }
      inversion H as [? g k| | |t d es ks Ht HF|e' ds es ks Hc Hch HF]; subst; cbn [mv smv].
      - split; [constructor|]. cbn [labelled entry_paths] in *. inversion Hb; subst.
        now rewrite move_emoji, move_last, move_ext by assumption.
      - split; [constructor|reflexivity].
      - split; [constructor|reflexivity].
      - cbn [entry_paths] in Hb. inversion Hb as [|? ? Hd Hr]; subst.
        destruct (Hmap es ks) as [H1 H2]; auto; [intros; now apply inside_child|].
        split; [|apply (move_label [d]); auto; discriminate].
        cbn [map]. apply shows_plain; [|exact H1]. destruct Hv as [<- _]. exact Ht.
      - destruct (chain_below _ _ _ Hb Hch) as (Hb1 & Hb2 & Hne).
        destruct (Hmap es ks) as [H1 H2]; auto; [intros; eapply chain_smaller; eauto|].
        split; [|now apply move_label].
        eapply shows_compact; [destruct Hv as [<- _]; exact Hc|apply move_chain; eauto|exact H1].
    Qed.
  End View.
End Move.

Lemma tree_below st dk d p e : tree_at st dk d p e -> Forall (below p) (entry_paths e).
Proof.
  intro H. apply Forall_forall. intros q Hq. apply (tree_paths_reach _ _ _ _ _ H) in Hq. destruct Hq as [d' Hr].
  eapply reach_below; eauto.
Qed.

Lemma reach_listed st dk d p d' q : reach st dk d p d' q -> exists ns, listed dk p ns /\ q = deeper p ns.
Proof.
  induction 1 as [|d' q names n Hr IH Hd Hlt Hl Hin Ha]; [exists []; split; [constructor|symmetry; apply under_nil]|].
  destruct IH as (ns & Hns & ->). exists (ns ++ [n]). split; [eapply listed_entry; eauto|apply under_child].
Qed.

Lemma tree_listed st dk d p e : tree_at st dk d p e -> Forall (fun q => exists ns, listed dk p ns /\ q = deeper p ns) (entry_paths e).
Proof.
  intro H. apply Forall_forall. intros q Hq. apply (tree_paths_reach _ _ _ _ _ H) in Hq. destruct Hq as [d' Hr].
  eapply reach_listed; eauto.
Qed.

(** ** C90 *)
Lemma refl_content dk r : same_content dk r dk r.
Proof. intros ns _. split; [reflexivity|]. split; [|auto]. intros _ l Hl. exists l. split; [exact Hl|apply Permutation_refl]. Qed.

Lemma refl_settings dk st r m : same_settings dk st r (set_depth m st) r.
Proof. repeat split. Qed.

Lemma refl_view dk v r : same_view dk v r v r.
Proof. split; [reflexivity|]. intros ns _. auto. Qed.

Lemma C90_lemma o p w h out h' v dk st :
  steady w dk -> distinct_names dk -> uses w o st -> sees w o v -> configured_order (s_cmp st) ->
  pretty_print o p w h = (Ok out, h') ->
  exists e s, tree_at st dk 0 (location w p) e /\ shows v true e s /\ out = text (o_tree_format o) (labelled v s) /\
    forall k q es q', at_depth k e (EDir q es) -> location w q' = q ->
    exists s', shows v true (EDir q es) s' /\
      forall h1, exists h1', pretty_print (with_max_depth (s_depth st - Z.of_nat k) o) q' w h1 =
                             (Ok (text (o_tree_format o) (labelled v s')), h1').
Proof.
  intros Hw Hd Hu Hs Hc H. destruct (print_tree _ _ _ _ _ _ _ _ _ Hw Hu Hs H) as (e & s & Ht & Hsh & Ho).
  exists e, s. split; [exact Ht|]. split; [exact Hsh|]. split; [exact Ho|].
  intros k q es q' Hat Hq. pose proof (tree_sub _ _ _ _ _ _ _ _ Ht Hat) as Hsub. rewrite Z.add_0_l in Hsub.
  set (m := s_depth st - Z.of_nat k).
  assert (Hst : exists s', shows v true (EDir q es) s') by (eexists; apply group_shows). destruct Hst as [s' Hs'].
  exists s'. split; [exact Hs'|].
  pose proof (tree_move q q st (set_depth m st) dk dk (- Z.of_nat k) (refl_content dk q) Hc (refl_settings dk st q m)) as Hmv.
  assert (Em : s_depth st + - Z.of_nat k = s_depth (set_depth m st)) by (cbn; unfold m; lia).
  specialize (Hmv Em (EDir q es) [] (Z.of_nat k) (listed_start dk q)). rewrite under_nil in Hmv. specialize (Hmv Hsub).
  rewrite Z.add_opp_diag_r in Hmv.
  destruct (print_complete (with_max_depth m o) q' w dk (set_depth m st) v
              (mv (fun p => deeper q (skipn (length (p_names q)) (p_names p))) (- Z.of_nat k) (EDir q es))) as (s2 & Hs2 & Hy); auto.
  - now apply uses_depth.
  - rewrite Hq. assert (Hn : p_names (location w p) <> []) by (eapply print_named; eauto).
    apply tree_below in Ht. rewrite Forall_forall in Ht.
    assert (Hin : In q (entry_paths e)).
    { clear -Hat. remember (EDir q es) as x. induction Hat as [|k d es' c x Hin Hat IH]; subst; [now left|].
      right. apply in_flat_map. exists c. auto. }
    destruct (Ht q Hin) as [ns ->]. cbn [p_names]. intro E. apply app_eq_nil in E. tauto.
  - now rewrite Hq.
  - destruct (move_shows q q dk v v (refl_view dk v q) eq_refl (- Z.of_nat k) (EDir q es) (tree_listed _ _ _ _ _ Hsub) true s' Hs') as [Hm El].
    rewrite (shows_fun _ _ _ _ _ Hs2 Hm), El in Hy. exact Hy.
Qed.

(** ** C91 *)
Lemma C91_lemma o1 o2 p1 p2 w1 w2 h out h' v1 v2 dk1 dk2 st1 st2 :
  steady w1 dk1 -> steady w2 dk2 -> distinct_names dk2 ->
  uses w1 o1 st1 -> uses w2 o2 st2 -> sees w1 o1 v1 -> sees w2 o2 v2 ->
  configured_order (s_cmp st1) -> configured_order (s_cmp st2) ->
  o_tree_format o1 = o_tree_format o2 ->
  same_content dk1 (location w1 p1) dk2 (location w2 p2) ->
  same_settings dk1 st1 (location w1 p1) st2 (location w2 p2) -> s_depth st1 = s_depth st2 ->
  same_view dk1 v1 (location w1 p1) v2 (location w2 p2) ->
  p_names (location w2 p2) <> [] -> last_name (location w1 p1) = last_name (location w2 p2) ->
  pretty_print o1 p1 w1 h = (Ok out, h') ->
  forall h2, exists h2', pretty_print o2 p2 w2 h2 = (Ok out, h2').
Proof.
  intros Hw1 Hw2 Hd Hu1 Hu2 Hs1 Hs2 Hc1 Hc2 Etf Hcon Hset Hdep Hv Hne Hln H.
  destruct (print_tree _ _ _ _ _ _ _ _ _ Hw1 Hu1 Hs1 H) as (e & s & Ht & Hsh & ->).
  set (r1 := location w1 p1) in *. set (r2 := location w2 p2) in *.
  pose proof (tree_move r1 r2 st1 st2 dk1 dk2 0 Hcon Hc1 Hset) as Hmv. rewrite Z.add_0_r in Hmv.
  specialize (Hmv Hdep e [] 0 (listed_start dk1 r1)). rewrite !under_nil in Hmv. specialize (Hmv Ht). cbn [Z.add] in Hmv.
  destruct (print_complete o2 p2 w2 dk2 st2 v2 _ Hw2 Hd Hu2 Hs2 Hc2 Hne Hmv) as (s2 & Hsh2 & Hy).
  destruct (move_shows r1 r2 dk1 v1 v2 Hv Hln 0 e (tree_listed _ _ _ _ _ Ht) true s Hsh) as [Hm El].
  rewrite (shows_fun _ _ _ _ _ Hsh2 Hm), El, <- Etf in Hy. exact Hy.
Qed.
