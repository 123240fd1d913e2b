(** * Proofs about what the functions in the options are asked about *)

From Verif Require Import SpecAsked TimFacts SortFacts RenderFacts PathFacts TreeFacts ScanFacts PrintFacts LiveFacts.
Open Scope Z_scope.

Section Asked.
  Context (w : world) (root : path) (o o' : options).
  Hypothesis Hag : agree_where_asked w root o o'.
  Notation n := (o_max_depth o).
  Notation sbs := (side_by_side w root n).
  Notation acc := (accepted w o).

  Lemma run_sorting_same from V P s : holds (fun _ _ _ => True) from V P s -> (forall a b, In a from -> In b from -> sbs a b /\ acc a /\ acc b) ->
    forall h, run_sorting (o_comparator o') s w h = run_sorting (o_comparator o) s w h.
  Proof.
    destruct Hag as (_ & _ & _ & _ & _ & Hc & _). intros H Hf. induction s as [l| | |a b k IH]; intro h; cbn [run_sorting holds] in *; try reflexivity.
    destruct H as (Ha & Hb & Hk). apply bind_ext; [destruct (Hf a b Ha Hb) as (? & ? & ?); now apply Hc|]. intros z h'. apply IH, Hk, I.
  Qed.

  Lemma filter_same q h : sbs q q -> path_filter o' q w h = path_filter o q w h.
  Proof.
    destruct Hag as (_ & _ & _ & Hd & Hf & _). intro Hq. unfold path_filter, pm_if_then_else, pm_is_directory, has_kind, bind, lstat, ret.
    destruct (w_lstat w h q) as [k|] eqn:E; [destruct k|]; first [now apply Hd|apply Hf; [exact Hq|exact E|discriminate]].
  Qed.

  Lemma filterM_same l : (forall q, In q l -> sbs q q) -> forall h, filterM (path_filter o') l w h = filterM (path_filter o) l w h.
  Proof.
    induction l as [|q l IH]; intros H h; [reflexivity|]. cbn [filterM]. apply bind_ext; [apply filter_same, H; now left|].
    intros b h1. apply bind_ext; [apply IH; intros; apply H; now right|]. reflexivity.
  Qed.

  Lemma filter_accepts q h h' : path_filter o q w h = (Ok true, h') -> acc q.
  Proof.
    unfold path_filter, pm_if_then_else, pm_is_directory, has_kind, bind, lstat, ret. intro H. exists h, (w_lstat w h q). split; [reflexivity|].
    destruct (w_lstat w h q) as [[]|]; cbn in H; now rewrite H.
  Qed.

  Lemma filterM_accepts : forall l h r h', filterM (path_filter o) l w h = (Ok r, h') -> forall q, In q r -> acc q.
  Proof.
    induction l as [|x l IH]; intros h r h' H; [injection H as <- _; intros ? []|].
    cbn [filterM] in H. apply bind_ok in H. destruct H as (b' & h1 & Hb & H). apply bind_ok in H. destruct H as (r' & h2 & Hr & H).
    injection H as <- _. specialize (IH _ _ _ Hr). destruct b'; intros y Hy; [destruct Hy as [<-|Hy]; [eapply filter_accepts; eauto|now apply IH]|now apply IH].
  Qed.

  Lemma filterM_sub (f : matcher) : forall l h r h', filterM f l w h = (Ok r, h') -> incl r l.
  Proof.
    induction l as [|x l IH]; intros h r h' H; [injection H as <- _; intros ? []|].
    cbn [filterM] in H. apply bind_ok in H. destruct H as (b' & h1 & _ & H). apply bind_ok in H. destruct H as (r' & h2 & Hr & H).
    injection H as <- _. specialize (IH _ _ _ Hr). destruct b'; intros y Hy; [destruct Hy as [<-|Hy]; [now left|right; now apply IH]|right; now apply IH].
  Qed.

  Lemma bind_same {A B} (m m' : M A) (f f' : A -> M B) h : m' w h = m w h -> (forall a h', m w h = (Ok a, h') -> f' a w h' = f a w h') ->
    bind m' f' w h = bind m f w h.
  Proof. intros E H. unfold bind. rewrite E. destruct (m w h) as [[a|x] h'] eqn:Em; [now apply H|reflexivity]. Qed.

  Lemma within_child d x h dl ns : d = deeper root ns -> Z.of_nat (length ns) < n -> w_open w h d = Some dl -> In x (dl_names dl) ->
    child d x = deeper root (ns ++ [x]) /\ sbs (child d x) (child d x) /\ forall y, In y (dl_names dl) -> sbs (child d x) (child d y).
  Proof.
    intros -> Hn Ho Hx. split; [unfold child, deeper; cbn; now rewrite app_assoc|].
    assert (G : forall y, In y (dl_names dl) -> sbs (child (deeper root ns) x) (child (deeper root ns) y)).
    { intros y Hy. exists (deeper root ns), h, dl, x, y. repeat split; auto. exists ns. split; [reflexivity|lia]. }
    split; [now apply G|exact G].
  Qed.

  Lemma handle_same fuel : forall d p h ns, p = deeper root ns -> d = Z.of_nat (length ns) -> p = root \/ acc p ->
    handle fuel o' d p (path_filter o') w h = handle fuel o d p (path_filter o) w h /\
    forall e h', handle fuel o d p (path_filter o) w h = (Ok (Some e), h') -> forall q, In q (entry_paths e) -> q = p \/ (sbs q q /\ acc q).
  Proof.
    destruct Hag as (Hn & _ & _ & _ & _ & Hc & Hl & _).
    assert (Hcut : forall d p h e h' q, (x <- new_max_depth_entry d; ret (Some (EDir p [x]))) w h = (Ok (Some e), h') -> In q (entry_paths e) -> q = p).
    { intros d p h e h' q H Hq. unfold new_max_depth_entry in H. destruct (d <? 0)%Z; [discriminate|]. injection H as <- _. now destruct Hq as [<-|[]]. }
    assert (Hfile : forall p h e h' q, handle_file p w h = (Ok (Some e), h') -> In q (entry_paths e) -> q = p).
    { intros p h e h' q H Hq. unfold handle_file in H. apply bind_ok in H. destruct H as (k & h1 & _ & H). destruct k; [|discriminate].
      injection H as <- _. now destruct Hq as [<-|[]]. }
    induction fuel as [|fuel IH]; intros d p h ns Hp Hd Hpa; cbn [handle]; rewrite Hn.
    - split; [apply bind_same; [reflexivity|]; intros [|] h1 _; [|reflexivity]; destruct (n <=? d); reflexivity|].
      intros e h' H q Hq. left. apply bind_ok in H. destruct H as ([|] & h1 & _ & H); [|eapply Hfile; eauto]. destruct (n <=? d); [eapply Hcut; eauto|discriminate].
    - assert (Hbody : forall h1 dl, n <=? d = false -> w_open w h1 p = Some dl ->
        handle_directory_children o' (fun c => handle fuel o' (d + 1) c (path_filter o')) p dl (path_filter o') w (EvOpen p :: h1) =
        handle_directory_children o (fun c => handle fuel o (d + 1) c (path_filter o)) p dl (path_filter o) w (EvOpen p :: h1) /\
        forall es h', handle_directory_children o (fun c => handle fuel o (d + 1) c (path_filter o)) p dl (path_filter o) w (EvOpen p :: h1) = (Ok es, h') ->
          forall q, In q (flat_map entry_paths es) -> sbs q q /\ acc q).
      { intros h1 dl Hlt Ho. apply Z.leb_gt in Hlt. unfold handle_directory_children.
        assert (Hch : forall x, In x (dl_names dl) -> child p x = deeper root (ns ++ [x]) /\ sbs (child p x) (child p x) /\ forall y, In y (dl_names dl) -> sbs (child p x) (child p y)).
        { intros x Hx. eapply within_child; eauto. lia. }
        assert (Hin : forall q, In q (map (resolve_name p) (dl_names dl)) -> exists x, In x (dl_names dl) /\ q = child p x).
        { intros q Hq. apply in_map_iff in Hq. destruct Hq as (x & <- & Hx). now exists x. }
        assert (Hst : forall h2, stream_paths p dl (path_filter o') w h2 = stream_paths p dl (path_filter o) w h2).
        { intro h2. unfold stream_paths. apply bind_same; [|reflexivity]. apply filterM_same. intros q Hq. destruct (Hin q Hq) as (x & Hx & ->). now apply Hch. }
        assert (Hsub : forall h2 un h3, stream_paths p dl (path_filter o) w h2 = (Ok un, h3) -> incl un (map (resolve_name p) (dl_names dl)) /\ forall q, In q un -> acc q).
        { intros h2 un h3 E. unfold stream_paths in E. apply bind_ok in E. destruct E as (l & h4 & E1 & E2). destruct (dl_fail dl); [discriminate|].
          injection E2 as <- _. split; [eapply filterM_sub; eauto|eapply filterM_accepts; eauto]. }
        assert (Hloop : forall it, incl it (map (resolve_name p) (dl_names dl)) -> (forall q, In q it -> acc q) -> forall hl mc count ac h2,
          children_loop (fun c => handle fuel o' (d + 1) c (path_filter o')) hl mc count ac it w h2 =
          children_loop (fun c => handle fuel o (d + 1) c (path_filter o)) hl mc count ac it w h2 /\
          forall es rest h3, children_loop (fun c => handle fuel o (d + 1) c (path_filter o)) hl mc count ac it w h2 = (Ok (es, rest), h3) ->
            forall q, In q (flat_map entry_paths es) -> In q (flat_map entry_paths ac) \/ (sbs q q /\ acc q)).
        { induction it as [|c it IHit]; intros Hit Hia hl mc count ac h2; cbn [children_loop].
          - split; [reflexivity|]. intros es rest h3 E q Hq. injection E as <- _ _. now left.
          - destruct (hl && (mc <? count + 1)); [split; [reflexivity|]; intros es rest h3 E q Hq; injection E as <- _ _; now left|].
            destruct (Hin c (Hit c (or_introl eq_refl))) as (x & Hx & Ec). destruct (Hch x Hx) as (E1 & E2 & _).
            destruct (IH (d + 1) c h2 (ns ++ [x])) as [S1 S2]; [now rewrite Ec|rewrite app_length; cbn; lia|right; apply Hia; now left|].
            assert (Hit' : incl it (map (resolve_name p) (dl_names dl))) by (intros y Hy; apply Hit; now right).
            assert (Hia' : forall q, In q it -> acc q) by (intros y Hy; apply Hia; now right).
            split; [apply bind_same; [exact S1|]; intros [e|] h3 _; now apply IHit|].
            intros es rest h3 E q Hq. apply bind_ok in E. destruct E as (e & h4 & Ee & E). destruct e as [e|].
            + destruct (proj2 (IHit Hit' Hia' hl mc (count + 1) (ac ++ [e]) h4) _ _ _ E q Hq) as [Hq'|Hq']; [|now right].
              rewrite flat_map_app in Hq'. apply in_app_or in Hq'. destruct Hq' as [Hq'|Hq']; [now left|]. right. cbn in Hq'. rewrite app_nil_r in Hq'.
              destruct (S2 e h4 Ee q Hq') as [->|Hs]; [split; [now rewrite Ec|apply Hia; now left]|exact Hs].
            + exact (proj2 (IHit Hit' Hia' hl mc (count + 1 - 1) ac h4) _ _ _ E q Hq). }
        assert (Hsame : forall un, incl un (map (resolve_name p) (dl_names dl)) -> (forall q, In q un -> acc q) -> forall h2, sorted (o_comparator o') un w h2 = sorted (o_comparator o) un w h2).
        { intros un Hun Hua h2. unfold sorted. eapply run_sorting_same; [apply tim_sort_holds|]. intros a b Ha Hb. split; [|split; now apply Hua].
          destruct (Hin a (Hun a Ha)) as (x & Hx & ->). destruct (Hin b (Hun b Hb)) as (y & Hy & ->). now apply (Hch x Hx). }
        split.
        - apply bind_same; [eapply Hl; [exists ns; split; [exact Hp|lia]|exact Hpa|exact Ho]|]. intros mc h2 _. apply bind_same; [apply Hst|]. intros un h3 Eun. apply Hsub in Eun. destruct Eun as [Eun Ea].
          apply bind_same; [now apply Hsame|]. intros it h4 Eit. apply sorted_perm in Eit. apply bind_same; [|reflexivity]. assert (Hi : incl it un) by (intros y Hy; eapply Permutation.Permutation_in; [apply Permutation.Permutation_sym; exact Eit|exact Hy]).
          apply Hloop; intros y Hy; [apply Eun|apply Ea]; now apply Hi.
        - intros es h' E q Hq. apply bind_ok in E. destruct E as (mc & h2 & _ & E). apply bind_ok in E. destruct E as (un & h3 & Eun & E). apply Hsub in Eun. destruct Eun as [Eun Ea].
          apply bind_ok in E. destruct E as (it & h4 & Eit & E). apply sorted_perm in Eit. apply bind_ok in E. destruct E as ([es1 rest] & h5 & Elo & E).
          injection E as <- _. rewrite flat_map_app in Hq. apply in_app_or in Hq. destruct Hq as [Hq|Hq]; [|destruct rest; destruct Hq].
          assert (Hi : incl it un) by (intros y Hy; eapply Permutation.Permutation_in; [apply Permutation.Permutation_sym; exact Eit|exact Hy]).
          destruct (proj2 (Hloop it (fun y Hy => Eun y (Hi y Hy)) (fun y Hy => Ea y (Hi y Hy)) _ _ _ _ _) _ _ _ Elo q Hq) as [[]|Hs]. exact Hs. }
      split.
      + apply bind_same; [reflexivity|]. intros [|] h1 _; [|reflexivity]. destruct (n <=? d) eqn:Hlt; [reflexivity|]. apply bind_same; [reflexivity|].
        intros [dl|] h2 Eo; [|reflexivity]. unfold open_dir in Eo. destruct (w_open w h1 p) as [dl'|] eqn:Ho; [|discriminate]. injection Eo as <- <-.
        apply bind_same; [|reflexivity]. unfold with_close. rewrite (proj1 (Hbody h1 dl' eq_refl Ho)). reflexivity.
      + intros e h' E q Hq. apply bind_ok in E. destruct E as ([|] & h1 & _ & E); [|left; eapply Hfile; eauto].
        destruct (n <=? d) eqn:Hlt; [left; eapply Hcut; eauto|]. apply bind_ok in E. destruct E as ([dl|] & h2 & Eo & E); [|discriminate].
        unfold open_dir in Eo. destruct (w_open w h1 p) as [dl'|] eqn:Ho; [|discriminate]. injection Eo as <- <-.
        apply bind_ok in E. destruct E as (es & h3 & Ew & E). injection E as <- _. destruct Hq as [<-|Hq]; [now left|]. right.
        unfold with_close in Ew. destruct (handle_directory_children _ _ _ _ _ w _) as [[es'|x] h4] eqn:Hb; unfold close_dir in Ew; [|discriminate].
        destruct (w_close_ok w h4 p); [|discriminate]. injection Ew as -> _. eapply (proj2 (Hbody h1 dl' eq_refl Ho)); eauto.
  Qed.

  Lemma render_same e : (forall q, In q (entry_paths e) -> q = root \/ (sbs q q /\ acc q)) ->
    forall d cp h, render_entry o' (line_renderer_create o') e d cp w h = render_entry o (line_renderer_create o) e d cp w h.
  Proof.
    destruct Hag as (_ & Hf & Hcm & _ & _ & _ & _ & He & Hx).
    assert (Hemo : forall q h, q = root \/ (sbs q q /\ acc q) -> emoji_prefix (o_emoji o') q w h = emoji_prefix (o_emoji o) q w h).
    { intros q h Hq. unfold emoji_prefix. apply bind_same; [now apply He|reflexivity]. }
    assert (Hext : forall q h, q = root \/ (sbs q q /\ acc q) -> compute_line_extension o' q w h = compute_line_extension o q w h).
    { intros q h Hq. unfold compute_line_extension. destruct (o_line_extension o), (o_line_extension o'); [now apply Hx|destruct Hx|destruct Hx|reflexivity]. }
    unfold line_renderer_create. rewrite Hf.
    induction e as [dir es IH|f k|dd|z] using entry_ind'; intros Hq d cp h; cbn [render_entry]; try reflexivity.
    - assert (Hdir : dir = root \/ (sbs dir dir /\ acc dir)) by (apply Hq; now left).
      assert (IH' : Forall (fun e => forall d cp h, render_entry o' (mkLineRenderer (o_tree_format o) (o_emoji o')) e d cp w h =
        render_entry o (mkLineRenderer (o_tree_format o) (o_emoji o)) e d cp w h) es).
      { rewrite Forall_forall in *. intros c Hc. apply IH; [exact Hc|]. intros q Hin. apply Hq. right. apply in_flat_map. eauto. }
      assert (Hfin : forall (ev : option (option jstring)) h0,
        (line <- render_directory_begin (mkLineRenderer (o_tree_format o) (o_emoji o')) d dir cp;
         ext <- match ev with Some x => ret x | None => compute_line_extension o' dir end;
         (let line := line ++ or_empty ext in
          let line := match es with [] => line | _ => line ++ [c_nl] end in
          children <- render_children (fun c cd => render_entry o' (mkLineRenderer (o_tree_format o) (o_emoji o')) c cd (initial_compact_paths c)) d es;
          ret (line ++ children))) w h0 =
        (line <- render_directory_begin (mkLineRenderer (o_tree_format o) (o_emoji o)) d dir cp;
         ext <- match ev with Some x => ret x | None => compute_line_extension o dir end;
         (let line := line ++ or_empty ext in
          let line := match es with [] => line | _ => line ++ [c_nl] end in
          children <- render_children (fun c cd => render_entry o (mkLineRenderer (o_tree_format o) (o_emoji o)) c cd (initial_compact_paths c)) d es;
          ret (line ++ children))) w h0).
      { intros ev h0. apply bind_same; [unfold render_directory_begin; cbn [lr_emoji]; apply bind_same; [now apply Hemo|reflexivity]|]. intros line h1 _.
        apply bind_same; [destruct ev; [reflexivity|now apply Hext]|]. intros ext h2 _. cbn zeta. apply bind_same; [|reflexivity].
        apply render_children_ext. eapply Forall_impl; [|exact IH']. intros c Hc d' h'. apply Hc. }
      rewrite Hcm. destruct es as [|c es]; [apply (Hfin None)|].
      destruct es as [|c' es]; [|destruct c; apply (Hfin None)].
      destruct c as [cd ces|f k|sd|z]; try apply (Hfin None).
      destruct (o_compact o && negb (depth_is_root d)); [|apply (Hfin None)].
      apply bind_same; [now apply Hext|]. intros [x|] h1 _; [apply (Hfin (Some (Some x)))|].
      inversion IH' as [|a b Hc _]; subst. apply Hc.
    - assert (Hfi : f = root \/ (sbs f f /\ acc f)) by (apply Hq; now left). unfold render_file, render_file_line. cbn [lr_emoji lr_tree_format].
      apply bind_same; [apply bind_same; [now apply Hemo|reflexivity]|]. intros. apply bind_same; [now apply Hext|reflexivity].
  Qed.
End Asked.

Lemma asked_only w o o' p h : agree_where_asked w (location w p) o o' -> pretty_print o' p w h = pretty_print o p w h.
Proof.
  intro H. rewrite !scan_unfold. assert (Hn : o_max_depth o' = o_max_depth o) by apply H. rewrite Hn.
  destruct (handle_same w (location w p) o o' H (Z.to_nat (o_max_depth o)) 0 (location w p) h []) as [S1 S2].
  { unfold deeper. rewrite app_nil_r. now destruct (location w p). }
  { reflexivity. }
  { now left. }
  apply bind_same; [exact S1|]. intros [e|] h' E; [|reflexivity]. unfold render_tree. apply (render_same w (location w p) o o' H).
  exact (S2 e h' E).
Qed.
