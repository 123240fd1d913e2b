(** * Proofs about options that change while a printer runs *)

From Verif Require Import SpecLive RenderFacts SortFacts ScanFacts PathFacts TreeFacts TraceFacts PrintFacts ShownFacts RunFacts ScanPrintFacts SeenFacts.
Open Scope Z_scope.

Lemma bind_now B cur (f : options -> M B) w h : bind (now cur) f w h = f (cur h) w h.
Proof. reflexivity. Qed.

Lemma live_handle_not_none fuel cur d p flt w h h' : live_handle fuel cur d p flt w h <> (Ok None, h').
Proof.
  intro H. destruct fuel as [|fuel]; cbn [live_handle] in H; apply bind_ok in H; destruct H as (b & h1 & _ & H);
    (destruct b;
     [rewrite bind_now in H; destruct (o_max_depth (cur h1) <=? d);
      [apply bind_ok in H; destruct H as (x & h2 & _ & H); discriminate|]
     |unfold handle_file in H; apply bind_ok in H; destruct H as (a & h2 & _ & H); destruct a; discriminate]).
  - discriminate.
  - apply bind_ok in H. destruct H as (dl & h2 & _ & H). destruct dl; [|discriminate].
    apply bind_ok in H. destruct H as (es & h3 & _ & H). discriminate.
Qed.

Lemma live_unfold n cur lr p w h :
  live_print n cur lr p w h =
  bind (live_handle n cur 0 (location w p) (path_filter (cur h)))
       (fun r => match r with
                 | Some e => live_render_tree cur lr e
                 | None => throw ExNullPointer
                 end) w h.
Proof.
  unfold live_print, live_scan, clean_path. unfold bind at 1. cbn [get_jvm].
  unfold bind. cbn. fold (location w p).
  replace (to_absolute (jv_cwd (w_jvm w)) (normalize (location w p))) with (location w p)
    by (unfold location; now rewrite clean_of_clean).
  destruct (live_handle _ _ _ _ _ _ _) as [[[e|]|x] h1]; reflexivity.
Qed.

(** ** Two courses that agree *)
Lemma hdc_ext o1 o2 (g1 g2 : path -> M (option entry)) p dl flt w :
  o_child_limit o1 = o_child_limit o2 -> o_comparator o1 = o_comparator o2 -> (forall c h, g1 c w h = g2 c w h) ->
  forall h, handle_directory_children o1 g1 p dl flt w h = handle_directory_children o2 g2 p dl flt w h.
Proof.
  intros Hl Hc Hg h. unfold handle_directory_children. rewrite Hl, Hc. apply bind_ext; [reflexivity|]. intros mc h4.
  apply bind_ext; [reflexivity|]. intros l h5. apply bind_ext; [reflexivity|]. intros it h6.
  apply bind_ext; [|reflexivity]. now apply children_loop_ext.
Qed.

Lemma live_handle_alike cur1 cur2 flt w : (forall h, o_child_limit (cur1 h) = o_child_limit (cur2 h) /\
    o_max_depth (cur1 h) = o_max_depth (cur2 h) /\ o_comparator (cur1 h) = o_comparator (cur2 h)) ->
  forall fuel d p h, live_handle fuel cur1 d p flt w h = live_handle fuel cur2 d p flt w h.
Proof.
  intro H. induction fuel as [|fuel IH]; intros d p h; cbn [live_handle]; apply bind_ext; try reflexivity;
    intros [|] h'; try reflexivity; rewrite !bind_now; destruct (H h') as (_ & -> & _); destruct (o_max_depth (cur2 h') <=? d); try reflexivity.
  apply bind_ext; [reflexivity|]. intros [dl|] h2; [|reflexivity].
  apply bind_ext; [|reflexivity]. unfold with_close. rewrite !bind_now. destruct (H h2) as (Hl & _ & Hc).
  erewrite hdc_ext; [reflexivity|exact Hl|exact Hc|]. intros c h3. apply IH.
Qed.

Lemma render_children_ext (f g : entry -> depth -> M jstring) w es : Forall (fun c => forall d h, f c d w h = g c d w h) es ->
  forall d h, render_children f d es w h = render_children g d es w h.
Proof.
  intro H. induction H as [|c es Hc Hes IH]; intros d h; [reflexivity|].
  destruct es as [|c' es]; [apply Hc|]. cbn [render_children] in *. apply bind_ext; [apply Hc|]. intros a h1. apply bind_ext; [apply IH|]. reflexivity.
Qed.

Lemma live_render_ext cur1 cur2 lr w : (forall h, o_compact (cur1 h) = o_compact (cur2 h)) ->
  (forall p h, live_line_extension cur1 p w h = live_line_extension cur2 p w h) ->
  forall e d cp h, live_render_entry cur1 lr e d cp w h = live_render_entry cur2 lr e d cp w h.
Proof.
  intros H Hx.
  induction e as [dir es IH|f k|dd|n] using entry_ind'; intros d cp h; cbn [live_render_entry]; try reflexivity.
  - assert (Hfin : forall (ev : option (option jstring)) h0,
        (line <- render_directory_begin lr d dir cp;
         ext <- match ev with Some x => ret x | None => live_line_extension cur1 dir end;
         (let line := line ++ or_empty ext in
          let line := match es with [] => line | _ => line ++ [c_nl] end in
          children <- render_children (fun c cd => live_render_entry cur1 lr c cd (initial_compact_paths c)) d es;
          ret (line ++ children))) w h0 =
        (line <- render_directory_begin lr d dir cp;
         ext <- match ev with Some x => ret x | None => live_line_extension cur2 dir end;
         (let line := line ++ or_empty ext in
          let line := match es with [] => line | _ => line ++ [c_nl] end in
          children <- render_children (fun c cd => live_render_entry cur2 lr c cd (initial_compact_paths c)) d es;
          ret (line ++ children))) w h0).
    { intros ev h0. apply bind_ext; [reflexivity|]. intros line h1. apply bind_ext; [destruct ev; [reflexivity|apply Hx]|].
      intros ext h2. cbn zeta. apply bind_ext; [|reflexivity]. apply render_children_ext. eapply Forall_impl; [|exact IH]. cbn. auto. }
    rewrite !bind_now.
    destruct es as [|c es]; [apply (Hfin None)|].
    destruct es as [|c' es]; [|destruct c; apply (Hfin None)].
    destruct c as [cd ces|f k|sd|n]; try apply (Hfin None). rewrite (H h).
    destruct (o_compact (cur2 h) && negb (depth_is_root d)); [|apply (Hfin None)].
    apply bind_ext; [apply Hx|]. intros [x|] h1; [apply (Hfin (Some (Some x)))|].
    inversion IH as [|a b Hc _]; subst. apply Hc.
  - unfold live_render_file. apply bind_ext; [reflexivity|]. intros a h1. apply bind_ext; [apply Hx|reflexivity].
Qed.

Lemma live_alike_lemma : forall n cur1 cur2 lr p w h, read_alike h cur1 cur2 -> live_print n cur1 lr p w h = live_print n cur2 lr p w h.
Proof.
  intros n cur1 cur2 lr p w h (Hd & Hf & H). rewrite !live_unfold.
  replace (path_filter (cur1 h)) with (path_filter (cur2 h)) by (unfold path_filter; now rewrite Hd, Hf).
  apply bind_ext. { apply live_handle_alike. intro h1. destruct (H h1) as (? & ? & ? & ? & ?). auto. }
  intros [e|] h1; [|reflexivity]. apply live_render_ext.
  - intro h2. now destruct (H h2) as (_ & -> & _).
  - intros q h2. unfold live_line_extension. rewrite !bind_now. unfold compute_line_extension. now destruct (H h2) as (_ & _ & _ & _ & ->).
Qed.

(** ** Options that stay *)
Lemma live_handle_const o flt w : forall n m d p h, 0 <= d -> (Z.to_nat (o_max_depth o - d) <= n)%nat -> (Z.to_nat (o_max_depth o - d) <= m)%nat ->
  live_handle n (fun _ => o) d p flt w h = handle m o d p flt w h.
Proof.
  induction n as [|n IH]; intros m d p h Hd Hn Hm; destruct m as [|m]; cbn [live_handle handle]; apply bind_ext; try reflexivity;
    intros [|] h'; try reflexivity; rewrite bind_now; destruct (Z.leb_spec (o_max_depth o) d); try reflexivity; try lia.
  apply bind_ext; [reflexivity|]. intros [dl|] h2; [|reflexivity].
  apply bind_ext; [|reflexivity]. unfold with_close. rewrite bind_now.
  erewrite hdc_ext; [reflexivity|reflexivity|reflexivity|]. intros c h3. apply IH; lia.
Qed.

Lemma live_render_const o lr w : forall e d cp h, live_render_entry (fun _ => o) lr e d cp w h = render_entry o lr e d cp w h.
Proof.
  assert (Hx : forall p h, live_line_extension (fun _ => o) p w h = compute_line_extension o p w h) by reflexivity.
  induction e as [dir es IH|f k|dd|n] using entry_ind'; intros d cp h; cbn [live_render_entry render_entry]; try reflexivity.
  assert (Hfin : forall (ev : option (option jstring)) h0,
        (line <- render_directory_begin lr d dir cp;
         ext <- match ev with Some x => ret x | None => live_line_extension (fun _ => o) dir end;
         (let line := line ++ or_empty ext in
          let line := match es with [] => line | _ => line ++ [c_nl] end in
          children <- render_children (fun c cd => live_render_entry (fun _ => o) lr c cd (initial_compact_paths c)) d es;
          ret (line ++ children))) w h0 =
        (line <- render_directory_begin lr d dir cp;
         ext <- match ev with Some x => ret x | None => compute_line_extension o dir end;
         (let line := line ++ or_empty ext in
          let line := match es with [] => line | _ => line ++ [c_nl] end in
          children <- render_children (fun c cd => render_entry o lr c cd (initial_compact_paths c)) d es;
          ret (line ++ children))) w h0).
  { intros ev h0. apply bind_ext; [reflexivity|]. intros line h1. apply bind_ext; [destruct ev; reflexivity|].
    intros ext h2. cbn zeta. apply bind_ext; [|reflexivity]. apply render_children_ext. eapply Forall_impl; [|exact IH]. cbn. auto. }
  rewrite bind_now.
  destruct es as [|c es]; [apply (Hfin None)|].
  destruct es as [|c' es]; [|destruct c; apply (Hfin None)].
  destruct c as [cd ces|f k|sd|n]; try apply (Hfin None).
  destruct (o_compact o && negb (depth_is_root d)); [|apply (Hfin None)].
  apply bind_ext; [apply Hx|]. intros [x|] h1; [apply (Hfin (Some (Some x)))|].
  inversion IH as [|a b Hc _]; subst. apply Hc.
Qed.

Lemma print_with_unfold o lr p w h :
  pretty_print_with o lr p w h =
  bind (handle (Z.to_nat (o_max_depth o)) o 0 (location w p) (path_filter o))
       (fun r => match r with
                 | Some e => render_tree o lr e
                 | None => throw ExNullPointer
                 end) w h.
Proof.
  unfold pretty_print_with, scan, clean_path. unfold bind at 1. cbn [get_jvm].
  unfold bind. cbn. fold (location w p).
  replace (to_absolute (jv_cwd (w_jvm w)) (normalize (location w p))) with (location w p)
    by (unfold location; now rewrite clean_of_clean).
  destruct (handle _ _ _ _ _ _ _) as [[[e|]|x] h1]; reflexivity.
Qed.

Lemma live_unchanged_lemma : forall n cur o lr p w h, (forall h', cur h' = o) -> (Z.to_nat (o_max_depth o) <= n)%nat ->
  live_print n cur lr p w h = pretty_print_with o lr p w h.
Proof.
  intros n cur o lr p w h Hcur Hn. rewrite (live_alike_lemma n cur (fun _ => o)).
  2:{ repeat split; now rewrite Hcur. }
  rewrite live_unfold, print_with_unfold. apply bind_ext; [apply live_handle_const; lia|].
  intros [e|] h1; [apply live_render_const|reflexivity].
Qed.

(** ** What is displayed *)

(** [o] with the filters of [s]: what the body of one directory is read with. *)
Definition mix (s o : options) : options :=
  mkOptions (o_child_limit o) (o_tree_format o) (o_emoji o) (o_compact o) (o_max_depth o) (o_comparator o) (o_dir_matcher s) (o_file_matcher s) (o_line_extension o).

Lemma looked_at_same w o o' q h seen t : o_dir_matcher o = o_dir_matcher o' -> o_file_matcher o = o_file_matcher o' ->
  looked_at w o q h seen t -> looked_at w o' q h seen t.
Proof.
  intros E1 E2 H. induction H as [|h n a b u seen t H1 H2 _ IH]; constructor; auto. rewrite <- E1, <- E2. exact H2.
Qed.

Lemma live_seen_shift w cur s h t1 t t2 d x : live_seen_entry w cur s (rev t1 ++ h) t d x -> live_seen_entry w cur s h (t1 ++ t ++ t2) d x.
Proof.
  destruct x as [q es|q k|q|n]; cbn [live_seen_entry]; auto.
  - intros (u1 & u' & -> & H). exists (t1 ++ u1), (u' ++ t2). split; [now rewrite <- !app_assoc|]. cbn zeta in *.
    rewrite rev_app_distr, <- app_assoc. destruct (d <? _); [|exact H].
    destruct H as (u2 & u3 & u4 & u5 & limit & seen & order & real & -> & H). exists u2, u3, u4, (u5 ++ t2), limit, seen, order, real.
    split; [now rewrite <- !app_assoc|exact H].
  - intros (u1 & a & u2 & -> & Ha). exists (t1 ++ u1), a, (u2 ++ t2). split; [|exact Ha]. now rewrite <- !app_assoc.
Qed.

Definition live_seen_tree (w : world) (cur : hist -> options) (s : options) (d : Z) (p : path) (h : hist) (e : entry) (t : trace) : Prop :=
  entry_path e = Some p /\ truthful_from w h t /\ (p_names p <> [] -> named e) /\
  forall k x, at_depth k e x -> live_seen_entry w cur s h t (d + Z.of_nat k) x.

Section LiveSeen.
  Context (w : world) (cur : hist -> options) (s : options).
  Hypothesis Hd : honest w (o_dir_matcher s).
  Hypothesis Hf : honest w (o_file_matcher s).
  Hypothesis Hl : forall h, honest w (o_child_limit (cur h)).
  Hypothesis Hcmp : forall h a, honest w (o_comparator (cur h) a).

  Lemma live_handle_seen fuel : forall d p h e h', 0 <= d -> live_handle fuel cur d p (path_filter s) w h = (Ok (Some e), h') ->
    exists t, h' = rev t ++ h /\ live_seen_tree w cur s d p h e t.
  Proof.
    assert (Hfile : forall d p h e h' a, w_lstat w h p = a -> a <> Some KDir -> handle_file p w (EvLstat p a :: h) = (Ok (Some e), h') ->
              exists t, h' = rev t ++ h /\ live_seen_tree w cur s d p h e t).
    { intros d p h e h' a Ea Hna H. unfold handle_file, bind, stat in H.
      destruct (w_stat w (EvLstat p a :: h) p) as [k|] eqn:Es; cbn in H; [|discriminate]. injection H as <- <-.
      exists [EvLstat p a; EvStat p (Some k)]. split; [reflexivity|]. split; [reflexivity|]. split; [|split].
      - change [EvLstat p a; EvStat p (Some k)] with ([EvLstat p a] ++ [EvStat p (Some k)]).
        apply truthful_app; apply truthful_one; [exact Ea|exact Es].
      - now constructor.
      - intros j x Hat. inversion Hat; subst. cbn. exists [], (w_lstat w h p), []. auto. }
    assert (Hcut : forall d p h, 0 <= d -> o_max_depth (cur (EvLstat p (Some KDir) :: h)) <= d -> w_lstat w h p = Some KDir ->
              live_seen_tree w cur s d p h (EDir p [EMaxDepth d]) [EvLstat p (Some KDir)]).
    { intros d p h Hd0 Hle Ea. split; [reflexivity|]. split; [now apply truthful_one|]. split; [repeat constructor; auto|].
      intros j x Hat. inversion Hat as [|j' d0 es0 c y Hin Hat']; subst.
      - cbn [live_seen_entry]. exists [], []. split; [reflexivity|]. cbn zeta. cbn [rev app].
        destruct (Z.ltb_spec (d + Z.of_nat 0) (o_max_depth (cur (EvLstat p (Some KDir) :: h)))); [lia|]. now rewrite Z.add_0_r.
      - destruct Hin as [<-|[]]. inversion Hat'. exact I. }
    induction fuel as [|fuel IH]; intros d p h e h' Hd0 H; cbn [live_handle] in H; apply bind_ok in H; destruct H as (b & h1 & Hb & H);
      unfold pm_is_directory, has_kind, bind, lstat in Hb; cbn in Hb; injection Hb as <- <-.
    - destruct (w_lstat w h p) as [[]|] eqn:Ea; cbn [kind_eqb] in H; cbn iota in H; try (eapply Hfile; [exact Ea|discriminate|exact H]). rewrite bind_now in H.
      destruct (Z.leb_spec (o_max_depth (cur (EvLstat p (Some KDir) :: h))) d); [|discriminate].
      unfold bind, new_max_depth_entry in H. destruct (Z.ltb_spec d 0); [lia|]. cbn in H. injection H as <- <-.
      exists [EvLstat p (Some KDir)]. split; [reflexivity|]. apply Hcut; auto; lia.
    - destruct (w_lstat w h p) as [[]|] eqn:Ea; cbn [kind_eqb] in H; cbn iota in H; try (eapply Hfile; [exact Ea|discriminate|exact H]). rewrite bind_now in H.
      destruct (Z.leb_spec (o_max_depth (cur (EvLstat p (Some KDir) :: h))) d) as [Hle|Hgt].
      { unfold bind, new_max_depth_entry in H. destruct (Z.ltb_spec d 0); [lia|]. cbn in H. injection H as <- <-.
        exists [EvLstat p (Some KDir)]. split; [reflexivity|]. apply Hcut; auto; lia. }
      apply bind_ok in H. destruct H as (dl & h2 & Ho & H). unfold open_dir in Ho.
      destruct (w_open w (EvLstat p (Some KDir) :: h) p) as [dl'|] eqn:Eo; injection Ho as <- <-; [|discriminate].
      apply bind_ok in H. destruct H as (es & h3 & Hc & H). injection H as <- <-.
      unfold with_close in Hc. rewrite bind_now in Hc. set (h0 := EvOpen p :: EvLstat p (Some KDir) :: h) in *. set (o := mix s (cur h0)).
      change (handle_directory_children (cur h0)) with (handle_directory_children o) in Hc. change (path_filter s) with (path_filter o) in Hc.
      destruct (handle_directory_children o _ p dl' _ w _) as [[es'|x] h4] eqn:Eh; [|discriminate].
      unfold close_dir in Hc. destruct (w_close_ok w h4 p) eqn:Ec; [|discriminate]. injection Hc as <- <-.
      unfold handle_directory_children in Eh. apply bind_ok in Eh. destruct Eh as (mc & h5 & Hmc & Eh).
      destruct (Hl h0 p h0) as (rl & tl & Etl & Hql). pose proof Etl as Emc. change (o_child_limit (cur h0)) with (o_child_limit o) in Emc.
      rewrite Hmc in Emc. injection Emc as <- ->. clear Etl.
      apply bind_ok in Eh. destruct Eh as (l & h6 & Hst & Eh). unfold stream_paths in Hst. apply bind_ok in Hst.
      destruct Hst as (l0 & h7 & Hfl & Hst). destruct (dl_fail dl') eqn:Edl; [discriminate|]. injection Hst as <- <-.
      destruct (filterM_seen w o Hd Hf _ _ _ _ _ Hfl) as (seen & tf & -> & Htf & Hseen & Hff & ->).
      apply bind_ok in Eh. destruct Eh as (order & h8 & Hso & Eh).
      destruct (sorted_seen w o (Hcmp h0) _ _ _ _ Hso) as (ts & -> & Hts & Hcd & HP & Hord).
      apply bind_ok in Eh. destruct Eh as ([ces rest] & h9 & Hlo & Eh). injection Eh as <- <-.
      destruct (loop_seen w (fun c h e t => live_seen_tree w cur s (d + 1) c h e t) (fun c => live_handle fuel cur (d + 1) c (path_filter s)) mc) with (4 := Hlo)
        as (new & tk & taken & Ees & -> & Htk & Eit & Hr1 & Hr2 & HF); [| |lia|].
      { intros c h10 e10 h11 H10. destruct (IH (d + 1) c h10 e10 h11 ltac:(lia) H10) as (t & Et & Hs).
        exists t. split; [exact Et|]. split; [exact Hs|apply Hs]. }
      { intros c h10 h11. apply live_handle_not_none. }
      cbn [app] in Ees. subst ces.
      assert (Hkids : Forall named new).
      { assert (Hin : forall c, In c taken -> p_names c <> []).
        { intros c Hc. assert (Hc' : In c order) by (rewrite Eit; apply in_or_app; now left).
          apply (Permutation_in c (Permutation_sym HP)) in Hc'. apply in_map_iff in Hc'. destruct Hc' as (nb & <- & _). cbn. now destruct (p_names p). }
        clear -HF Hin. induction HF as [|c e taken new (t1 & tc & t2 & _ & _ & _ & Hn & _) _ IHF]; constructor; [apply Hn, Hin; now left|].
        apply IHF. intros c' Hc'. apply Hin. now right. }
      destruct (loop_limited _ _ _ _ Eit Hr1 Hr2) as (Htaken & _ & Hmark). clear Eit Hr1 Hr2.
      set (t := [EvLstat p (Some KDir)] ++ [EvOpen p] ++ (tl ++ tf ++ ts ++ tk) ++ [EvClose p true]).
      exists t. split.
      { unfold t. rewrite !rev_app_distr. cbn [rev app]. rewrite <- !app_assoc. reflexivity. }
      split; [reflexivity|]. split; [|split].
      { unfold t. apply truthful_app; [now apply truthful_one|]. apply truthful_app; [apply truthful_one; cbn [rev app]; now rewrite Eo|].
        apply truthful_app.
        - apply truthful_app; [exact Hql|]. apply truthful_app; [exact Htf|]. apply truthful_app; [exact Hts|exact Htk].
        - apply truthful_one. rewrite !rev_app_distr, <- !app_assoc. exact Ec. }
      { intro Hn. constructor; [exact Hn|]. apply Forall_app. split; [exact Hkids|]. destruct rest; repeat constructor. }
      intros j x Hat. inversion Hat as [|j' d1 es1 c y Hin Hat']; subst.
      + rewrite Z.add_0_r. cbn [live_seen_entry]. exists [], ([EvOpen p] ++ (tl ++ tf ++ ts ++ tk) ++ [EvClose p true]). split; [reflexivity|].
        cbn zeta. cbn [rev app]. destruct (Z.ltb_spec d (o_max_depth (cur (EvLstat p (Some KDir) :: h)))); [|lia].
        exists tl, tf, ts, (tk ++ [EvClose p true]), mc, seen, order, new.
        split; [now rewrite <- !app_assoc|]. fold h0. split.
        { rewrite Eo, Hseen. destruct dl' as [ns fl]. cbn in *. now subst. }
        split; [exact Hmc|]. split; [apply (looked_at_same w o s); [reflexivity|reflexivity|exact Hff]|]. split; [exact Hcd|]. split; [exact HP|]. split; [exact Hord|].
        split; [now rewrite Hmark|]. revert HF. generalize (limited mc order). clear. intros taken HF. induction HF as [|c e taken new (t1 & tc & t2 & _ & He & _) HF IHF]; [reflexivity|]. cbn. now rewrite He, IHF.
      + apply in_app_or in Hin. destruct Hin as [Hin|Hin].
        * destruct (Forall2_in_r _ _ _ _ _ _ HF Hin) as (q & Hq & t1 & tc & t2 & -> & _ & _ & _ & Hch).
          specialize (Hch j' x Hat'). replace (d + Z.of_nat (S j')) with (d + 1 + Z.of_nat j') by lia.
          unfold t. replace ([EvLstat p (Some KDir)] ++ [EvOpen p] ++ (tl ++ tf ++ ts ++ t1 ++ tc ++ t2) ++ [EvClose p true])
            with (([EvLstat p (Some KDir)] ++ [EvOpen p] ++ tl ++ tf ++ ts ++ t1) ++ tc ++ (t2 ++ [EvClose p true])) by (now rewrite <- !app_assoc).
          apply live_seen_shift. rewrite !rev_app_distr, <- !app_assoc. exact Hch.
        * destruct rest; [destruct Hin|]. destruct Hin as [<-|[]]. inversion Hat'. exact I.
  Qed.
End LiveSeen.

(** Rendering with options whose merging flag stays is rendering with options that stay. *)
Definition frozen (base : options) (cur : hist -> options) (lr : line_renderer) (b : bool) : options :=
  with_emojis (lr_emoji lr) (with_tree_format (lr_tree_format lr) (with_compact_directories b (with_line_extension (Some (live_line_extension cur)) base))).

Lemma lr_frozen base cur lr b : line_renderer_create (frozen base cur lr b) = lr.
Proof. now destruct lr. Qed.

Lemma live_render_frozen base cur lr b w : (forall h, o_compact (cur h) = b) ->
  forall e h, live_render_tree cur lr e w h = render_tree (frozen base cur lr b) (line_renderer_create (frozen base cur lr b)) e w h.
Proof.
  intros Hb e h. rewrite lr_frozen. unfold live_render_tree, render_tree. rewrite <- live_render_const.
  apply live_render_ext; [exact Hb|reflexivity].
Qed.

Lemma live_seen_lemma : forall n cur lr p w h out h' v,
  (forall h1, honest_callbacks w (cur h1)) -> honest w (lr_emoji lr) -> live_sees w cur lr v ->
  live_print n cur lr p w h = (Ok out, h') ->
  exists e s t, shows v true e s /\ out = text (lr_tree_format lr) (labelled v s) /\ h' = rev t ++ h /\
    truthful_from w h t /\ entry_path e = Some (location w p) /\
    forall k x, at_depth k e x -> live_seen_entry w cur (cur h) h t (Z.of_nat k) x.
Proof.
  intros n cur lr p w h out h' v Hc Hem (Hx & He & Hco) H. rewrite live_unfold in H.
  apply bind_ok in H. destruct H as (r & h1 & Hh & Hr). destruct r as [e|]; [|discriminate].
  destruct (live_handle_seen w cur (cur h) (proj1 (Hc h)) (proj1 (proj2 (Hc h))) (fun h1 => proj1 (proj2 (proj2 (Hc h1))))
    (fun h1 => proj2 (proj2 (proj2 (proj2 (proj2 (Hc h1)))))) n 0 _ _ _ _ ltac:(lia) Hh) as (t & -> & Hpath & Ht & Hnamed & Hseen).
  rewrite (live_render_frozen (cur h) cur lr (v_compact v) w Hco) in Hr. set (o := frozen (cur h) cur lr (v_compact v)) in *.
  assert (Hho : honest w (live_line_extension cur)).
  { intros q h1. unfold live_line_extension. rewrite bind_now. unfold compute_line_extension.
    pose proof (proj1 (proj2 (proj2 (proj2 (proj2 (Hc h1)))))) as Hx1. destruct (o_line_extension (cur h1)) as [f|]; [apply Hx1|].
    exists (Ok None), []. split; [reflexivity|apply truthful_nil]. }
  destruct (render_honest w o) with (e := e) (h := rev t ++ h) as (r & t' & Hr' & Hq).
  { destruct (Hc h) as (C1 & C2 & C3 & _ & _ & C6). repeat split; auto. }
  rewrite Hr in Hr'. injection Hr' as <- ->.
  pose proof (location_abs w p) as Habs.
  assert (Hn : named e).
  { apply Hnamed. destruct e as [d es|f k|d|m]; cbn in Hpath; try discriminate; injection Hpath as ->;
      [eapply render_dir_named|eapply render_file_named]; eauto. }
  destruct (render_tree_spec w o (line_renderer_create o) v Hx He eq_refl e Hn) as (sh & Hs & Hy).
  destruct (Hy (rev t ++ h)) as [h2 E2]. rewrite E2 in Hr. injection Hr as <- _.
  exists e, sh, (t ++ t'). split; [exact Hs|]. split; [reflexivity|]. split; [now rewrite rev_app_distr, <- app_assoc|].
  split; [apply truthful_app; [exact Ht|exact Hq]|]. split; [exact Hpath|].
  intros k x Hat. change (t ++ t') with ([] ++ t ++ t'). apply live_seen_shift. cbn [rev app].
  replace (Z.of_nat k) with (0 + Z.of_nat k) by lia. now apply Hseen.
Qed.

(** ** Whatever the outcome *)
Lemma runs_now B w cur (f : options -> M B) h r t : runs w (f (cur h)) h r t -> runs w (bind (now cur) f) h r t.
Proof. exact (fun H => H). Qed.

Section LiveTrace.
  Context (w : world) (cur : hist -> options) (s : options) (D : Z).
  Context (Cd Cf : path -> res bool -> trace -> Prop) (Cl : path -> res Z -> trace -> Prop) (Cc : path -> path -> res Z -> trace -> Prop).
  Hypothesis Hdm : obeys w (o_dir_matcher s) Cd.
  Hypothesis Hfm : obeys w (o_file_matcher s) Cf.
  Hypothesis Hl : forall h, obeys w (o_child_limit (cur h)) Cl.
  Hypothesis Hc : forall h a, obeys w (o_comparator (cur h) a) (Cc a).
  Hypothesis HD : forall h, o_max_depth (cur h) <= D.
  Context (Q : Z -> path -> res (option entry) -> trace -> Prop).
  Hypothesis Qfile : forall d p a k, a <> Some KDir -> Q d p (Ok (Some (EFile p k))) [EvLstat p a; EvStat p (Some k)].
  Hypothesis Qfile_fail : forall d p a, a <> Some KDir -> Q d p (Throw (ExUncheckedIO ReadAttributes p)) [EvLstat p a; EvStat p None].
  Hypothesis Qcut : forall d p, 0 <= d -> Q d p (Ok (Some (EDir p [EMaxDepth d]))) [EvLstat p (Some KDir)].
  Hypothesis Qopen_fail : forall d p, 0 <= d -> d < D -> Q d p (Throw (ExUncheckedIO ListFiles p)) [EvLstat p (Some KDir); EvOpenFail p].
  Hypothesis Qdir : forall d p o dl rb t ok, 0 <= d -> d < D -> body_run w o Cd Cf Cl Cc (Q (d + 1)) p dl rb t ->
    Q d p (after_close p rb ok) ([EvLstat p (Some KDir); EvOpen p] ++ t ++ [EvClose p ok]).

  Lemma live_runs fuel : forall d, 0 <= d -> (Z.to_nat (D - d) <= fuel)%nat ->
    obeys w (fun p => live_handle fuel cur d p (path_filter s)) (Q d).
  Proof.
    assert (Hfile : forall d p a h, a <> Some KDir -> exists r t, runs w (handle_file p) (EvLstat p a :: h) r t /\ Q d p r ([EvLstat p a] ++ t)).
    { intros d p a h Hna. unfold handle_file. destruct (w_stat w (EvLstat p a :: h) p) as [k|] eqn:Es.
      - exists (Ok (Some (EFile p k))), [EvStat p (Some k)]. split; [|now apply (Qfile d p a k)]. unfold runs, bind, stat. now rewrite Es.
      - exists (Throw (ExUncheckedIO ReadAttributes p)), [EvStat p None]. split; [|now apply (Qfile_fail d p a)]. unfold runs, bind, stat. now rewrite Es. }
    induction fuel as [|fuel IH]; intros d Hd0 Hfuel p h; cbn [live_handle];
      set (a := w_lstat w h p);
      assert (E : runs w (pm_is_directory p) h (Ok (match a with Some k' => kind_eqb k' KDir | None => false end)) [EvLstat p a])
        by reflexivity;
      destruct (match a with Some k' => kind_eqb k' KDir | None => false end) eqn:Eb.
    2,4: assert (Ha : a <> Some KDir) by (intro Ha; rewrite Ha in Eb; discriminate);
         destruct (Hfile d p a h Ha) as (r & t & Hr & HQ); exists r, ([EvLstat p a] ++ t); split; [|exact HQ];
         eapply runs_bind_ok; [exact E|exact Hr].
    - assert (Ha : a = Some KDir) by (destruct a as [[]|]; discriminate || reflexivity).
      rewrite Ha in E. exists (Ok (Some (EDir p [EMaxDepth d]))), [EvLstat p (Some KDir)]. split; [|apply Qcut; lia].
      rewrite <- (app_nil_r [EvLstat p (Some KDir)]). eapply runs_bind_ok; [exact E|]. cbn iota. unfold runs. rewrite bind_now.
      specialize (HD (rev [EvLstat p (Some KDir)] ++ h)).
      destruct (Z.leb_spec (o_max_depth (cur (rev [EvLstat p (Some KDir)] ++ h))) d); [|lia]. unfold new_max_depth_entry.
      destruct (Z.ltb_spec d 0); [lia|]. reflexivity.
    - assert (Ha : a = Some KDir) by (destruct a as [[]|]; discriminate || reflexivity).
      rewrite Ha in E. destruct (Z.leb_spec (o_max_depth (cur (EvLstat p (Some KDir) :: h))) d) as [Hle|Hgt].
      + exists (Ok (Some (EDir p [EMaxDepth d]))), [EvLstat p (Some KDir)]. split; [|apply Qcut; lia].
        rewrite <- (app_nil_r [EvLstat p (Some KDir)]). eapply runs_bind_ok; [exact E|]. cbn iota. apply runs_now. cbn [rev app].
        destruct (Z.leb_spec (o_max_depth (cur (EvLstat p (Some KDir) :: h))) d); [|lia].
        unfold new_max_depth_entry. destruct (Z.ltb_spec d 0); [lia|]. reflexivity.
      + assert (HdD : d < D) by (specialize (HD (EvLstat p (Some KDir) :: h)); lia).
        destruct (w_open w (EvLstat p (Some KDir) :: h) p) as [dl|] eqn:Eo.
        * assert (HQ : obeys w (fun c => live_handle fuel cur (d + 1) c (path_filter s)) (Q (d + 1))) by (apply IH; lia).
          set (h0 := EvOpen p :: EvLstat p (Some KDir) :: h). set (o := mix s (cur h0)).
          destruct (hdc_runs w o Cd Cf Cl Cc Hdm Hfm (Hl h0) (Hc h0) (Q (d + 1)) _ p dl HQ ltac:(intros; apply live_handle_not_none) h0)
            as (rb & t & Hb & Hr).
          set (h2 := rev t ++ h0) in *.
          exists (after_close p rb (w_close_ok w h2 p)), ([EvLstat p (Some KDir); EvOpen p] ++ t ++ [EvClose p (w_close_ok w h2 p)]).
          split; [|apply (Qdir d p o dl rb t _ Hd0 HdD Hb)]. cbn [app].
          change (EvLstat p (Some KDir) :: EvOpen p :: t ++ [EvClose p (w_close_ok w h2 p)])
            with ([EvLstat p (Some KDir)] ++ [EvOpen p] ++ t ++ [EvClose p (w_close_ok w h2 p)]).
          eapply runs_bind_ok; [exact E|]. cbn iota. apply runs_now. cbn [rev app].
          destruct (Z.leb_spec (o_max_depth (cur (EvLstat p (Some KDir) :: h))) d); [lia|].
          change (EvOpen p :: t ++ [EvClose p (w_close_ok w h2 p)]) with ([EvOpen p] ++ t ++ [EvClose p (w_close_ok w h2 p)]).
          eapply runs_bind_ok.
          { unfold runs, open_dir. cbn [rev app]. rewrite Eo. reflexivity. }
          cbn iota. unfold runs, bind at 1, with_close. rewrite bind_now. cbn [rev app]. fold h0.
          change (handle_directory_children (cur h0)) with (handle_directory_children o). change (path_filter s) with (path_filter o).
          unfold runs in Hr. change (path_filter s) with (path_filter o) in Hr. rewrite Hr. fold h2.
          rewrite rev_app_distr. cbn [rev app].
          destruct rb as [es|x]; cbn [after_close]; unfold close_dir.
          -- destruct (w_close_ok w h2 p) eqn:Ec; reflexivity.
          -- reflexivity.
        * exists (Throw (ExUncheckedIO ListFiles p)), [EvLstat p (Some KDir); EvOpenFail p]. split; [|now apply Qopen_fail].
          change [EvLstat p (Some KDir); EvOpenFail p] with ([EvLstat p (Some KDir)] ++ [EvOpenFail p]).
          eapply runs_bind_ok; [exact E|]. cbn iota. apply runs_now. cbn [rev app].
          destruct (Z.leb_spec (o_max_depth (cur (EvLstat p (Some KDir) :: h))) d); [lia|].
          unfold runs, bind, open_dir. rewrite Eo. reflexivity.
  Qed.
End LiveTrace.

Section LiveRender.
  Context (w : world) (cur : hist -> options) (lr : line_renderer) (K : trace -> Prop) (E : exn -> Prop).
  Hypothesis Knil : K [].
  Hypothesis Kapp : forall t t', K t -> K t' -> K (t ++ t').
  Hypothesis Enpe : E ExNullPointer.
  Hypothesis He : callback w (lr_emoji lr) K E.
  Hypothesis Hx : forall h, match o_line_extension (cur h) with Some f => callback w f K E | None => True end.

  Lemma traced_ret A (a : A) : traced w K E (ret a).
  Proof. intro h. exists (Ok a), []. repeat split; auto. discriminate. Qed.

  Lemma traced_ext p : traced w K E (live_line_extension cur p).
  Proof.
    intro h. specialize (Hx h). unfold runs, live_line_extension. rewrite bind_now. unfold compute_line_extension.
    destruct (o_line_extension (cur h)) as [f|]; [apply Hx|]. apply (traced_ret _ None).
  Qed.

  Lemma live_render_traced e : forall d cp, traced w K E (live_render_entry cur lr e d cp).
  Proof.
    pose proof (traced_bind w K E Kapp) as TB. pose proof traced_ret as TR. pose proof traced_ext as TX.
    assert (TN : forall A, traced w K E (@throw A ExNullPointer)).
    { intros A h. exists (Throw ExNullPointer), []. repeat split; auto. intros x Ex. now injection Ex as <-. }
    assert (TE : forall p, traced w K E (lr_emoji lr p)) by (intros p h; apply He).
    assert (TBg : forall d dir cp, traced w K E (render_directory_begin lr d dir cp)).
    { intros d dir cp. apply (closed_begin (fun A m => traced w K E m)); auto. }
    induction e as [dir es IH|f k|dd|n] using entry_ind'; intros d cp; cbn [live_render_entry]; auto.
    - assert (Hfin : forall ev : option (option jstring), traced w K E
        (line <- render_directory_begin lr d dir cp;
         ext <- match ev with Some x => ret x | None => live_line_extension cur dir end;
         (let line := line ++ or_empty ext in
          let line := match es with [] => line | _ => line ++ [c_nl] end in
          children <- render_children (fun c cd => live_render_entry cur lr c cd (initial_compact_paths c)) d es;
          ret (line ++ children)))).
      { intro ev. apply TB; [apply TBg|]. intro line. apply TB; [destruct ev; auto|]. intro ext. cbn zeta.
        apply TB; [|auto]. clear -IH TR TB. induction IH as [|c es Hc Hes IHes]; [apply TR|].
        destruct es as [|c' es]; [apply Hc|]. cbn [render_children] in *. apply TB; [apply Hc|]. intro. apply TB; [exact IHes|]. auto. }
      apply TB; [intro h; exists (Ok (cur h)), []; repeat split; auto; discriminate|]. intro o'.
      destruct es as [|c es]; [apply (Hfin None)|].
      destruct es as [|c' es]; [|destruct c; apply (Hfin None)].
      destruct c as [cd ces|f k|sd|n]; try apply (Hfin None).
      destruct (o_compact o' && negb (depth_is_root d)); [|apply (Hfin None)].
      apply TB; [apply TX|]. intros [x|]; [apply (Hfin (Some (Some x)))|].
      inversion IH as [|a b Hc _]; subst. apply Hc.
    - unfold live_render_file, render_file_line, emoji_prefix. apply TB; [|auto].
      apply TB; [apply TB; auto|]. intro. apply TB; [|auto]. unfold format_file. destruct (get_file_name f); auto.
  Qed.
End LiveRender.

Lemma live_bounded_lemma : forall n cur lr p w h D (K : trace -> Prop) (E : exn -> Prop),
  (forall h1, callbacks w (cur h1) K E) -> callback w (lr_emoji lr) K E -> (forall t, K t -> balanced t) -> ~ E ExFuel ->
  (forall h1, o_max_depth (cur h1) <= D) -> (Z.to_nat D <= n)%nat ->
  exists r t, live_print n cur lr p w h = (r, rev t ++ h) /\ r <> Throw ExFuel /\ balanced t /\
    forall ev q, In ev t -> opening ev q ->
      (exists ns, q = mkPath true (p_names (location w p) ++ ns) /\ Z.of_nat (length ns) < D) \/
      (exists u, K u /\ In ev u).
Proof.
  intros n cur lr p w h D K E Hc He Hbal HE HD Hn.
  set (X := fun ev => exists u, K u /\ In ev u). set (Kc := fun t => (forall ev, In ev t -> X ev) /\ balanced t).
  set (E' := fun x => x <> ExFuel). set (o' := with_max_depth D default_options).
  assert (HK : forall t, K t -> Kc t) by (intros t Ht; split; [intros ev Hin; exists t; auto|auto]).
  assert (HE' : forall x, E x -> E' x) by (intros x Hx ->; now apply HE).
  assert (Hcb : forall B (f : path -> M B), callback w f K E -> obeys w f (cb Kc E')).
  { intros B f Hf a h1. destruct (Hf a h1) as (r & t & Er & Ht & Hx). exists r, t. split; [exact Er|]. split; [auto|]. auto. }
  assert (HQ : obeys w (fun q => live_handle n cur 0 q (path_filter (cur h)))
                 (fun q r t => opens_below X o' 0 q t /\ balanced t /\ forall x, r = Throw x -> E' x)).
  { apply (live_runs w cur (cur h) D (cb Kc E') (cb Kc E') (cb Kc E') (fun _ => cb Kc E')) with
      (Q := fun d q r t => opens_below X o' d q t /\ balanced t /\ forall x, r = Throw x -> E' x); try lia; auto.
    - apply Hcb, (Hc h).
    - apply Hcb, (Hc h).
    - intro h1. apply Hcb, (Hc h1).
    - intros h1 a. apply Hcb, (Hc h1).
    - intros d q a k _. split; [apply (opens_app _ _ _ _ [_] [_]); not_opening|]. split; [|discriminate]. do 2 (constructor; try discriminate). constructor.
    - intros d q a _. split; [apply (opens_app _ _ _ _ [_] [_]); not_opening|]. split; [do 2 (constructor; try discriminate); constructor|].
      intros x Hx. injection Hx as <-. discriminate.
    - intros d q _. split; [not_opening|]. split; [|discriminate]. constructor; try discriminate. constructor.
    - intros d q _ Hlt. split; [|split; [do 2 (constructor; try discriminate); constructor|intros x Hx; injection Hx as <-; discriminate]].
      apply (opens_app _ _ _ _ [_] [_]); [not_opening|]. apply opens_start; [exact Hlt|]. intros q' [Hq|Hq]; [discriminate|]. now injection Hq.
    - intros d q o dl rb t ok _ Hlt Hb. split; [|split].
      + apply opens_app; [apply (opens_app _ _ _ _ [_] [_]); [not_opening|]; apply opens_start; [exact Hlt|]; intros q' [Hq|Hq]; [now injection Hq|discriminate]|].
        apply opens_app; [|not_opening].
        refine (body_run_K w o Kc (opens_below X o' d q) (opens_app _ _ _ _) (opens_nil _ _ _ _) _ _ _ _ _ _ _ _ _ _ Hb).
        * intros u [Hu _] ev q' Hin _. left. auto.
        * intros; not_opening.
        * not_opening.
        * intros m r' u _ [Hu _] ev q' Hin Hop. destruct (Hu ev q' Hin Hop) as [Hx|(ns & -> & Hl)]; [now left|right].
          exists (m :: ns). cbn [child p_abs p_names length]. rewrite <- app_assoc. split; [reflexivity|lia].
      + cbn [app]. constructor; try discriminate. apply balanced_wrap.
        refine (body_run_K w o Kc balanced balanced_app bal_nil (fun t H => proj2 H) _ _ _ _ _ _ _ _ _ Hb).
        * intros. constructor; try constructor; discriminate.
        * constructor; try constructor; discriminate.
        * intros m r' u _ (_ & Hu & _). exact Hu.
      + intros x Hx. destruct rb as [es|y]; cbn in Hx.
        * destruct ok; [discriminate|]. injection Hx as <-. discriminate.
        * injection Hx as ->. eapply (body_run_E w o Kc E'); [|right; discriminate|discriminate|exact Hb]. intros q' y u (_ & _ & Hy). now apply Hy. }
  destruct (HQ (location w p) h) as (r & t & Er & Hop & Hbt & Hx). pose proof (location_abs w p) as Habs.
  assert (Hout : forall ev q, In ev t -> opening ev q ->
      (exists ns, q = mkPath true (p_names (location w p) ++ ns) /\ Z.of_nat (length ns) < D) \/ (exists u, K u /\ In ev u)).
  { intros ev q Hin Ho. destruct (Hop ev q Hin Ho) as [Hu|(ns & -> & Hl)]; [now right|left]. rewrite Habs. exists ns. split; [reflexivity|exact Hl]. }
  setoid_rewrite live_unfold. destruct r as [[e|]|x].
  - destruct (live_render_traced w cur lr Kc E') with (e := e) (d := @nil tree_symbol) (cp := initial_compact_paths e) (h := rev t ++ h) as (r' & t' & Er' & (Hu & Hb') & Hx').
    + split; [intros ev []|constructor].
    + intros t1 t2 (A1 & A2) (B1 & B2). split; [|now apply balanced_app]. intros ev Hin. apply in_app_or in Hin. destruct Hin; auto.
    + discriminate.
    + exact (Hcb _ _ He).
    + intro h1. pose proof (proj1 (proj2 (proj2 (proj2 (proj2 (Hc h1)))))) as Hx1. destruct (o_line_extension (cur h1)) as [f|]; [exact (Hcb _ _ Hx1)|exact I].
    + exists r', (t ++ t'). split; [eapply runs_bind_ok; [exact Er|exact Er']|]. split; [intros ->; exact (Hx' _ eq_refl eq_refl)|].
      split; [now apply balanced_app|]. intros ev q Hin Ho. apply in_app_or in Hin. destruct Hin as [Hin|Hin]; [auto|]. right. exact (Hu ev Hin).
  - exfalso. eapply live_handle_not_none. exact Er.
  - exists (Throw x), t. split; [eapply runs_bind_throw; exact Er|]. split; [intros Ex; injection Ex as ->; exact (Hx _ eq_refl eq_refl)|]. split; [exact Hbt|exact Hout].
Qed.
