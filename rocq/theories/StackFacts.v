(** * The bounded stack: proofs *)

From Coq Require Import Permutation.
From Verif Require Import SpecHist SpecScan SpecOpen Stack PathFacts RenderFacts SortFacts ScanFacts TreeFacts TraceFacts RunFacts PrintFacts ShownFacts IntFacts OpenFacts.
Open Scope Z_scope.

(** ** Enough room *)
Lemma loop_agree w (Q : path -> Prop) hc1 hc2 hl mc : (forall c h, Q c -> hc1 c w h = hc2 c w h) -> forall it count acc h, Forall Q it ->
  children_loop hc1 hl mc count acc it w h = children_loop hc2 hl mc count acc it w h.
Proof.
  intro Hc. induction it as [|c it IH]; intros count acc h H; [reflexivity|]. inversion H as [|? ? Hq Hit]; subst. cbn [children_loop].
  destruct (hl && (mc <? count + 1)); [reflexivity|]. apply bind_same; [now apply Hc|]. intros [e|] h' _; now apply IH.
Qed.

Lemma filterM_incl A (f : A -> M bool) w : forall l h r h', filterM f l w h = (Ok r, h') -> incl r l.
Proof.
  induction l as [|a l IH]; intros h r h' E; cbn [filterM] in E.
  - injection E as <- _. apply incl_refl.
  - unfold bind in E. destruct (f a w h) as [[b|] h1]; [|discriminate].
    destruct (filterM f l w h1) as [[r'|] h2] eqn:E2; [|discriminate]. injection E as <- _. apply IH in E2.
    destruct b; [apply incl_cons; [now left|]|]; now apply incl_tl.
Qed.

Lemma stream_incl dir dl f w h l h' : stream_paths dir dl f w h = (Ok l, h') -> incl l (map (resolve_name dir) (dl_names dl)).
Proof.
  unfold stream_paths, bind. intro E. destruct (filterM f (map (resolve_name dir) (dl_names dl)) w h) as [[r|] h1] eqn:F; [|discriminate].
  apply filterM_incl in F. destruct (dl_fail dl); [discriminate|]. injection E as <- _. exact F.
Qed.

(** What is iterated over are children of the directory. *)
Lemma iterated w o dir dl f h l h1 it h2 (Q : path -> Prop) : stream_paths dir dl f w h = (Ok l, h1) -> sorted (o_comparator o) l w h1 = (Ok it, h2) ->
  (forall x, In x (dl_names dl) -> Q (child dir x)) -> Forall Q it.
Proof.
  intros E1 E2 H. apply stream_incl in E1. apply sorted_perm in E2. apply Forall_forall. intros c Hc.
  assert (Hl : In c l) by (eapply Permutation_in; [|exact Hc]; first [exact E2|apply Permutation_sym; exact E2]).
  apply E1, in_map_iff in Hl. destruct Hl as (x & <- & Hx). now apply H.
Qed.

Lemma children_agree w o (Q : path -> Prop) hc1 hc2 dir dl f h : (forall c h, Q c -> hc1 c w h = hc2 c w h) ->
  (forall x, In x (dl_names dl) -> Q (child dir x)) ->
  handle_directory_children o hc1 dir dl f w h = handle_directory_children o hc2 dir dl f w h.
Proof.
  intros Hc Hl. unfold handle_directory_children.
  apply bind_same; [reflexivity|]. intros mc h1 _. apply bind_same; [reflexivity|]. intros l h2 E2.
  apply bind_same; [reflexivity|]. intros it h3 E3. apply bind_same; [|reflexivity].
  apply (loop_agree w Q); [exact Hc|]. eapply iterated; eauto.
Qed.

Definition shallow (w : world) (o : options) (k : nat) (d : Z) (p : path) : Prop := o_max_depth o - d <= Z.of_nat k \/ levels w k p.

(** An opened directory has a level of its own. *)
Lemma shallow_children w o k d p h h1 : shallow w o k d p -> pm_is_directory p w h = (Ok true, h1) -> d < o_max_depth o ->
  exists k', k = S k' /\ forall h2 dl x, w_open w h2 p = Some dl -> In x (dl_names dl) -> shallow w o k' (d + 1) (child p x).
Proof.
  intros [H|H] E Hd.
  - destruct k as [|k]; [lia|]. exists k. split; [reflexivity|]. intros. left. lia.
  - destruct H as [k p H|k p H].
    + exfalso. apply (H h). unfold pm_is_directory, has_kind, bind, lstat, ret in E. destruct (w_lstat w h p) as [[]|]; cbn in E; congruence.
    + exists k. split; [reflexivity|]. intros h2 dl x Eo Hx. right. eauto.
Qed.

Lemma handle_room w o f : forall fuel room d p h k, shallow w o k d p -> (3 * k + 2 <= room)%nat ->
  stk_handle room fuel o d p f w h = handle fuel o d p f w h.
Proof.
  induction fuel as [|fuel IH]; intros room d p h k Hk Hr; (destruct room as [|[|room]]; [lia..|]); cbn [stk_handle handle in_frame].
  - apply bind_same; [reflexivity|]. intros [] h1 _; reflexivity.
  - apply bind_same; [reflexivity|]. intros [] h1 E1; [|reflexivity].
    destruct (Z.leb_spec (o_max_depth o) d) as [|Hlt]; [reflexivity|].
    destruct (shallow_children w o k d p h h1 Hk E1 Hlt) as (k' & -> & Hc). destruct room as [|room]; [lia|].
    apply bind_same; [reflexivity|]. intros [dl|] h2 Eo; [|reflexivity].
    assert (Ew : w_open w h1 p = Some dl) by (unfold open_dir in Eo; destruct (w_open w h1 p); inversion Eo; reflexivity).
    apply bind_same; [|reflexivity]. apply with_close_same. cbn [in_frame].
    apply (children_agree w o (shallow w o k' (d + 1))); [|eauto]. intros c h3 Hs. apply (IH room (d + 1) c h3 k' Hs). lia.
Qed.

(** ** How deep the tree is *)
Definition tall (n : nat) (e : entry) : Prop := forall k x, at_depth k e x -> (k <= n)%nat.

Lemma tall_leaf n e : (forall d es, e <> EDir d es) -> tall n e.
Proof. intros H k x Hk. inversion Hk; subst; [lia|]. now elim (H d es). Qed.

Lemma tall_dir n p es : Forall (tall n) es -> tall (S n) (EDir p es).
Proof. intros H k x Hk. inversion Hk as [|k0 d0 es1 c y Hin Hat]; subst; [lia|]. rewrite Forall_forall in H. specialize (H _ Hin _ _ Hat). lia. Qed.

Lemma tall_sub n p es : tall n (EDir p es) -> forall c, In c es -> exists m, n = S m /\ tall m c.
Proof.
  intros H c Hc. destruct n as [|m].
  - specialize (H 1%nat c (at_below _ _ _ _ _ Hc (at_top c))). lia.
  - exists m. split; [reflexivity|]. intros k x Hk. specialize (H (S k) x (at_below _ _ _ _ _ Hc Hk)). lia.
Qed.

Lemma loop_all w (P : entry -> Prop) (Q : path -> Prop) hc hl mc : (forall c h e h', Q c -> hc c w h = (Ok (Some e), h') -> P e) ->
  forall it n acc h es rest h', Forall Q it -> children_loop hc hl mc n acc it w h = (Ok (es, rest), h') -> Forall P acc -> Forall P es.
Proof.
  intro H. induction it as [|x it IH]; intros n acc h es rest h' Hq E Ha; cbn [children_loop] in E.
  - injection E as <- _ <-. auto.
  - inversion Hq as [|? ? Hx Hit]; subst. destruct (hl && (mc <? n + 1)); [injection E as <- _ <-; auto|].
    apply bind_inv in E. destruct E as (e & h1 & E1 & E2).
    destruct e as [e|]; eapply IH; try exact E2; auto. apply Forall_app. split; [exact Ha|]. constructor; [eapply H; eauto|constructor].
Qed.

Lemma children_all w o (P : entry -> Prop) (Q : path -> Prop) hc dir dl f h es h' : (forall c h e h', Q c -> hc c w h = (Ok (Some e), h') -> P e) ->
  P (ESkipped dir) -> (forall x, In x (dl_names dl) -> Q (child dir x)) ->
  handle_directory_children o hc dir dl f w h = (Ok es, h') -> Forall P es.
Proof.
  intros H Hs Hq E. unfold handle_directory_children in E.
  apply bind_inv in E. destruct E as (mc & h1 & _ & E). apply bind_inv in E. destruct E as (l & h2 & E2 & E).
  apply bind_inv in E. destruct E as (it & h3 & E3 & E). apply bind_inv in E. destruct E as ([es' rest] & h4 & E4 & E). injection E as <- <-.
  apply Forall_app. split; [|destruct rest; repeat constructor; exact Hs].
  eapply (loop_all w P Q hc); try exact E4; [exact H|eapply iterated; eauto|constructor].
Qed.

Lemma with_close_inv A p x (m : M A) w h a h' : with_close p x m w h = (Ok a, h') -> exists h1, m w h = (Ok a, h1).
Proof.
  unfold with_close. destruct (m w h) as [[b|y] h1]; [|destruct (close_dir p w h1) as [? ?]; discriminate].
  destruct (close_dir p w h1) as [[[]|] h2]; intro E; try discriminate. injection E as -> _. eauto.
Qed.

Lemma open_inv p w h dl h' : open_dir p w h = (Ok (Some dl), h') -> w_open w h p = Some dl.
Proof. unfold open_dir. destruct (w_open w h p); intro E; inversion E; reflexivity. Qed.

Lemma handle_tall w o f : forall fuel d p h k e h', shallow w o k d p -> handle fuel o d p f w h = (Ok (Some e), h') -> tall (k + 1) e.
Proof.
  assert (Hm : forall d p k e h h', (e0 <- new_max_depth_entry d; ret (Some (EDir p [e0]))) w h = (Ok (Some e), h') -> tall (k + 1) e).
  { intros d p k e h h' E. apply bind_inv in E. destruct E as (e0 & h1 & E1 & E). unfold new_max_depth_entry in E1. destruct (d <? 0); [discriminate|].
    injection E1 as <- <-. injection E as <- _. rewrite Nat.add_1_r. apply tall_dir. constructor; [|constructor]. apply tall_leaf. discriminate. }
  assert (Hf : forall p k e h h', handle_file p w h = (Ok (Some e), h') -> tall (k + 1) e).
  { intros p k e h h' E. unfold handle_file in E. apply bind_inv in E. destruct E as ([kd|] & h1 & _ & E); [|discriminate].
    injection E as <- _. apply tall_leaf. discriminate. }
  induction fuel as [|fuel IH]; intros d p h k e h' Hk E; cbn [handle] in E; apply bind_inv in E; destruct E as ([] & h1 & E1 & E); try (eapply Hf; exact E);
    destruct (Z.leb_spec (o_max_depth o) d) as [|Hlt]; try (eapply Hm; exact E); [discriminate|].
  destruct (shallow_children w o k d p h h1 Hk E1 Hlt) as (k' & -> & Hc).
  apply bind_inv in E. destruct E as ([dl|] & h2 & Eo & E); [|discriminate]. apply open_inv in Eo.
  apply bind_inv in E. destruct E as (es & h3 & E & E'). injection E' as <- _. apply with_close_inv in E. destruct E as (h4 & E).
  cbn [Nat.add]. apply tall_dir. eapply (children_all w o (tall (k' + 1)) (shallow w o k' (d + 1))); try exact E; [|apply tall_leaf; discriminate|eauto].
  intros c h5 e5 h6 Hs E5. exact (IH _ _ _ _ _ _ Hs E5).
Qed.

(** ** Rendering *)
Lemma render_children_same w (r1 r2 : entry -> depth -> M jstring) d es : (forall c, In c es -> forall cd h, r1 c cd w h = r2 c cd w h) ->
  forall h, render_children r1 d es w h = render_children r2 d es w h.
Proof.
  induction es as [|c [|c' es] IH]; intros H h; [reflexivity|cbn [render_children]; apply H; now left|].
  change (render_children r1 d (c :: c' :: es)) with (s <- r1 c (depth_append d NON_LAST_FILE); r <- render_children r1 d (c' :: es); ret (s ++ [c_nl] ++ r)).
  change (render_children r2 d (c :: c' :: es)) with (s <- r2 c (depth_append d NON_LAST_FILE); r <- render_children r2 d (c' :: es); ret (s ++ [c_nl] ++ r)).
  apply bind_same; [apply H; now left|]. intros s h1 _. apply bind_same; [|reflexivity]. apply IH. intros x Hx. apply H. now right.
Qed.

Lemma render_room w o lr e : forall n room, tall n e -> (2 * n + 1 <= room)%nat -> forall d cp h,
  stk_render_entry room o lr e d cp w h = render_entry o lr e d cp w h.
Proof.
  induction e as [dir es IH|f k|dd|n0] using entry_ind'; intros n room Ht Hr d cp h; (destruct room as [|room]; [lia|]); try reflexivity.
  cbn [stk_render_entry render_entry in_frame].
  assert (Hsub : forall c, In c es -> forall cd h', in_frame room (fun room => stk_render_entry room o lr c cd (initial_compact_paths c)) w h' =
                                               render_entry o lr c cd (initial_compact_paths c) w h').
  { intros c Hc cd h'. destruct (tall_sub n dir es Ht c Hc) as (m & -> & Hm). destruct room as [|room]; [lia|]. cbn [in_frame].
    rewrite Forall_forall in IH. apply (IH c Hc m room Hm). lia. }
  assert (Hfin : forall ev h,
     (line <- render_directory_begin lr d dir cp;
      ext <- match ev with Some x => ret x | None => compute_line_extension o dir end;
      (let line := line ++ or_empty ext in
       let line := match es with [] => line | _ => line ++ [c_nl] end in
       children <- render_children (fun c cd => in_frame room (fun room => stk_render_entry room o lr c cd (initial_compact_paths c))) d es;
       ret (line ++ children))) w h =
     (line <- render_directory_begin lr d dir cp;
      ext <- match ev with Some x => ret x | None => compute_line_extension o dir end;
      (let line := line ++ or_empty ext in
       let line := match es with [] => line | _ => line ++ [c_nl] end in
       children <- render_children (fun c cd => render_entry o lr c cd (initial_compact_paths c)) d es;
       ret (line ++ children))) w h).
  { intros ev h'. apply bind_same; [reflexivity|]. intros line h1 _. apply bind_same; [reflexivity|]. intros ext h2 _. cbn zeta.
    apply bind_same; [|reflexivity]. apply render_children_same. exact Hsub. }
  destruct es as [|c es]; [apply (Hfin None)|].
  destruct es as [|c' es]; [|destruct c; apply (Hfin None)].
  destruct c as [cd ces|f k|sd|n1]; try apply (Hfin None).
  destruct (o_compact o && negb (depth_is_root d)); [|apply (Hfin None)].
  apply bind_same; [reflexivity|]. intros [x|] h1 _; [apply (Hfin (Some (Some x)))|].
  inversion IH as [|a b Hc _]; subst. destruct (tall_sub n dir _ Ht (EDir cd ces) (or_introl eq_refl)) as (m & -> & Hm).
  apply (Hc m room Hm). lia.
Qed.

Lemma stk_unfold room o p w h :
  stk_pretty_print (S (S (S room))) o p w h =
  bind (stk_handle (S room) (Z.to_nat (o_max_depth o)) o 0 (location w p) (path_filter o))
       (fun r => match r with
                 | Some e => stk_render_entry room o (line_renderer_create o) e [] (initial_compact_paths e)
                 | None => throw ExNullPointer
                 end) w h.
Proof.
  unfold stk_pretty_print, stk_scan, clean_path. cbn [in_frame]. unfold bind, get_jvm, ret at 1. fold (location w p). cbv beta iota.
  replace (to_absolute (jv_cwd (w_jvm w)) (normalize (location w p))) with (location w p)
    by (unfold location; now rewrite clean_of_clean).
  destruct (stk_handle _ _ _ _ _ _ _ _) as [[[e|]|x] h1]; reflexivity.
Qed.

Lemma C139_enough_lemma : forall room o p w h k,
  (o_max_depth o <= Z.of_nat k \/ levels w k (location w p)) -> (3 * k + 4 <= room)%nat -> (2 * k + 6 <= room)%nat ->
  stk_pretty_print room o p w h = pretty_print o p w h.
Proof.
  intros room o p w h k Hk H1 H2. do 3 (destruct room as [|room]; [lia|]). rewrite scan_unfold, stk_unfold.
  assert (Hs : shallow w o k 0 (location w p)) by (destruct Hk as [Hk|Hk]; [left; lia|now right]).
  apply bind_same; [apply (handle_room w o _ _ _ _ _ _ k Hs); lia|]. intros [e|] h1 E; [|reflexivity].
  apply (render_room w o _ e (k + 1)); [|lia]. exact (handle_tall _ _ _ _ _ _ _ _ _ _ Hs E).
Qed.

(** ** The same or an overflow *)
Definition cut {A} (m' m : M A) : Prop := forall w h, m' w h = m w h \/ exists h', m' w h = (Throw ExStackOverflow, h').

Lemma cut_refl A (m : M A) : cut m m.
Proof. intros w h. now left. Qed.

Lemma cut_call A room (b : nat -> M A) m : (forall room, cut (b room) m) -> cut (in_frame room b) m.
Proof. intros H. destruct room as [|room]; [|apply H]. intros w h. right. exists h. reflexivity. Qed.

Lemma cut_bind A B (m' m : M A) (f' f : A -> M B) : cut m' m -> (forall a, cut (f' a) (f a)) -> cut (bind m' f') (bind m f).
Proof.
  intros Hm Hf w h. unfold bind. destruct (Hm w h) as [E|(h' & E)]; rewrite E; [|right; eauto].
  destruct (m w h) as [[a|x] h1]; [apply Hf|now left].
Qed.

Lemma cut_close A p x (m' m : M A) : cut m' m -> cut (with_close p x m') (with_close p x m).
Proof.
  intros Hm w h. unfold with_close. destruct (Hm w h) as [E|(h' & E)]; rewrite E; [now left|]. right.
  destruct (close_dir p w h') as [r h2]. eauto.
Qed.

Lemma cut_loop hc' hc hl mc : (forall c, cut (hc' c) (hc c)) -> forall it n acc, cut (children_loop hc' hl mc n acc it) (children_loop hc hl mc n acc it).
Proof.
  intro H. induction it as [|c it IH]; intros n acc; cbn [children_loop]; [apply cut_refl|].
  destruct (hl && (mc <? n + 1)); [apply cut_refl|]. apply cut_bind; [apply H|]. intros [e|]; apply IH.
Qed.

Lemma cut_handle o f : forall fuel room d p, cut (stk_handle room fuel o d p f) (handle fuel o d p f).
Proof.
  induction fuel as [|fuel IH]; intros room d p; cbn [stk_handle handle]; apply cut_call; clear room; intro room;
    (apply cut_bind; [apply cut_refl|]); intros []; apply cut_call; clear room; intro room; try apply cut_refl;
    destruct (o_max_depth o <=? d); try apply cut_refl.
  apply cut_bind; [apply cut_refl|]. intros [dl|]; [|apply cut_refl]. apply cut_bind; [|intro; apply cut_refl].
  apply cut_close, cut_call. clear room. intro room. unfold handle_directory_children.
  apply cut_bind; [apply cut_refl|]. intro mc. apply cut_bind; [apply cut_refl|]. intro l. apply cut_bind; [apply cut_refl|]. intro it.
  apply cut_bind; [|intro; apply cut_refl]. apply cut_loop. intro c. apply IH.
Qed.

Lemma cut_children (r1 r2 : entry -> depth -> M jstring) d es : (forall c, In c es -> forall cd, cut (r1 c cd) (r2 c cd)) ->
  cut (render_children r1 d es) (render_children r2 d es).
Proof.
  induction es as [|c [|c' es] IH]; intros H; [apply cut_refl|cbn [render_children]; apply H; now left|].
  change (render_children r1 d (c :: c' :: es)) with (s <- r1 c (depth_append d NON_LAST_FILE); r <- render_children r1 d (c' :: es); ret (s ++ [c_nl] ++ r)).
  change (render_children r2 d (c :: c' :: es)) with (s <- r2 c (depth_append d NON_LAST_FILE); r <- render_children r2 d (c' :: es); ret (s ++ [c_nl] ++ r)).
  apply cut_bind; [apply H; now left|]. intros s. apply cut_bind; [|intro; apply cut_refl]. apply IH. intros x Hx. apply H. now right.
Qed.

Lemma cut_render o lr e : forall room d cp, cut (stk_render_entry room o lr e d cp) (render_entry o lr e d cp).
Proof.
  induction e as [dir es IH|f k|dd|n0] using entry_ind'; intros room d cp; cbn [stk_render_entry]; apply cut_call; clear room; intro room; try apply cut_refl.
  cbn [render_entry].
  assert (Hfin : forall ev : option (option jstring), cut
     (line <- render_directory_begin lr d dir cp;
      ext <- match ev with Some x => ret x | None => compute_line_extension o dir end;
      (let line := line ++ or_empty ext in
       let line := match es with [] => line | _ => line ++ [c_nl] end in
       children <- render_children (fun c cd => in_frame room (fun room => stk_render_entry room o lr c cd (initial_compact_paths c))) d es;
       ret (line ++ children)))
     (line <- render_directory_begin lr d dir cp;
      ext <- match ev with Some x => ret x | None => compute_line_extension o dir end;
      (let line := line ++ or_empty ext in
       let line := match es with [] => line | _ => line ++ [c_nl] end in
       children <- render_children (fun c cd => render_entry o lr c cd (initial_compact_paths c)) d es;
       ret (line ++ children)))).
  { intro ev. apply cut_bind; [apply cut_refl|]. intro line. apply cut_bind; [apply cut_refl|]. intro ext. cbn zeta.
    apply cut_bind; [|intro; apply cut_refl]. apply cut_children. intros c Hc cd. apply cut_call. intro r. rewrite Forall_forall in IH. now apply IH. }
  destruct es as [|c es]; [apply (Hfin None)|].
  destruct es as [|c' es]; [|destruct c; apply (Hfin None)].
  destruct c as [cd ces|f k|sd|n1]; try apply (Hfin None).
  destruct (o_compact o && negb (depth_is_root d)); [|apply (Hfin None)].
  apply cut_bind; [apply cut_refl|]. intros [x|]; [apply (Hfin (Some (Some x)))|].
  inversion IH as [|a b Hc _]; subst. apply Hc.
Qed.

Lemma C139_cut_lemma : forall room o p w h,
  stk_pretty_print room o p w h = pretty_print o p w h \/ exists h', stk_pretty_print room o p w h = (Throw ExStackOverflow, h').
Proof.
  intros room o p. change (cut (stk_pretty_print room o p) (pretty_print o p)). unfold stk_pretty_print, pretty_print, pretty_print_with.
  apply cut_call. clear room. intro room. apply cut_bind; [apply cut_refl|]. intro j. apply cut_bind.
  - unfold stk_scan, scan. apply cut_call. clear room. intro room. apply cut_bind; [apply cut_refl|]. intro r. apply cut_bind; [apply cut_handle|].
    intro. apply cut_refl.
  - intro e. unfold stk_render_tree, render_tree. apply cut_call. intro r1. apply cut_call. intro r2. apply cut_render.
Qed.

(** ** Frames for each level *)
Definition needs (room : nat) (e : entry) : Prop := forall k x, at_depth k e x -> entry_path x <> None -> (3 * k + 2 <= room)%nat.

Lemma handle_needs w o f : forall fuel room d p h e h', stk_handle room fuel o d p f w h = (Ok (Some e), h') -> needs room e.
Proof.
  assert (Hm : forall room d p e h h', (e0 <- new_max_depth_entry d; ret (Some (EDir p [e0]))) w h = (Ok (Some e), h') -> needs (S (S room)) e).
  { intros room d p e h h' E. apply bind_inv in E. destruct E as (e0 & h1 & E1 & E). unfold new_max_depth_entry in E1. destruct (d <? 0); [discriminate|].
    injection E1 as <- <-. injection E as <- _. intros k x Hk Hx. inversion Hk as [|k0 d0 es c y Hin Hat]; subst; [lia|].
    destruct Hin as [<-|[]]. inversion Hat; subst. now elim Hx. }
  assert (Hf : forall room p e h h', handle_file p w h = (Ok (Some e), h') -> needs (S (S room)) e).
  { intros room p e h h' E. unfold handle_file in E. apply bind_inv in E. destruct E as ([kd|] & h1 & _ & E); [|discriminate].
    injection E as <- _. intros k x Hk Hx. inversion Hk; subst. lia. }
  induction fuel as [|fuel IH]; intros room d p h e h' E; (destruct room as [|room]; [discriminate|]); cbn [stk_handle in_frame] in E;
    apply bind_inv in E; destruct E as ([] & h1 & E1 & E); (destruct room as [|room]; [discriminate|]); cbn [in_frame] in E; try (eapply Hf; exact E);
    destruct (Z.leb_spec (o_max_depth o) d) as [|Hlt]; try (eapply Hm; exact E); [discriminate|].
  apply bind_inv in E. destruct E as ([dl|] & h2 & Eo & E); [|discriminate].
  apply bind_inv in E. destruct E as (es & h3 & E & E'). injection E' as <- _. apply with_close_inv in E. destruct E as (h4 & E).
  destruct room as [|room]; [discriminate|]. cbn [in_frame] in E.
  assert (F : Forall (needs room) es).
  { eapply (children_all w o (needs room) (fun _ => True)); try exact E; auto.
    - intros c h5 e5 h6 _ E5. exact (IH _ _ _ _ _ _ E5).
    - intros k x Hk Hx. inversion Hk; subst. now elim Hx. }
  intros k x Hk Hx. inversion Hk as [|k0 d0 es1 c y Hin Hat]; subst; [lia|]. rewrite Forall_forall in F. specialize (F _ Hin _ _ Hat Hx). lia.
Qed.

Lemma C139_levels_lemma : forall room o p w h out h' v, sees w o v ->
  stk_pretty_print room o p w h = (Ok out, h') ->
  exists e h1 s, scan o (location w p) w h = (Ok e, h1) /\ shows v true e s /\ out = text (o_tree_format o) (labelled v s) /\
    forall k x, at_depth k e x -> entry_path x <> None -> (3 * k + 4 <= room)%nat.
Proof.
  intros room o p w h out h' v Hv E.
  assert (Ep : pretty_print o p w h = (Ok out, h')).
  { destruct (C139_cut_lemma room o p w h) as [X|(h2 & X)]; congruence. }
  destruct (print_displays _ _ _ _ _ _ _ Hv Ep) as (e & h1 & Es & s & Hsh & Ho). exists e, h1, s. repeat split; auto.
  destruct room as [|[|[|room]]]; try discriminate.
  - exfalso. unfold stk_pretty_print, stk_scan, in_frame, bind, get_jvm in E. cbn [clean_path] in E. unfold clean_path, get_jvm, bind, ret in E.
    destruct (Z.to_nat (o_max_depth o)); cbn [stk_handle in_frame] in E; discriminate.
  - rewrite stk_unfold in E. apply bind_inv in E. destruct E as (r & h2 & E1 & E2).
    assert (X : r = Some e).
    { apply (scan_handle o p w) in Es. destruct (cut_handle o (path_filter o) (Z.to_nat (o_max_depth o)) (S room) 0 (location w p) w h) as [X|(h3 & X)]; congruence. }
    subst r. apply handle_needs in E1. intros k x Hk Hx. specialize (E1 k x Hk Hx). lia.
Qed.

(** ** Streams are closed *)
Section Closed.
  Context (w : world) (o : options).
  Hypothesis Hc : callbacks w o balanced (fun _ => True).
  Definition closes (A : Type) (m : M A) : Prop := forall h, exists t, snd (m w h) = rev t ++ h /\ balanced t.

  Lemma cl_ret A (a : A) : closes A (ret a).
  Proof. intro h. exists []. split; [reflexivity|constructor]. Qed.
  Lemma cl_throw A x : closes A (throw x).
  Proof. intro h. exists []. split; [reflexivity|constructor]. Qed.
  Lemma cl_call A room (b : nat -> M A) : (forall room, closes A (b room)) -> closes A (in_frame room b).
  Proof. intro H. destruct room; [apply cl_throw|apply H]. Qed.
  Lemma cl_bind A B (m : M A) (f : A -> M B) : closes A m -> (forall a, closes B (f a)) -> closes B (bind m f).
  Proof.
    intros Hm Hf h. destruct (Hm h) as (t & E & Ht). unfold bind. destruct (m w h) as [[a|x] h1]; cbn [snd] in E; subst h1; [|exists t; auto].
    destruct (Hf a (rev t ++ h)) as (t' & E' & Ht'). exists (t ++ t'). rewrite E', rev_app_distr, app_assoc. split; [reflexivity|]. now apply balanced_app.
  Qed.
  Lemma cl_callback A B (f : A -> M B) E a : callback w f balanced E -> closes B (f a).
  Proof. intros Hf h. destruct (Hf a h) as (r & t & Hr & Hb & _). exists t. now rewrite Hr. Qed.
  Lemma cl_one A (m : M A) : (forall h, exists ev, snd (m w h) = ev :: h /\ (forall p, ev <> EvOpen p) /\ (forall p ok, ev <> EvClose p ok)) -> closes A m.
  Proof. intros H h. destruct (H h) as (ev & E & H1 & H2). exists [ev]. split; [exact E|]. constructor; auto. constructor. Qed.
  Lemma cl_lstat p : closes _ (pm_is_directory p).
  Proof. apply cl_one. intro h. eexists. split; [reflexivity|]. split; discriminate. Qed.
  Lemma cl_filterM A (f : A -> M bool) l : (forall a, closes bool (f a)) -> closes _ (filterM f l).
  Proof.
    intro Hf. induction l as [|a l IH]; cbn [filterM]; [apply cl_ret|].
    apply cl_bind; [apply Hf|]. intro b. apply cl_bind; [exact IH|]. intro. apply cl_ret.
  Qed.
  Lemma cl_path_filter p : closes _ (path_filter o p).
  Proof.
    destruct Hc as (C1 & C2 & _). apply cl_bind; [apply cl_lstat|].
    intros [|]; [exact (cl_callback _ _ _ _ p C1)|exact (cl_callback _ _ _ _ p C2)].
  Qed.
  Lemma cl_sorted l : closes _ (sorted (o_comparator o) l).
  Proof.
    destruct Hc as (_ & _ & _ & _ & _ & C6). unfold sorted. generalize (tim_sort l). intro s.
    induction s as [l'| | |a b k' IH]; cbn [run_sorting]; [apply cl_ret|apply cl_throw..|].
    apply cl_bind; [exact (cl_callback _ _ _ _ b (C6 a))|exact IH].
  Qed.
  Lemma cl_loop hc hl mc : (forall c, closes _ (hc c)) -> forall it n acc, closes _ (children_loop hc hl mc n acc it).
  Proof.
    intro H. induction it as [|c it IH]; intros n acc; cbn [children_loop]; [apply cl_ret|].
    destruct (hl && (mc <? n + 1)); [apply cl_ret|]. apply cl_bind; [apply H|]. intros [e|]; apply IH.
  Qed.

  Lemma cl_handle : forall fuel room d p, closes _ (stk_handle room fuel o d p (path_filter o)).
  Proof.
    assert (Hm : forall d p, closes _ (e0 <- new_max_depth_entry d; ret (Some (EDir p [e0])))).
    { intros d p. apply cl_bind; [|intro; apply cl_ret]. unfold new_max_depth_entry. destruct (d <? 0); [apply cl_throw|apply cl_ret]. }
    assert (Hf : forall p, closes _ (handle_file p)).
    { intro p. apply cl_bind; [|intros [k|]; [apply cl_ret|apply cl_throw]]. apply cl_one. intro h. eexists. split; [reflexivity|]. split; discriminate. }
    induction fuel as [|fuel IH]; intros room d p; cbn [stk_handle]; apply cl_call; clear room; intro room;
      (apply cl_bind; [apply cl_lstat|]); intros []; apply cl_call; clear room; intro room; try apply Hf;
      destruct (o_max_depth o <=? d); try apply Hm; [apply cl_throw|].
    assert (Hb : forall dl, closes _ (in_frame room (fun room => handle_directory_children o (fun c => stk_handle room fuel o (d + 1) c (path_filter o)) p dl (path_filter o)))).
    { intro dl. apply cl_call. intro r. unfold handle_directory_children. destruct Hc as (_ & _ & C3 & _).
      apply cl_bind; [exact (cl_callback _ _ _ _ p C3)|]. intro mc. apply cl_bind.
      - unfold stream_paths. apply cl_bind; [apply cl_filterM, cl_path_filter|]. intro l. destruct (dl_fail dl); [|apply cl_ret].
        apply cl_bind; [|intro; apply cl_throw]. apply cl_one. intro h. eexists. split; [reflexivity|]. split; discriminate.
      - intro l. apply cl_bind; [apply cl_sorted|]. intro it. apply cl_bind; [|intros [es rest]; apply cl_ret]. apply cl_loop. intro c. apply IH. }
    intro h. unfold bind at 1, open_dir. destruct (w_open w h p) as [dl|].
    - destruct (Hb dl (EvOpen p :: h)) as (t & E & Ht). unfold bind, with_close.
      assert (X : forall ok, EvClose p ok :: rev t ++ EvOpen p :: h = rev (EvOpen p :: t ++ [EvClose p ok]) ++ h).
      { intro ok. cbn [rev]. rewrite rev_app_distr. cbn [rev app]. now rewrite <- app_assoc. }
      destruct (in_frame room _ w (EvOpen p :: h)) as [[es|x] h1]; cbn [snd] in E; subst h1; unfold close_dir.
      + exists (EvOpen p :: t ++ [EvClose p (w_close_ok w (rev t ++ EvOpen p :: h) p)]). rewrite <- X.
        split; [destruct (w_close_ok w (rev t ++ EvOpen p :: h) p); reflexivity|]. apply bal_pair; [exact Ht|constructor].
      + exists (EvOpen p :: t ++ [EvClose p (w_close_ok w (rev t ++ EvOpen p :: h) p)]). rewrite <- X.
        split; [reflexivity|]. apply bal_pair; [exact Ht|constructor].
    - exists [EvOpenFail p]. split; [reflexivity|]. constructor; [discriminate..|constructor].
  Qed.

  Lemma cl_render e : forall room d cp, closes _ (stk_render_entry room o (line_renderer_create o) e d cp).
  Proof.
    assert (Hemo : forall p, closes _ (lr_emoji (line_renderer_create o) p)).
    { destruct Hc as (_ & _ & _ & C4 & _). intro p. exact (cl_callback _ _ _ _ p C4). }
    assert (Hext : forall p, closes _ (compute_line_extension o p)).
    { destruct Hc as (_ & _ & _ & _ & C5 & _). intro p. unfold compute_line_extension. destruct (o_line_extension o) as [g|]; [exact (cl_callback _ _ _ _ p C5)|apply cl_ret]. }
    induction e as [dir es IH|f k|dd|n0] using entry_ind'; intros room d cp; cbn [stk_render_entry]; apply cl_call; clear room; intro room; try apply cl_ret.
    - assert (Hfin : forall ev : option (option jstring), closes _
         (line <- render_directory_begin (line_renderer_create o) d dir cp;
          ext <- match ev with Some x => ret x | None => compute_line_extension o dir end;
          (let line := line ++ or_empty ext in
           let line := match es with [] => line | _ => line ++ [c_nl] end in
           children <- render_children (fun c cd => in_frame room (fun room => stk_render_entry room o (line_renderer_create o) c cd (initial_compact_paths c))) d es;
           ret (line ++ children)))).
      { intro ev. apply cl_bind; [apply (closed_begin closes); auto using cl_ret, cl_throw, cl_bind|]. intro line.
        apply cl_bind; [destruct ev; [apply cl_ret|apply Hext]|]. intro ext. cbn zeta. apply cl_bind; [|intro; apply cl_ret].
        clear -IH. induction IH as [|c es Hc Hes IHes]; [apply cl_ret|].
        destruct es as [|c' es]; [cbn [render_children]; apply cl_call; intro; apply Hc|].
        simpl in *. apply cl_bind; [apply cl_call; intro; apply Hc|]. intro. apply cl_bind; [exact IHes|]. intro. apply cl_ret. }
      destruct es as [|c es]; [apply (Hfin None)|].
      destruct es as [|c' es]; [|destruct c; apply (Hfin None)].
      destruct c as [cd ces|f k|sd|n1]; try apply (Hfin None).
      destruct (o_compact o && negb (depth_is_root d)); [|apply (Hfin None)].
      apply cl_bind; [apply Hext|]. intros [x|]; [apply (Hfin (Some (Some x)))|].
      inversion IH as [|a b Hc' _]; subst. apply Hc'.
    - exact (closed_render closes o (line_renderer_create o) cl_ret (fun A => cl_throw A _) cl_bind Hemo Hext (EFile f k) d cp).
  Qed.

  Lemma cl_print room p : closes _ (stk_pretty_print room o p).
  Proof.
    unfold stk_pretty_print. apply cl_call. intro r. apply cl_bind; [intro h; exists []; split; [reflexivity|constructor]|]. intro j. apply cl_bind.
    - unfold stk_scan. apply cl_call. intro r1. apply cl_bind; [intro h; exists []; split; [reflexivity|constructor]|]. intro q.
      apply cl_bind; [apply cl_handle|]. intros [e|]; [apply cl_ret|apply cl_throw].
    - intro e. unfold stk_render_tree. apply cl_call. intro r1. apply cl_call. intro r2. apply cl_render.
  Qed.
End Closed.

Lemma C139_closed_lemma : forall room o p w h, callbacks w o balanced (fun _ => True) ->
  exists t, snd (stk_pretty_print room o p w h) = rev t ++ h /\ balanced t.
Proof. intros room o p w h Hc. apply (cl_print w o Hc room p h). Qed.
