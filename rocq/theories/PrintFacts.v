(** * Facts about whole runs of the printer *)

From Verif Require Import SpecScan RenderFacts ScanFacts PathFacts TreeFacts HistFacts ShownFacts LayoutFacts.
Open Scope Z_scope.

Lemma clean_location w p : to_absolute (jv_cwd (w_jvm w)) (normalize (location w p)) = location w p.
Proof.
  unfold location. set (q := to_absolute (jv_cwd (w_jvm w)) p).
  assert (Hq : p_abs q = true) by (unfold q, to_absolute; destruct (p_abs p) eqn:E; auto).
  destruct q as [abs l]. cbn in Hq. subst abs. unfold normalize, to_absolute. cbn [p_abs p_names].
  now rewrite norm_names_idem.
Qed.

Lemma scan_location o p w h :
  scan o (location w p) w h =
  bind (handle (Z.to_nat (o_max_depth o)) o 0 (location w p) (path_filter o))
       (fun r => match r with Some e => ret e | None => throw ExNullPointer end) w h.
Proof. unfold scan, clean_path. unfold bind at 1 2. unfold get_jvm, ret at 1. rewrite clean_location. reflexivity. Qed.

(** A run scans the location, then renders the tree. *)
Lemma pretty_print_split o p w h :
  pretty_print o p w h = bind (scan o (location w p)) (render_tree o (line_renderer_create o)) w h.
Proof.
  rewrite scan_unfold. unfold bind at 1 2. rewrite scan_location. unfold bind.
  destruct (handle _ _ _ _ _ w h) as [[[e|]|x] h1]; reflexivity.
Qed.

Lemma scan_handle o p w h e h1 :
  scan o (location w p) w h = (Ok e, h1) <->
  handle (Z.to_nat (o_max_depth o)) o 0 (location w p) (path_filter o) w h = (Ok (Some e), h1).
Proof.
  rewrite scan_location. unfold bind. destruct (handle _ _ _ _ _ w h) as [[[e'|]|x] h2] eqn:E; unfold ret, throw; split; intro H;
    try discriminate; try congruence.
Qed.

Lemma print_scan o p w h out h' :
  pretty_print o p w h = (Ok out, h') ->
  exists e h1, scan o (location w p) w h = (Ok e, h1) /\ named e /\
               render_tree o (line_renderer_create o) e w h1 = (Ok out, h').
Proof.
  intro H. destruct (pretty_print_scan _ _ _ _ _ _ H) as (e & h1 & Hh & Hr). exists e, h1.
  split; [now apply scan_handle|]. split; [|exact Hr]. now apply (scanned_named _ _ _ _ _ _ _ _ Hh Hr).
Qed.

Lemma print_displays o p w h out h' v :
  sees w o v -> pretty_print o p w h = (Ok out, h') ->
  exists e h1, scan o (location w p) w h = (Ok e, h1) /\ displayed v (o_tree_format o) out e.
Proof.
  intros Hs H. destruct (pretty_print_displays _ _ _ _ _ _ _ Hs H) as (e & h1 & Hh & Hd).
  exists e, h1. split; [now apply scan_handle|exact Hd].
Qed.

(** ** Options the scanner does not look at *)

Section Ext.
  Context (o1 o2 : options) (f1 f2 : matcher).
  Hypothesis Hl : forall p w h, o_child_limit o1 p w h = o_child_limit o2 p w h.
  Hypothesis Hc : o_comparator o1 = o_comparator o2.
  Hypothesis Hm : o_max_depth o1 = o_max_depth o2.
  Hypothesis Hf : forall p w h, f1 p w h = f2 p w h.

  Lemma bind_ext A B (m1 m2 : M A) (g1 g2 : A -> M B) w h :
    m1 w h = m2 w h -> (forall a h, g1 a w h = g2 a w h) -> bind m1 g1 w h = bind m2 g2 w h.
  Proof. intros H1 H2. unfold bind. rewrite H1. destruct (m2 w h) as [[a|e] h']; auto. Qed.

  Lemma filterM_ext l w : forall h, filterM f1 l w h = filterM f2 l w h.
  Proof.
    induction l as [|a l IH]; intro h; [reflexivity|]. cbn [filterM]. apply bind_ext; [apply Hf|]. intros b h'.
    apply bind_ext; [apply IH|]. reflexivity.
  Qed.

  Lemma children_loop_ext (g1 g2 : path -> M (option entry)) hl mc w :
    (forall c h, g1 c w h = g2 c w h) ->
    forall it n acc h, children_loop g1 hl mc n acc it w h = children_loop g2 hl mc n acc it w h.
  Proof.
    intro Hg. induction it as [|c it IH]; intros n acc h; [reflexivity|]. cbn [children_loop].
    destruct (hl && (mc <? n + 1)); [reflexivity|]. apply bind_ext; [apply Hg|]. intros [e|] h'; apply IH.
  Qed.

  Lemma handle_ext fuel w : forall d p h, handle fuel o1 d p f1 w h = handle fuel o2 d p f2 w h.
  Proof.
    induction fuel as [|fuel IH]; intros d p h; cbn [handle]; apply bind_ext; try reflexivity;
      intros [|] h'; try reflexivity; rewrite Hm; destruct (o_max_depth o2 <=? d); try reflexivity.
    apply bind_ext; [reflexivity|]. intros [dl|] h2; [|reflexivity].
    apply bind_ext; [|reflexivity]. unfold with_close.
    enough (E : forall h3, handle_directory_children o1 (fun c => handle fuel o1 (d + 1) c f1) p dl f1 w h3 =
                handle_directory_children o2 (fun c => handle fuel o2 (d + 1) c f2) p dl f2 w h3) by (rewrite E; reflexivity).
    intro h3. unfold handle_directory_children. apply bind_ext; [apply Hl|]. intros mc h4.
    apply bind_ext. { unfold stream_paths. apply bind_ext; [apply filterM_ext|]. reflexivity. }
    intros l h5. rewrite Hc. apply bind_ext; [reflexivity|]. intros it h6.
    apply bind_ext; [|reflexivity]. apply children_loop_ext. intros c h7. apply IH.
  Qed.
End Ext.

Lemma scan_ext o1 o2 p w h :
  (forall p w h, o_child_limit o1 p w h = o_child_limit o2 p w h) -> o_comparator o1 = o_comparator o2 ->
  o_max_depth o1 = o_max_depth o2 ->
  (forall p w h, o_dir_matcher o1 p w h = o_dir_matcher o2 p w h) ->
  (forall p w h, o_file_matcher o1 p w h = o_file_matcher o2 p w h) ->
  scan o1 p w h = scan o2 p w h.
Proof.
  intros Hl Hc Hm Hd Hf. unfold scan. apply bind_ext; [reflexivity|]. intros q h'. rewrite <- Hm.
  apply bind_ext; [|reflexivity]. apply handle_ext; auto.
  intros q' w' h2. unfold path_filter, pm_if_then_else. apply bind_ext; [reflexivity|].
  intros [|] h3; auto.
Qed.

Lemma scan_with_compact b o p w h : scan (with_compact_directories b o) p w h = scan o p w h.
Proof. apply scan_ext; reflexivity. Qed.
Lemma scan_with_emojis f o p w h : scan (with_emojis f o) p w h = scan o p w h.
Proof. apply scan_ext; reflexivity. Qed.
Lemma scan_with_line_extension f o p w h : scan (with_line_extension f o) p w h = scan o p w h.
Proof. apply scan_ext; reflexivity. Qed.
Lemma scan_with_tree_format f o p w h : scan (with_tree_format f o) p w h = scan o p w h.
Proof. apply scan_ext; reflexivity. Qed.

(** ** C04 on the text *)

Lemma print_columns o p w h out h' v n :
  sees w o v -> same_width (o_tree_format o) n -> pretty_print o p w h = (Ok out, h') ->
  exists e h0 s lines,
    scan o (location w p) w h = (Ok e, h0) /\ shows v true e s /\ lines = rows (labelled v s) /\
    out = join [c_nl] (map (row_text (o_tree_format o)) lines) /\
    (forall r j, In r lines -> (j < length (fst r))%nat ->
       slice (j * (n + 1)) n (row_text (o_tree_format o) r) = column_symbol (o_tree_format o) (column_at (fst r) j)) /\
    (forall a b j, adjacent lines a b ->
       (column_at (fst a) j = ColNonLast \/ column_at (fst a) j = ColContinuation ->
          In (column_at (fst b) j) [ColNonLast; ColLast; ColContinuation]) /\
       (column_at (fst a) j = ColLast \/ column_at (fst a) j = ColEmpty ->
          ~ In (column_at (fst b) j) [ColNonLast; ColLast; ColContinuation]) /\
       (In (column_at (fst b) j) [ColNonLast; ColLast; ColContinuation] ->
          column_at (fst a) j = ColNonLast \/ column_at (fst a) j = ColContinuation \/ j = length (fst a))).
Proof.
  intros Hs Hw H. destruct (print_displays _ _ _ _ _ _ _ Hs H) as (e & h0 & Hsc & s & Hsh & Ho).
  exists e, h0, s, (rows (labelled v s)). split; [exact Hsc|]. split; [exact Hsh|]. split; [reflexivity|].
  split; [exact Ho|]. split.
  { intros [fl lab] j _ Hj. now apply column_slice. }
  intros a b j Hab. pose proof (adjacent_columns _ _ _ Hab j) as Hc. unfold open_column in Hc.
  split; [|split].
  - intro Hop. now apply Hc.
  - intros Hcl Hin.
    assert (Hj : j <> length (fst a)).
    { intros ->. rewrite column_none in Hcl. destruct Hcl; discriminate. }
    destruct (proj2 Hc (conj Hin Hj)) as [E|E]; rewrite E in Hcl; destruct Hcl; discriminate.
  - intro Hin. destruct (Nat.eq_dec j (length (fst a))) as [Ej|Ej]; [auto|].
    destruct (proj2 Hc (conj Hin Ej)); auto.
Qed.

Lemma print_widths o p w h out h' v n :
  sees w o v -> same_width (o_tree_format o) n -> pretty_print o p w h = (Ok out, h') ->
  exists e h0 s lines,
    scan o (location w p) w h = (Ok e, h0) /\ shows v true e s /\ lines = rows (labelled v s) /\
    out = join [c_nl] (map (fun r => row_prefix (o_tree_format o) (fst r) ++ snd r) lines) /\
    (forall r, In r lines -> length (row_prefix (o_tree_format o) (fst r)) = (length (fst r) * (n + 1))%nat).
Proof.
  intros Hs Hw H. destruct (print_displays _ _ _ _ _ _ _ Hs H) as (e & h0 & Hsc & s & Hsh & Ho).
  exists e, h0, s, (rows (labelled v s)). repeat split; auto. intros r _. now apply row_prefix_length.
Qed.

Lemma tree_format_create_spec nl l c e :
  (forall tf, tree_format_create (Some nl) (Some l) (Some c) (Some e) = Ok tf <->
     (length nl = length l /\ length nl = length c /\ length nl = length e) /\ tf = mkTreeFormat nl l c e) /\
  (~ (length nl = length l /\ length nl = length c /\ length nl = length e) ->
     tree_format_create (Some nl) (Some l) (Some c) (Some e) = Throw ExIllegalArgument).
Proof.
  unfold tree_format_create. cbn [map].
  assert (D : length (distinct [length nl; length l; length c; length e]) = 1%nat <->
              (length nl = length l /\ length nl = length c /\ length nl = length e)).
  { generalize (length nl), (length l), (length c), (length e). intros a b c0 d.
    split; [|intros (<- & <- & <-); cbn; now rewrite Nat.eqb_refl].
    intro H. cbn [distinct length] in H.
    assert (E : filter (fun y => negb (Nat.eqb a y)) (distinct [b; c0; d]) = []).
    { apply length_zero_iff_nil. cbn [distinct]. lia. }
    assert (Hall : forall x, In x [b; c0; d] -> a = x).
    { intros x Hx. destruct (Nat.eqb_spec a x) as [|Hne]; [assumption|].
      assert (Hd : forall l x, In x l -> In x (distinct l)).
      { clear. induction l as [|y l IH]; intros x Hx; [contradiction|]. cbn [distinct].
        destruct (Nat.eq_dec y x) as [->|Hyx]; [now left|]. right. destruct Hx as [|Hx]; [contradiction|].
        apply filter_In. split; [auto|]. destruct (Nat.eqb_spec y x); congruence || reflexivity. }
      assert (Hf : In x (filter (fun y => negb (Nat.eqb a y)) (distinct [b; c0; d]))).
      { apply filter_In. split; [auto|]. destruct (Nat.eqb_spec a x); congruence || reflexivity. }
      rewrite E in Hf. contradiction. }
    split; [|split]; apply Hall; simpl; auto. }
  destruct (Nat.eqb_spec (length (distinct [length nl; length l; length c; length e])) 1) as [E|E]; cbn [negb]; split.
  - intro tf. split.
    + intro H. injection H as <-. split; [now apply D|reflexivity].
    + intros [_ ->]. reflexivity.
  - intro H. exfalso. apply H. now apply D.
  - intro tf. split; [discriminate|]. intros [H _]. exfalso. apply E. now apply D.
  - reflexivity.
Qed.

(** ** C25: compaction keeps all names in order *)

Lemma compaction_same_names o p w h out1 out2 h1 h2 v :
  sees w o v ->
  pretty_print (with_compact_directories false o) p w h = (Ok out1, h1) ->
  pretty_print (with_compact_directories true o) p w h = (Ok out2, h2) ->
  exists e h0 s1 s2,
    scan o (location w p) w h = (Ok e, h0) /\
    shows (set_compact false v) true e s1 /\ out1 = text (o_tree_format o) (labelled v s1) /\
    shows (set_compact true v) true e s2 /\ out2 = text (o_tree_format o) (labelled v s2) /\
    shown_paths s1 = shown_paths s2 /\
    (forall chain kids, s2 = SDir chain kids -> chain = [location w p]).
Proof.
  intros (Hx & He & Hc) H1 H2.
  assert (S1 : sees w (with_compact_directories false o) (set_compact false v)) by (repeat split; auto).
  assert (S2 : sees w (with_compact_directories true o) (set_compact true v)) by (repeat split; auto).
  destruct (print_displays _ _ _ _ _ _ _ S1 H1) as (e1 & h01 & Hs1 & s1 & Hsh1 & Ho1).
  destruct (print_displays _ _ _ _ _ _ _ S2 H2) as (e2 & h02 & Hs2 & s2 & Hsh2 & Ho2).
  rewrite scan_with_compact in Hs1, Hs2. rewrite Hs1 in Hs2. injection Hs2 as <- <-.
  assert (Hlab : forall b s, labelled (set_compact b v) s = labelled v s).
  { intros b s. induction s as [c ks IH| |] using shown_ind'; cbn [labelled]; try reflexivity.
    f_equal. induction IH as [|k ks Hk _ IHks]; [reflexivity|]. cbn [map]. now rewrite Hk, IHks. }
  rewrite Hlab in Ho1, Ho2.
  exists e1, h01, s1, s2. repeat split; auto.
  - now rewrite (shows_paths _ _ _ _ Hsh1), (shows_paths _ _ _ _ Hsh2).
  - intros chain kids Es. destruct (shows_root_chain _ _ _ Hsh2 _ _ Es) as (d & es & -> & ->).
    apply scan_handle in Hs1. apply handle_shaped in Hs1. apply shaped_root_path in Hs1. now injection Hs1 as ->.
Qed.

(** ** C26 *)
Lemma compaction_exact o p w h out h' v :
  sees w o v -> v_compact v = true -> pretty_print o p w h = (Ok out, h') ->
  exists e h0 s,
    scan o (location w p) w h = (Ok e, h0) /\
    shows v true e s /\ out = text (o_tree_format o) (labelled v s) /\
    forall d c, merged_on s d c <-> v_ext v d = None /\ exists ces, inside e (EDir d [EDir c ces]).
Proof.
  intros Hs Hc H. destruct (print_displays _ _ _ _ _ _ _ Hs H) as (e & h0 & Hsc & s & Hsh & Ho).
  exists e, h0, s. repeat split; auto.
  - destruct (line_of_inside_merged _ _ _ _ Hsh _ _ H0) as (Hx & _ & _). exact Hx.
  - destruct (line_of_inside_merged _ _ _ _ Hsh _ _ H0) as (_ & _ & ces & [Hi|[Ht _]]); [eauto|discriminate].
  - intros [Hx [ces Hi]]. eapply inside_merged; eauto.
Qed.

(** ** C27 *)
Lemma extension_calls tag o f p w h :
  o_line_extension o = Some (logged tag f) -> silent tag f -> silent tag (o_emoji o) ->
  silent tag (o_dir_matcher o) -> silent tag (o_file_matcher o) -> silent tag (o_child_limit o) ->
  (forall a, silent tag (o_comparator o a)) ->
  match pretty_print o p w h with
  | (Ok out, h') => exists e h0, scan o (location w p) w h = (Ok e, h0) /\
                                 calls tag h' = calls tag h ++ entry_paths e
  | (Throw _, h') => calls tag h' = calls tag h \/
                     exists e h0 k, scan o (location w p) w h = (Ok e, h0) /\
                                    calls tag h' = calls tag h ++ firstn k (entry_paths e)
  end.
Proof.
  intros Ho Hf He Hd Hfi Hl Hc.
  assert (Hk : calls tag (snd (scan o (location w p) w h)) = calls tag h).
  { set (R := fun h h' : hist => calls tag h' = calls tag h).
    assert (HR : keeps R (scan o (location w p))).
    { apply keeps_scan; unfold R; auto.
      - intros; congruence.
      - intros ev h0 Hu. now apply calls_cons_other. }
    apply HR. }
  rewrite pretty_print_split. unfold bind. destruct (scan o (location w p) w h) as [[e|x] h0] eqn:Es; cbn [snd] in Hk.
  - pose proof (render_entry_makes tag w o (line_renderer_create o) f Ho Hf He e [] (initial_compact_paths e) h0) as Hm.
    unfold render_tree. destruct (render_entry _ _ _ _ _ w h0) as [[out|x] h'].
    + exists e, h0. split; [reflexivity|]. now rewrite Hm, Hk.
    + right. destruct Hm as [k Hm]. exists e, h0, k. split; [reflexivity|]. now rewrite Hm, Hk.
  - left. exact Hk.
Qed.

(** ** C28 *)
Lemma plain_lines o p w h out h' v :
  sees w o v -> v_compact v = false -> distinguishable (o_tree_format o) ->
  pretty_print o p w h = (Ok out, h') ->
  exists e h0 s,
    scan o (location w p) w h = (Ok e, h0) /\
    shows v true e s /\ out = text (o_tree_format o) (labelled v s) /\
    (labels_on_one_line (labelled v s) -> length (split_on c_nl out) = entry_count e) /\
    (forall chain kids, line_of s (SDir chain kids) -> exists d, chain = [d]).
Proof.
  intros Hs Hc Hd H. destruct (print_displays _ _ _ _ _ _ _ Hs H) as (e & h0 & Hsc & s & Hsh & Ho).
  exists e, h0, s. repeat split; auto.
  - intro Hl. rewrite Ho, text_line_count by assumption. eapply shows_plain_count; eauto.
  - clear -Hsh Hc. revert e Hsh. generalize true.
    induction s as [c ks IH| |] using shown_ind'; intros top e Hsh chain kids Hl;
      inversion Hl as [|c0 ks0 k0 s0 Hin Hlk]; subst; inversion Hsh as [| | |t d es ks' Ht HF|? ? ? ? Hcc]; subst; try congruence.
    + eauto.
    + rewrite Forall_forall in IH. destruct (Forall2_in_r _ _ _ _ _ _ HF Hin) as (x & _ & Hx).
      eapply IH; eauto.
Qed.

(** ** C47 *)
Lemma emoji_inserts o em p w h out1 out2 h1 h2 v :
  sees w (with_emojis em o) v ->
  pretty_print (with_emojis emoji_none o) p w h = (Ok out1, h1) ->
  pretty_print (with_emojis em o) p w h = (Ok out2, h2) ->
  exists e h0 s lines,
    scan o (location w p) w h = (Ok e, h0) /\
    shows v true e s /\ lines = rows (labelled (no_emoji v) s) /\
    length lines = length (line_paths s) /\
    out1 = join [c_nl] (map (row_text (o_tree_format o)) lines) /\
    out2 = join [c_nl] (map (fun pl => row_text (o_tree_format o) (add_emoji (v_emoji v) (fst pl) (snd pl)))
                            (combine (line_paths s) lines)).
Proof.
  intros S2 H1 H2. pose proof S2 as (Hx & _ & Hc).
  assert (S1 : sees w (with_emojis emoji_none o) (no_emoji v)).
  { split; [exact Hx|]. split; [|exact Hc]. intros a h'. exists h'. reflexivity. }
  destruct (print_displays _ _ _ _ _ _ _ S1 H1) as (e1 & h01 & Hs1 & s1 & Hsh1 & Ho1).
  destruct (print_displays _ _ _ _ _ _ _ S2 H2) as (e2 & h02 & Hs2 & s2 & Hsh2 & Ho2).
  rewrite scan_with_emojis in Hs1, Hs2. rewrite Hs1 in Hs2. injection Hs2 as <- <-.
  assert (Hss : s1 = s2).
  { assert (Hch : forall x ds xs, chain_of (no_emoji v) x ds xs -> chain_of v x ds xs).
    { intros x ds xs Hch. induction Hch; [now constructor|]. now constructor. }
    assert (Hcv : forall x top s, shows (no_emoji v) top x s -> shows v top x s).
    { intro x. pattern x. apply entry_inside_ind. clear x. intros x IH top s Hsh.
      assert (HF : forall es ks, (forall y, In y es -> inside x y) ->
                 Forall2 (shows (no_emoji v) false) es ks -> Forall2 (shows v false) es ks).
      { intros es ks Hin HF. induction HF; constructor; auto.
        - apply IH; auto. apply Hin. now left.
        - apply IHHF. intros z Hz. apply Hin. now right. }
      inversion Hsh; subst; try now constructor.
      - constructor; auto. apply HF; auto. intros y Hy. now constructor.
      - eapply shows_compact; eauto. apply HF; auto. eapply chain_smaller. eauto. }
    exact (shows_fun v e1 true s1 s2 (Hcv _ _ _ Hsh1) Hsh2). }
  subst s2. exists e1, h01, s1, (rows (labelled (no_emoji v) s1)). repeat split; auto.
  - apply labelled_rows_length.
  - rewrite Ho2. unfold text. rewrite labelled_emoji. unfold zip_emoji. rewrite map_map. reflexivity.
Qed.

(** ** Closing lemmas *)

Lemma C01_lemma o p w h out h' v :
  sees w o v -> pretty_print o p w h = (Ok out, h') ->
  exists e h1 s,
    scan o (location w p) w h = (Ok e, h1) /\ shows v true e s /\
    out = join [c_nl] (map (row_text (o_tree_format o)) (rows (labelled v s))).
Proof.
  intros Hs H. destruct (print_displays _ _ _ _ _ _ _ Hs H) as (e & h1 & Hsc & s & Hsh & Ho).
  exists e, h1, s. auto.
Qed.

Lemma C02_lemma o1 o2 p1 p2 w1 w2 h1 h2 h1' h2' v1 v2 out :
  o_tree_format o1 = o_tree_format o2 -> distinguishable (o_tree_format o1) ->
  sees w1 o1 v1 -> sees w2 o2 v2 ->
  pretty_print o1 p1 w1 h1 = (Ok out, h1') -> pretty_print o2 p2 w2 h2 = (Ok out, h2') ->
  exists e1 e2 s1 s2 k1 k2,
    scan o1 (location w1 p1) w1 h1 = (Ok e1, k1) /\ shows v1 true e1 s1 /\
    scan o2 (location w2 p2) w2 h2 = (Ok e2, k2) /\ shows v2 true e2 s2 /\
    (labels_on_one_line (labelled v1 s1) -> labels_on_one_line (labelled v2 s2) ->
     labelled v1 s1 = labelled v2 s2).
Proof.
  intros Htf Hd S1 S2 H1 H2.
  destruct (print_displays _ _ _ _ _ _ _ S1 H1) as (e1 & k1 & Hsc1 & s1 & Hsh1 & Ho1).
  destruct (print_displays _ _ _ _ _ _ _ S2 H2) as (e2 & k2 & Hsc2 & s2 & Hsh2 & Ho2).
  exists e1, e2, s1, s2, k1, k2. repeat split; auto. intros L1 L2.
  apply (text_inj (o_tree_format o1)); auto. rewrite <- Ho1, Htf. exact Ho2.
Qed.

Lemma C02_builtin_lemma : distinguishable CLASSIC_ASCII /\ distinguishable UNICODE_BOX_DRAWING.
Proof.
  assert (D : forall tf w, same_width tf w ->
     existsb (jeqb (tf_non_last tf)) [tf_continuation tf; tf_empty tf] = false ->
     existsb (jeqb (tf_last tf)) [tf_continuation tf; tf_empty tf] = false ->
     existsb (existsb (N.eqb c_nl)) [tf_non_last tf; tf_last tf; tf_continuation tf; tf_empty tf] = false ->
     distinguishable tf).
  { intros tf w Hw H1 H2 H3. split; [eauto|]. split.
    - intros b i Hb Hi ->.
      assert (Hx : forall x, existsb (jeqb x) [tf_continuation tf; tf_empty tf] = false -> ~ In x [tf_continuation tf; tf_empty tf]).
      { intros x Hf Hin. assert (existsb (jeqb x) [tf_continuation tf; tf_empty tf] = true); [|congruence].
        apply existsb_exists. exists x. split; [exact Hin|]. clear. induction x; simpl; auto. now rewrite N.eqb_refl. }
      destruct Hb as [E|[E|[]]]; rewrite <- E in Hi; [exact (Hx _ H1 Hi)|exact (Hx _ H2 Hi)].
    - intros s Hs Hin. assert (existsb (existsb (N.eqb c_nl)) [tf_non_last tf; tf_last tf; tf_continuation tf; tf_empty tf] = true); [|congruence].
      apply existsb_exists. exists s. split; [exact Hs|]. apply existsb_exists. exists c_nl. split; [exact Hin|]. apply N.eqb_refl. }
  split; [apply (D _ 3%nat)|apply (D _ 2%nat)]; try reflexivity; repeat split.
Qed.

Lemma C03_lemma nl l c e tf o p w h out h' v :
  tree_format_create nl l c e = Ok tf -> o_tree_format o = tf ->
  sees w o v -> pretty_print o p w h = (Ok out, h') ->
  exists n t h0 s lines,
    same_width tf n /\
    scan o (location w p) w h = (Ok t, h0) /\ shows v true t s /\ lines = rows (labelled v s) /\
    out = join [c_nl] (map (fun r => row_prefix tf (fst r) ++ snd r) lines) /\
    (forall r, In r lines -> length (row_prefix tf (fst r)) = (length (fst r) * (n + 1))%nat).
Proof.
  intros Hc Ho Hs H. destruct nl as [nl|]; [|discriminate]. destruct l as [l|]; [|discriminate].
  destruct c as [c|]; [|discriminate]. destruct e as [e|]; [|discriminate].
  apply tree_format_create_spec in Hc. destruct Hc as [(E1 & E2 & E3) Etf].
  assert (Hw : same_width tf (length nl)) by (rewrite Etf; repeat split; cbn; auto).
  rewrite <- Ho in Hw. destruct (print_widths _ _ _ _ _ _ _ _ Hs Hw H) as (t & h0 & s & lines & H1 & H2 & H3 & H4 & H5).
  rewrite Ho in *. exists (length nl), t, h0, s, lines. repeat split; auto; apply Hw.
Qed.

Lemma C27_ends_lemma o p w h out h' v :
  sees w o v -> pretty_print o p w h = (Ok out, h') ->
  exists e h1 s,
    scan o (location w p) w h = (Ok e, h1) /\ shows v true e s /\
    out = text (o_tree_format o) (labelled v s) /\
    shown_paths s = entry_paths e /\
    length (line_paths s) = length (rows (labelled v s)) /\
    rows (labelled v s) =
      map (fun pl => add_ext (v_ext v) (fst pl) (snd pl)) (combine (line_paths s) (rows (labelled (no_ext v) s))).
Proof.
  intros Hs H. destruct (print_displays _ _ _ _ _ _ _ Hs H) as (e & h1 & Hsc & s & Hsh & Ho).
  exists e, h1, s. repeat split; auto.
  - eapply shows_paths; eauto.
  - symmetry. apply labelled_rows_length.
  - apply labelled_ext.
Qed.
