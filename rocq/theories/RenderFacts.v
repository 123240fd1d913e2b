(** * Proofs about the renderer *)

From Verif Require Import Printer SpecRender.

(** ** Induction principles *)

Section EntryInd.
  Variable P : entry -> Prop.
  Hypothesis Hdir : forall d es, Forall P es -> P (EDir d es).
  Hypothesis Hfile : forall f k, P (EFile f k).
  Hypothesis Hskip : forall d, P (ESkipped d).
  Hypothesis Hmax : forall n, P (EMaxDepth n).
  Fixpoint entry_ind' (e : entry) : P e :=
    match e with
    | EDir d es =>
        Hdir d es ((fix go l : Forall P l :=
                   match l with [] => Forall_nil _ | x :: l' => Forall_cons _ (entry_ind' x) (go l') end) es)
    | EFile f k => Hfile f k
    | ESkipped d => Hskip d
    | EMaxDepth n => Hmax n
    end.
End EntryInd.

Section DtreeInd.
  Variable P : dtree -> Prop.
  Hypothesis H : forall l ks, Forall P ks -> P (DT l ks).
  Fixpoint dtree_ind' (t : dtree) : P t :=
    match t with
    | DT l ks => H l ks ((fix go l : Forall P l :=
                         match l with [] => Forall_nil _ | x :: l' => Forall_cons _ (dtree_ind' x) (go l') end) ks)
    end.
End DtreeInd.

Section ShownInd.
  Variable P : shown -> Prop.
  Hypothesis Hdir : forall c ks, Forall P ks -> P (SDir c ks).
  Hypothesis Hfile : forall f k, P (SFile f k).
  Hypothesis Hdots : P SDots.
  Fixpoint shown_ind' (s : shown) : P s :=
    match s with
    | SDir c ks => Hdir c ks ((fix go l : Forall P l :=
                         match l with [] => Forall_nil _ | x :: l' => Forall_cons _ (shown_ind' x) (go l') end) ks)
    | SFile f k => Hfile f k
    | SDots => Hdots
    end.
End ShownInd.

(** ** Computations that succeed with a known value *)

Definition yields {A} (w : world) (m : M A) (a : A) : Prop := forall h, exists h', m w h = (Ok a, h').

Lemma yields_ret A w (a : A) : yields w (ret a) a.
Proof. intro h. exists h. reflexivity. Qed.

Lemma yields_bind A B w (m : M A) (f : A -> M B) a b :
  yields w m a -> yields w (f a) b -> yields w (bind m f) b.
Proof.
  intros Hm Hf h. destruct (Hm h) as [h1 E1]. destruct (Hf h1) as [h2 E2].
  exists h2. unfold bind. rewrite E1. exact E2.
Qed.

Lemma answers_yields A B w (f : A -> M B) g a : answers w f g -> yields w (f a) (g a).
Proof. intros H h. apply H. Qed.

Lemma mapM_yields A B w (f : A -> M B) g l :
  (forall a, In a l -> yields w (f a) (g a)) -> yields w (mapM f l) (map g l).
Proof.
  induction l as [|a l IH]; intros H; simpl.
  - apply yields_ret.
  - eapply yields_bind; [apply H; now left|].
    eapply yields_bind; [apply IH; intros; apply H; now right|]. apply yields_ret.
Qed.

(** ** Text layout *)

Definition rows_below : list dtree -> list row :=
  fix below (l : list dtree) : list row :=
    match l with
    | [] => []
    | [k] => map (under true) (rows k)
    | k :: l' => map (under false) (rows k) ++ below l'
    end.

Lemma rows_eq l ks : rows (DT l ks) = ([], l) :: rows_below ks.
Proof. reflexivity. Qed.

Lemma rows_nonempty t : rows t <> [].
Proof. destruct t. discriminate. Qed.

Lemma rows_below_nonempty ks : ks <> [] -> rows_below ks <> [].
Proof.
  destruct ks as [|k [|k' ks]]; intro H; [congruence| |].
  - simpl. pose proof (rows_nonempty k). destruct (rows k); simpl; congruence.
  - simpl. pose proof (rows_nonempty k). destruct (rows k); simpl; congruence.
Qed.

Lemma rows_below_one k : rows_below [k] = map (under true) (rows k).
Proof. reflexivity. Qed.

Lemma rows_below_cons k k' ks :
  rows_below (k :: k' :: ks) = map (under false) (rows k) ++ rows_below (k' :: ks).
Proof. reflexivity. Qed.

Lemma join_cons sep x l : l <> [] -> join sep (x :: l) = x ++ sep ++ join sep l.
Proof. destruct l; intro H; [congruence|reflexivity]. Qed.

Lemma join_app sep a b : a <> [] -> b <> [] -> join sep (a ++ b) = join sep a ++ sep ++ join sep b.
Proof.
  intros Ha Hb. induction a as [|x a IH]; [congruence|].
  destruct a as [|y a].
  - simpl app at 1. rewrite join_cons by exact Hb. reflexivity.
  - change ((x :: y :: a) ++ b) with (x :: ((y :: a) ++ b)).
    rewrite join_cons by discriminate. rewrite IH by discriminate.
    rewrite (@join_cons sep x (y :: a)) by discriminate. now rewrite !app_assoc.
Qed.

Definition rt (tf : tree_format) (flags : list bool) (r : row) : jstring :=
  row_prefix tf (flags ++ fst r) ++ snd r.

Definition block (tf : tree_format) (flags : list bool) (t : dtree) : jstring :=
  join [c_nl] (map (rt tf flags) (rows t)).

Lemma block_snoc tf flags b t :
  block tf (flags ++ [b]) t = join [c_nl] (map (rt tf flags) (map (under b) (rows t))).
Proof.
  unfold block. f_equal. rewrite map_map. apply map_ext. intros [fl l]. unfold rt, under. simpl.
  now rewrite <- app_assoc.
Qed.

Definition sym (last : bool) : tree_symbol := if last then LAST_FILE else NON_LAST_FILE.

Lemma format_prefix tf flags : tree_formatter_format tf (map sym flags) = row_prefix tf flags.
Proof.
  unfold tree_formatter_format. induction flags as [|b flags IH]; [reflexivity|].
  destruct flags as [|b' flags].
  - destruct b; reflexivity.
  - change (map sym (b :: b' :: flags)) with (sym b :: map sym (b' :: flags)).
    remember (map sym (b' :: flags)) as r eqn:Hr.
    assert (Hne : r <> []) by (subst r; discriminate).
    destruct r as [|s r]; [congruence|].
    change (row_prefix tf (b :: b' :: flags)) with
      ((if b then tf_empty tf else tf_continuation tf) ++ [c_space] ++ row_prefix tf (b' :: flags)).
    rewrite <- IH. destruct b; reflexivity.
Qed.

(** ** Compaction as a function *)

Fixpoint group (v : view) (top : bool) (pre : list path) (e : entry) : shown :=
  match e with
  | EFile f k => SFile f k
  | ESkipped _ | EMaxDepth _ => SDots
  | EDir d es =>
      match es with
      | [EDir _ _ as c] =>
          if v_compact v && negb top && negb (is_some (v_ext v d))
          then group v false (pre ++ [d]) c
          else SDir (pre ++ [d]) (map (group v false []) es)
      | _ => SDir (pre ++ [d]) (map (group v false []) es)
      end
  end.

Definition add_chain (pre : list path) (s : shown) : shown :=
  match s with SDir c ks => SDir (pre ++ c) ks | _ => s end.

Lemma group_one v top pre d cd ces :
  group v top pre (EDir d [EDir cd ces]) =
  if v_compact v && negb top && negb (is_some (v_ext v d))
  then group v false (pre ++ [d]) (EDir cd ces)
  else SDir (pre ++ [d]) (map (group v false []) [EDir cd ces]).
Proof. reflexivity. Qed.

Lemma group_other v top pre d es :
  (forall cd ces, es <> [EDir cd ces]) ->
  group v top pre (EDir d es) = SDir (pre ++ [d]) (map (group v false []) es).
Proof.
  intro H. destruct es as [|c [|c' es]]; [reflexivity| |destruct c; reflexivity].
  destruct c; try reflexivity. exfalso. eapply H; reflexivity.
Qed.

Lemma one_dir_dec (es : list entry) :
  (exists cd ces, es = [EDir cd ces]) \/ (forall cd ces, es <> [EDir cd ces]).
Proof.
  destruct es as [|c [|c' es]]; [right; discriminate| |right; discriminate].
  destruct c; [left; eauto|right; discriminate..].
Qed.

Lemma group_pre v e : forall top pre, group v top pre e = add_chain pre (group v top [] e).
Proof.
  induction e as [d es IH|f k|d|n] using entry_ind'; intros top pre; try reflexivity.
  destruct (one_dir_dec es) as [(cd & ces & ->)|Hno].
  - inversion IH as [|x l Hc Hl]; subst. rewrite !group_one.
    destruct (v_compact v && negb top && negb (is_some (v_ext v d))); [|reflexivity].
    rewrite (Hc false (pre ++ [d])), (Hc false ([] ++ [d])).
    destruct (group v false [] (EDir cd ces)); cbn [add_chain]; try reflexivity.
    rewrite app_nil_l. now rewrite <- app_assoc.
  - rewrite !group_other by exact Hno. reflexivity.
Qed.

Lemma group_shows v e : forall top, shows v top e (group v top [] e).
Proof.
  induction e as [d es IH|f k|d|n] using entry_ind'; intro top; try constructor.
  assert (Hkids : Forall2 (shows v false) es (map (group v false []) es)).
  { clear -IH. induction IH as [|x l Hx Hl IHl]; constructor; auto. }
  assert (Hstop : ~ mergeable v d es -> shows v top (EDir d es) (SDir [d] (map (group v false []) es))).
  { intro Hnm. destruct top; [constructor; auto|].
    destruct (v_compact v) eqn:Ec.
    - eapply shows_compact; [exact Ec|constructor; exact Hnm|exact Hkids].
    - constructor; auto. }
  destruct (one_dir_dec es) as [(cd & ces & ->)|Hno].
  2:{ rewrite group_other by exact Hno. apply Hstop.
      intros (_ & c & -> & Hd). destruct c; try contradiction. eapply Hno; reflexivity. }
  inversion IH as [|x l Hc Hl]; subst. rewrite group_one.
  destruct (v_ext v d) as [x|] eqn:Ex.
  { cbn [is_some negb]. rewrite andb_false_r. apply Hstop. intros (Hn & _). congruence. }
  destruct (v_compact v) eqn:Ec.
  2:{ cbn [andb]. constructor; auto. }
  destruct top.
  { cbn [andb negb]. constructor; auto. }
  cbn [andb negb is_some]. rewrite group_pre.
  assert (Hm : mergeable v d [EDir cd ces]).
  { split; [exact Ex|]. eexists; split; [reflexivity|exact I]. }
  specialize (Hc false). destruct (group v false [] (EDir cd ces)) as [ch ks|f k|] eqn:Eg.
  - cbn [add_chain]. inversion Hc as [| | |t0 d0 es0 ks0 Hor Hf|e0 ds es0 ks0 Hcc Hch Hf]; subst.
    + destruct Hor; congruence.
    + eapply shows_compact; [exact Ec|constructor 2; eassumption|exact Hf].
  - inversion Hc.
  - inversion Hc.
Qed.

(** [shows] determines the displayed node. *)
Lemma chain_of_fun v e ds es : chain_of v e ds es -> forall ds' es', chain_of v e ds' es' -> ds = ds' /\ es = es'.
Proof.
  induction 1 as [d es Hn|d c ds es Hm Hc IH]; intros ds' es' H'; inversion H'; subst.
  - auto.
  - contradiction.
  - contradiction.
  - edestruct IH as [-> ->]; eauto.
Qed.

Lemma chain_of_head v e ds es : chain_of v e ds es -> exists d es', e = EDir d es' /\ exists r, ds = d :: r.
Proof. destruct 1; eauto 6. Qed.

Lemma shows_fun v e : forall top s s', shows v top e s -> shows v top e s' -> s = s'.
Proof.
  (* strong induction: a chain may skip several levels *)
  assert (Hgen : forall n, forall e top s s',
            (fix size e := match e with EDir _ es => S (fold_right (fun x a => size x + a)%nat 0%nat es) | _ => 1%nat end) e < n ->
            shows v top e s -> shows v top e s' -> s = s').
  2:{ intros. eapply Hgen; eauto. }
  set (size := (fix size e := match e with EDir _ es => S (fold_right (fun x a => size x + a)%nat 0%nat es) | _ => 1%nat end)).
  induction n as [|n IH]; intros e0 top s s' Hn H H'; [lia|].
  assert (Hlist : forall es ks ks', fold_right (fun x a => size x + a)%nat 0%nat es < n ->
            Forall2 (shows v false) es ks -> Forall2 (shows v false) es ks' -> ks = ks').
  { intros es ks ks' Hsz HF. revert ks'. induction HF as [|x y l l' Hx Hl IHl]; intros ks' HF'; inversion HF'; subst; auto.
    simpl in Hsz. f_equal; [eapply IH; eauto; lia|apply IHl; auto; lia]. }
  assert (Hchain : forall e ds es, chain_of v e ds es -> fold_right (fun x a => size x + a)%nat 0%nat es < size e).
  { induction 1 as [d es Hd|d c ds es Hm Hc IHc]; [simpl; lia|]. simpl. fold size. lia. }
  inversion H as [t1 f1 k1|t1 d1|t1 n1|t1 d1 es1 ks1 Hor1 HF1|e1 ds1 es1 ks1 Hc1 Hch1 HF1]; subst;
    inversion H' as [t2 f2 k2|t2 d2|t2 n2|t2 d2 es2 ks2 Hor2 HF2|e2 ds2 es2 ks2 Hc2 Hch2 HF2]; subst; auto;
    try (match goal with Hch : chain_of v _ _ _ |- _ => apply chain_of_head in Hch; destruct Hch as (? & ? & ? & _); discriminate end).
  - f_equal. eapply Hlist; eauto. simpl in Hn. fold size in Hn. lia.
  - destruct Hor1; congruence.
  - destruct Hor2; congruence.
  - destruct (chain_of_fun _ _ _ _ Hch1 _ _ Hch2) as [-> ->]. f_equal. eapply Hlist; eauto.
    apply Hchain in Hch2. lia.
Qed.

(** ** The renderer refines the specification *)

Lemma get_file_name_named p : p_names p <> [] -> get_file_name p = Some (mkPath false [last_name p]).
Proof.
  intro H. unfold get_file_name, last_name.
  destruct (p_names p) as [|x l] using rev_ind; [congruence|].
  rewrite rev_app_distr. simpl. now rewrite last_last.
Qed.

Lemma path_str_single n : path_str (mkPath false [n]) = n.
Proof. reflexivity. Qed.

Lemma dir_label_yields w d : p_names d <> [] -> yields w (dir_label d) (last_name d ++ js "/").
Proof. intro H. unfold dir_label. rewrite get_file_name_named by exact H. apply yields_ret. Qed.

Section Refine.
  Context (w : world) (o : options) (lr : line_renderer) (v : view).
  Hypothesis Hext : answers w (compute_line_extension o) (v_ext v).
  Hypothesis Hemoji : answers w (lr_emoji lr) (v_emoji v).
  Hypothesis Hcompact : o_compact o = v_compact v.
  Let tf := lr_tree_format lr.

  Lemma emoji_prefix_yields p : yields w (emoji_prefix (lr_emoji lr) p) (emoji_str v p).
  Proof.
    eapply yields_bind; [apply answers_yields; exact Hemoji|].
    unfold emoji_str. destruct (v_emoji v p); apply yields_ret.
  Qed.

  Lemma format_directory_begin_yields dirs :
    Forall (fun d => p_names d <> []) dirs ->
    yields w (format_directory_begin dirs) (concat (map (fun d => last_name d ++ js "/") dirs)).
  Proof.
    intro H. unfold format_directory_begin. eapply yields_bind.
    - apply mapM_yields with (g := fun d => last_name d ++ js "/").
      intros d Hd. apply dir_label_yields. rewrite Forall_forall in H. auto.
    - apply yields_ret.
  Qed.

  Lemma render_children_yields (rn : entry -> depth -> M jstring) (f : entry -> dtree) flags es :
    es <> [] ->
    (forall c b, In c es -> yields w (rn c (map sym flags ++ [sym b])) (block tf (flags ++ [b]) (f c))) ->
    yields w (render_children rn (map sym flags) es)
             (join [c_nl] (map (rt tf flags) (rows_below (map f es)))).
  Proof.
    intros Hne H. induction es as [|c es IH]; [congruence|].
    destruct es as [|c' es].
    - simpl. rewrite <- block_snoc. apply (H c true). now left.
    - change (map f (c :: c' :: es)) with (f c :: f c' :: map f es).
      rewrite rows_below_cons, map_app, join_app.
      2:{ pose proof (rows_nonempty (f c)). destruct (rows (f c)); simpl; congruence. }
      2:{ pose proof (@rows_below_nonempty (f c' :: map f es) ltac:(discriminate)).
          destruct (rows_below (f c' :: map f es)); simpl; congruence. }
      change (render_children rn (map sym flags) (c :: c' :: es)) with
        (s <- rn c (depth_append (map sym flags) NON_LAST_FILE);
         r <- render_children rn (map sym flags) (c' :: es); ret (s ++ [c_nl] ++ r)).
      eapply yields_bind; [apply (H c false); now left|].
      eapply yields_bind; [apply IH; [discriminate|]; intros; apply H; now right|].
      rewrite <- block_snoc. apply yields_ret.
  Qed.

  Lemma render_entry_yields e : named e -> forall flags pre,
    Forall (fun d => p_names d <> []) pre ->
    yields w (render_entry o lr e (map sym flags) (pre ++ initial_compact_paths e))
             (block tf flags (labelled v (group v (match flags with [] => true | _ => false end) pre e))).
  Proof.
    induction e as [d es IH|f k|d|n] using entry_ind'; intros Hn flags pre Hpre.
    - inversion Hn as [| | |d0 es0 Hd Hes]; subst.
      set (top := match flags with [] => true | _ => false end).
      (* the non-merged case *)
      assert (Hfin : forall ev, (ev = None \/ ev = Some (v_ext v d)) ->
        yields w
          (line <- render_directory_begin lr (map sym flags) d (pre ++ [d]);
           ext <- match ev with Some x => ret x | None => compute_line_extension o d end;
           (let line := line ++ or_empty ext in
            let line := match es with [] => line | _ => line ++ [c_nl] end in
            children <- render_children (fun c cd => render_entry o lr c cd (initial_compact_paths c)) (map sym flags) es;
            ret (line ++ children)))
          (block tf flags (labelled v (SDir (pre ++ [d]) (map (group v false []) es))))).
      { intros ev Hev.
        eapply yields_bind.
        { unfold render_directory_begin. eapply yields_bind; [apply emoji_prefix_yields|].
          eapply yields_bind; [apply format_directory_begin_yields; apply Forall_app; auto|]. apply yields_ret. }
        eapply yields_bind with (a := v_ext v d).
        { destruct Hev as [-> | ->]; [apply answers_yields; exact Hext|apply yields_ret]. }
        cbn zeta. unfold block. cbn [labelled]. rewrite rows_eq. cbn [map].
        rewrite last_last.
        set (line := tree_formatter_format _ _ ++ _).
        assert (Hline : rt tf flags ([], emoji_str v d ++
                   concat (map (fun d => last_name d ++ js "/") (pre ++ [d])) ++ opt_str (v_ext v d))
                 = line ++ or_empty (v_ext v d)).
        { unfold rt, line. cbn [fst snd]. rewrite app_nil_r, format_prefix. now rewrite !app_assoc. }
        match goal with |- context [rt tf flags ?r] => replace (rt tf flags r) with (line ++ or_empty (v_ext v d)) by (symmetry; exact Hline) end. clearbody line. clear Hline.
        destruct es as [|c es].
        - cbn [map rows_below join].
          eapply yields_bind; [apply yields_ret|]. rewrite app_nil_r. apply yields_ret.
        - rewrite join_cons.
          2:{ rewrite map_map. cbn [map].
              pose proof (@rows_below_nonempty (labelled v (group v false [] c) ::
                 map (fun x => labelled v (group v false [] x)) es) ltac:(discriminate)).
              destruct (rows_below _); simpl; congruence. }
          rewrite map_map.
          eapply yields_bind.
          { apply render_children_yields with (f := fun x => labelled v (group v false [] x)); [discriminate|].
            intros c0 b Hin. rewrite Forall_forall in IH, Hes.
            specialize (IH c0 Hin (Hes c0 Hin) (flags ++ [b]) [] (Forall_nil _)).
            rewrite map_app in IH. cbn [map] in IH. rewrite app_nil_l in IH.
            replace (match flags ++ [b] with [] => true | _ => false end) with false in IH
              by (destruct flags; reflexivity).
            exact IH. }
          rewrite app_assoc. apply yields_ret. }
      cbn [render_entry initial_compact_paths].
      assert (Htop : depth_is_root (map sym flags) = top) by (subst top; destruct flags; reflexivity).
      rewrite Htop, Hcompact.
      destruct (one_dir_dec es) as [(cd & ces & ->)|Hno].
      2:{ rewrite group_other by exact Hno.
          destruct es as [|c es]; [apply (Hfin None); auto|].
          destruct es as [|c' es]; [|destruct c; apply (Hfin None); auto].
          destruct c as [cd ces|f k|sd|n]; try (apply (Hfin None); auto).
          exfalso; eapply Hno; reflexivity. }
      rewrite group_one. destruct (v_compact v && negb top) eqn:Ec.
      + cbn [andb]. eapply yields_bind; [apply answers_yields; exact Hext|].
        destruct (v_ext v d) as [x|] eqn:Ex.
        * cbn [is_some negb]. apply (Hfin (Some (Some x))). right. reflexivity.
        * cbn [is_some negb].
          inversion IH as [|x l Hc _]; subst. inversion Hes as [|x l Hcn _]; subst.
          specialize (Hc Hcn flags (pre ++ [d])).
          cbn [initial_compact_paths] in Hc.
          assert (Hfalse : (match flags with [] => true | _ => false end) = false).
          { subst top. apply andb_prop in Ec. destruct Ec as [_ Ec].
            destruct flags; [discriminate|reflexivity]. }
          rewrite Hfalse in Hc. apply Hc. apply Forall_app; auto.
      + cbn [andb]. apply (Hfin None); auto.
    - inversion Hn as [f0 k0 Hf| | |]; subst. cbn [render_entry group labelled].
      unfold block. rewrite rows_eq. cbn [map join rows_below].
      unfold render_file, render_file_line.
      eapply yields_bind.
      { eapply yields_bind; [apply emoji_prefix_yields|].
        eapply yields_bind with (a := last_name f ++ kind_mark k).
        - unfold format_file. rewrite get_file_name_named by exact Hf. rewrite path_str_single.
          destruct k; cbn [kind_eqb kind_mark]; try rewrite app_nil_r; apply yields_ret.
        - apply yields_ret. }
      eapply yields_bind; [apply answers_yields; exact Hext|].
      unfold rt. cbn [fst snd]. rewrite app_nil_r, format_prefix.
      intro h. exists h. unfold ret. do 2 f_equal.
      rewrite <- !app_assoc. reflexivity.
    - cbn [render_entry group labelled]. unfold block. rewrite rows_eq. cbn [map join rows_below].
      unfold rt. cbn [fst snd]. rewrite app_nil_r. unfold render_child_limit_reached. rewrite format_prefix.
      apply yields_ret.
    - cbn [render_entry group labelled]. unfold block. rewrite rows_eq. cbn [map join rows_below].
      unfold rt. cbn [fst snd]. rewrite app_nil_r. unfold render_max_depth_reached. rewrite format_prefix.
      apply yields_ret.
  Qed.

  Lemma render_tree_yields e : named e ->
    yields w (render_tree o lr e) (text tf (labelled v (group v true [] e))).
  Proof.
    intro Hn. pose proof (@render_entry_yields e Hn [] [] (Forall_nil _)) as H.
    unfold render_tree. cbn [map app] in H. unfold block in H. unfold text.
    erewrite map_ext; [exact H|]. intros [fl l]. reflexivity.
  Qed.

  Lemma render_tree_spec e : named e ->
    exists s, shows v true e s /\ yields w (render_tree o lr e) (text tf (labelled v s)).
  Proof.
    intro Hn. exists (group v true [] e). split; [apply group_shows|apply render_tree_yields; exact Hn].
  Qed.
End Refine.
