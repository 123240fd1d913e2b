(** * What a run displays on a steady file system *)

From Verif Require Import SpecScan SpecPath RenderFacts ScanFacts PathFacts TreeFacts HistFacts ShownFacts LayoutFacts SortFacts PrintFacts.
Open Scope Z_scope.

Lemma print_tree o p w h out h' v dk st :
  steady w dk -> uses w o st -> sees w o v -> pretty_print o p w h = (Ok out, h') ->
  exists e s, tree_at st dk 0 (location w p) e /\ shows v true e s /\ out = text (o_tree_format o) (labelled v s).
Proof.
  intros Hw Hu Hs H. destruct (pretty_print_displays _ _ _ _ _ _ _ Hs H) as (e & h1 & Hh & s & Hsh & Ho).
  exists e, s. split; [|auto]. eapply handle_tree; eauto.
Qed.

(** ** C05 *)
Lemma C05_lemma o p w h out h' v dk st :
  steady w dk -> distinct_names dk -> uses w o st -> sees w o v -> (forall q, s_limit st q < 0) ->
  pretty_print o p w h = (Ok out, h') ->
  exists e s, tree_at st dk 0 (location w p) e /\ shows v true e s /\ out = text (o_tree_format o) (labelled v s) /\
    NoDup (shown_paths s) /\
    forall q, In q (shown_paths s) <-> exists d, reach st dk 0 (location w p) d q.
Proof.
  intros Hw Hd Hu Hs Hl H. destruct (print_tree _ _ _ _ _ _ _ _ _ Hw Hu Hs H) as (e & s & Ht & Hsh & Ho).
  exists e, s. split; [exact Ht|]. split; [exact Hsh|]. split; [exact Ho|]. rewrite (shows_paths _ _ _ _ Hsh). split.
  - eapply tree_paths_NoDup; eauto.
  - intro q. split.
    + eapply tree_paths_reach; eauto.
    + intros [d Hr]. eapply tree_reach_paths; eauto.
Qed.

(** ** C06 *)
Lemma C06_lemma o p w h out h' v dk st :
  steady w dk -> distinct_names dk -> uses w o st -> sees w o v -> configured_order (s_cmp st) ->
  pretty_print o p w h = (Ok out, h') ->
  exists e s, tree_at st dk 0 (location w p) e /\ shows v true e s /\ out = text (o_tree_format o) (labelled v s) /\
    forall k q es, at_depth k e (EDir q es) -> StronglySorted (fun a b => s_cmp st a b < 0) (child_paths es).
Proof.
  intros Hw Hd Hu Hs Hc H. destruct (print_tree _ _ _ _ _ _ _ _ _ Hw Hu Hs H) as (e & s & Ht & Hsh & Ho).
  exists e, s. split; [exact Ht|]. split; [exact Hsh|]. split; [exact Ho|].
  intros k q es Hat. pose proof (tree_sub _ _ _ _ _ _ _ _ Ht Hat) as Hsub.
  inversion Hsub as [| |? ? names order es0 Hdir Hlt Hli Hord HF]; subst; [constructor|].
  rewrite child_paths_app, child_paths_marker, app_nil_r, (child_paths_trees _ _ _ _ _ HF).
  apply StronglySorted_limited. eapply order_strict; eauto.
Qed.

(** ** C08, C09 *)
Lemma C08_lemma o p w h out h' v dk st :
  steady w dk -> uses w o st -> sees w o v ->
  pretty_print o p w h = (Ok out, h') ->
  exists e s, tree_at st dk 0 (location w p) e /\ shows v true e s /\ out = text (o_tree_format o) (labelled v s) /\
    forall k q es, at_depth k e (EDir q es) -> Z.of_nat k < s_depth st ->
    exists names order, d_list dk q = Some names /\
      Permutation (filter (accepts st dk) (map (child q) names)) order /\
      (contract (s_cmp st) -> StronglySorted (fun a b => s_cmp st a b <= 0) order) /\
      child_paths es = if s_limit st q <? 0 then order else firstn (Z.to_nat (s_limit st q)) order.
Proof.
  intros Hw Hu Hs H. destruct (print_tree _ _ _ _ _ _ _ _ _ Hw Hu Hs H) as (e & s & Ht & Hsh & Ho).
  exists e, s. split; [exact Ht|]. split; [exact Hsh|]. split; [exact Ho|].
  intros k q es Hat Hk. pose proof (tree_sub _ _ _ _ _ _ _ _ Ht Hat) as Hsub. rewrite Z.add_0_l in Hsub.
  inversion Hsub as [| |? ? names order es0 Hdir Hlt Hli [Hp Hso] HF]; subst; [lia|].
  exists names, order. repeat split; auto.
  rewrite child_paths_app, child_paths_marker, app_nil_r, (child_paths_trees _ _ _ _ _ HF). reflexivity.
Qed.

Lemma C09_lemma o p w h out h' v dk st :
  steady w dk -> uses w o st -> sees w o v ->
  pretty_print o p w h = (Ok out, h') ->
  exists e s, tree_at st dk 0 (location w p) e /\ shows v true e s /\ out = text (o_tree_format o) (labelled v s) /\
    forall k q es, at_depth k e (EDir q es) -> Z.of_nat k < s_depth st ->
    exists names cs mk, d_list dk q = Some names /\
      es = cs ++ mk /\ Forall (fun x => entry_path x <> None) cs /\ (mk = [] \/ mk = [ESkipped q]) /\
      (mk = [ESkipped q] <->
       0 <= s_limit st q < Z.of_nat (length (filter (accepts st dk) (map (child q) names)))).
Proof.
  intros Hw Hu Hs H. destruct (print_tree _ _ _ _ _ _ _ _ _ Hw Hu Hs H) as (e & s & Ht & Hsh & Ho).
  exists e, s. split; [exact Ht|]. split; [exact Hsh|]. split; [exact Ho|].
  intros k q es Hat Hk. pose proof (tree_sub _ _ _ _ _ _ _ _ Ht Hat) as Hsub. rewrite Z.add_0_l in Hsub.
  inversion Hsub as [| |? ? names order es0 Hdir Hlt Hli [Hp Hso] HF]; subst; [lia|].
  exists names, es0, (marker (s_limit st q) order q). repeat split; auto.
  - clear -HF. induction HF as [|a b l l' Hab HF IH]; constructor; auto. rewrite (tree_at_path _ _ _ _ _ Hab). discriminate.
  - unfold marker. destruct (_ && _); auto.
  - unfold marker in H0. destruct (Z.leb_spec 0 (s_limit st q)); [assumption|discriminate].
  - unfold marker in H0. rewrite (Permutation_length Hp).
    destruct (Z.leb_spec 0 (s_limit st q)); [|discriminate].
    destruct (Z.ltb_spec (s_limit st q) (Z.of_nat (length order))); [assumption|discriminate].
  - intros [Ha Hb]. rewrite (Permutation_length Hp) in Hb. unfold marker.
    destruct (Z.leb_spec 0 (s_limit st q)); [|lia].
    destruct (Z.ltb_spec (s_limit st q) (Z.of_nat (length order))); [reflexivity|lia].
Qed.

Lemma shaped_depth m k : forall e d p x, shaped m d p e -> at_depth k e x -> entry_path x <> None ->
  k = 0%nat \/ d + Z.of_nat k <= m.
Proof.
  induction k as [|k IH]; intros e d p x Hsh Hat Hp; [now left|right].
  inversion Hat as [|? dd es' c ? Hin Hc]; subst. inversion Hsh as [|? ? Hle Hd0|? ? ns es0 mk Hlt HF Hmk]; subst.
  - destruct Hin as [<-|[]]. inversion Hc; subst; cbn in Hp; congruence.
  - apply in_app_or in Hin. destruct Hin as [Hin|Hin].
    + destruct (Forall2_in_r _ _ _ _ _ _ HF Hin) as (n & _ & Hn). specialize (IH _ _ _ _ Hn Hc Hp). lia.
    + destruct Hmk as [-> | ->]; [destruct Hin|]. destruct Hin as [<-|[]]. inversion Hc; subst; cbn in Hp; congruence.
Qed.

(** ** C10, in any world *)
Lemma C10_lemma o p w h out h' v m :
  o_max_depth o = Z.of_nat m -> sees w o v -> pretty_print o p w h = (Ok out, h') ->
  exists e h1 s, scan o (location w p) w h = (Ok e, h1) /\ shows v true e s /\ out = text (o_tree_format o) (labelled v s) /\
    (forall k x, at_depth k e x -> entry_path x <> None -> (k <= m)%nat) /\
    (forall q es, at_depth m e (EDir q es) -> exists n, es = [EMaxDepth n]) /\
    (forall k q es n, at_depth k e (EDir q es) -> (k < m)%nat -> ~ In (EMaxDepth n) es).
Proof.
  intros Hm Hs H. destruct (print_displays _ _ _ _ _ _ _ Hs H) as (e & h1 & Hsc & s & Hsh & Ho).
  exists e, h1, s. split; [exact Hsc|]. split; [exact Hsh|]. split; [exact Ho|].
  apply scan_handle in Hsc. apply handle_shaped in Hsc. rewrite Hm in Hsc. split; [|split].
  - intros k x Hat Hp. pose proof (shaped_depth _ _ _ _ _ _ Hsc Hat Hp). lia.
  - intros q es Hat. pose proof (shaped_at_depth _ _ _ _ _ _ Hsc Hat) as Hx. cbn in Hx.
    inversion Hx; subst; [eauto|lia].
  - intros k q es n Hat Hk Hin. pose proof (shaped_at_depth _ _ _ _ _ _ Hsc Hat) as Hx. cbn in Hx.
    inversion Hx as [|? ? Hle|? ? ns es0 mk Hlt HF Hmk]; subst; [lia|].
    apply in_app_or in Hin. destruct Hin as [Hin|Hin].
    + clear -HF Hin. induction HF as [|a b l l' Hab HF IH]; [destruct Hin|]. destruct Hin as [->|Hin]; [inversion Hab|auto].
    + destruct Hmk as [-> | ->]; [destruct Hin|]. destruct Hin as [Hin|[]]. discriminate.
Qed.

(** ** C11: what a negative (or zero) maximal depth does *)
Lemma handle_cut o p w h : o_max_depth o <= 0 -> w_lstat w h p = Some KDir ->
  handle (Z.to_nat (o_max_depth o)) o 0 p (path_filter o) w h = (Ok (Some (EDir p [EMaxDepth 0])), EvLstat p (Some KDir) :: h).
Proof.
  intros Hm Hd. destruct (Z.to_nat (o_max_depth o)); cbn [handle]; unfold bind at 1; unfold pm_is_directory;
    rewrite has_kind_run, Hd; cbn [kind_eqb]; destruct (Z.leb_spec (o_max_depth o) 0); try lia; reflexivity.
Qed.

Lemma C11_lemma o p w h v :
  o_max_depth o <= 0 -> sees w o v -> w_lstat w h (location w p) = Some KDir -> p_names (location w p) <> [] ->
  exists h', pretty_print o p w h =
    (Ok (text (o_tree_format o) (labelled v (SDir [location w p] [SDots]))), h').
Proof.
  intros Hm (Hx & He & Hc) Hd Hne. rewrite scan_unfold. unfold bind. rewrite (handle_cut _ _ _ _ Hm Hd).
  destruct (render_tree_spec w o (line_renderer_create o) v (extension_answers _ _ _ Hx) He Hc (EDir (location w p) [EMaxDepth 0]))
    as (s & Hs & Hy). { constructor; auto. repeat constructor. }
  destruct (Hy (EvLstat (location w p) (Some KDir) :: h)) as [h2 E2]. exists h2. rewrite E2. f_equal. f_equal.
  rewrite (shows_fun _ _ _ _ (SDir [location w p] [SDots]) Hs); [reflexivity|].
  apply shows_plain; [now left|]. repeat constructor.
Qed.

(** ** C17 *)
Lemma tree_file_attr st dk k : forall e d p q kd, tree_at st dk d p e -> at_depth k e (EFile q kd) ->
  ~ is_dir dk q /\ d_attr dk q = Some kd.
Proof.
  induction k as [|k IH]; intros e d p q kd Ht Hat; inversion Hat as [|? dd es c ? Hin Hc]; subst.
  - inversion Ht; subst. auto.
  - inversion Ht as [| ? ? Hd Hm|? ? names order es0 Hd Hm Hl Hord HF]; subst.
    + destruct Hin as [<-|[]]. inversion Hc.
    + apply in_app_or in Hin. destruct Hin as [Hin|Hin].
      * destruct (Forall2_in_r _ _ _ _ _ _ HF Hin) as (c' & _ & Hc'). eapply IH; eauto.
      * unfold marker in Hin. destruct (_ && _); [|destruct Hin]. destruct Hin as [<-|[]]. inversion Hc.
Qed.

Lemma skind_not_link i : skind i <> Some KLink.
Proof. destruct i as [| | |[[]|]|]; discriminate. Qed.

Lemma C17_lemma fs j o p h out h' v st :
  uses (static_world fs j) o st -> sees (static_world fs j) o v ->
  pretty_print o p (static_world fs j) h = (Ok out, h') ->
  exists e s, tree_at st (static_disk fs j) 0 (location (static_world fs j) p) e /\ shows v true e s /\
    out = text (o_tree_format o) (labelled v s) /\
    forall k q kd, at_depth k e (EFile q kd) -> d_attr (static_disk fs j) q = Some kd /\ kd <> KLink.
Proof.
  intros Hu Hs H. destruct (print_tree _ _ _ _ _ _ _ _ _ (static_steady fs j) Hu Hs H) as (e & s & Ht & Hsh & Ho).
  exists e, s. split; [exact Ht|]. split; [exact Hsh|]. split; [exact Ho|].
  intros k q kd Hat. destruct (tree_file_attr _ _ _ _ _ _ _ _ Ht Hat) as [_ Ha]. split; [exact Ha|].
  intros ->. cbn in Ha. destruct (fs_lookup fs (jv_cwd j) q) as [i|]; [|discriminate]. exact (skind_not_link i Ha).
Qed.

(** ** C18 *)
Lemma tree_reach_attr st dk e : (forall p, s_limit st p < 0) -> forall d p, tree_at st dk d p e ->
  forall d' q, reach st dk d p d' q -> ~ is_dir dk q -> d_attr dk q <> None.
Proof.
  intros Hlim. induction e as [r es IH|f k|r|n] using entry_ind'; intros d p H d' q Hr Hnd.
  - inversion H as [|? ? Hd Hm|? ? names order es0 Hd Hm Hl [Hperm Hsrt] HF]; subst; apply reach_first in Hr;
      destruct Hr as [[-> ->]|(names' & n & _ & Hlt & Hl' & Hin & Hacc & Hr)]; try contradiction; try lia.
    rewrite Hl in Hl'. injection Hl' as <-.
    assert (Hc : In (child r n) order).
    { eapply Permutation_in; [exact Hperm|]. apply filter_In. split; [now apply in_map|exact Hacc]. }
    unfold limited in HF. destruct (Z.ltb_spec (s_limit st r) 0) as [_|Hge]; [|specialize (Hlim r); lia].
    apply Forall_app in IH. destruct IH as [IH _].
    destruct (Forall2_in_l _ _ _ _ HF Hc) as (y & Hy & Hty). rewrite Forall_forall in IH. eapply IH; eauto.
  - inversion H; subst. apply reach_first in Hr. destruct Hr as [[-> ->]|(? & ? & Hd & _)]; [congruence|contradiction].
  - inversion H.
  - inversion H.
Qed.

Lemma C18_lemma o p w v dk st d q :
  steady w dk -> uses w o st -> sees w o v -> (forall q, s_limit st q < 0) ->
  reach st dk 0 (location w p) d q -> d_kind dk q = Some KLink -> d_attr dk q = None ->
  forall h out h', pretty_print o p w h <> (Ok out, h').
Proof.
  intros Hw Hu Hs Hl Hr Hk Ha h out h' H. destruct (print_tree _ _ _ _ _ _ _ _ _ Hw Hu Hs H) as (e & s & Ht & _).
  apply (tree_reach_attr _ _ _ Hl _ _ Ht _ _ Hr); [|exact Ha]. unfold is_dir. rewrite Hk. discriminate.
Qed.

(** ** C21 *)
Lemma render_root_npe o w em : answers w (o_emoji o) em -> forall e, entry_path e = Some (mkPath true []) ->
  forall h, fst (render_tree o (line_renderer_create o) e w h) = Throw ExNullPointer.
Proof.
  intros He e Hp h. destruct e as [d es|f k|d|n]; try discriminate; injection Hp as ->.
  - assert (Hb : forall (k : jstring -> M jstring) h0,
      fst ((bind (render_directory_begin (line_renderer_create o) [] (mkPath true []) [mkPath true []]) k) w h0) = Throw ExNullPointer).
    { intros k h0. unfold render_directory_begin, emoji_prefix, bind. destruct (He (mkPath true []) h0) as [h2 E2].
      cbn [line_renderer_create lr_emoji]. rewrite E2. reflexivity. }
    unfold render_tree. cbn [initial_compact_paths render_entry].
    destruct es as [|c es]; [apply Hb|]. destruct es as [|c' es]; [|destruct c; apply Hb].
    destruct c as [cd ces|f1 kf|sd|n]; try apply Hb.
    cbn [depth_is_root length Nat.eqb negb]. rewrite andb_false_r. apply Hb.
  - unfold render_tree. cbn [initial_compact_paths render_entry]. unfold render_file, render_file_line, emoji_prefix, bind.
    destruct (He (mkPath true []) h) as [h3 E3]. cbn [line_renderer_create lr_emoji]. rewrite E3. reflexivity.
Qed.

Lemma C21_never o p w h out h' : location w p = mkPath true [] -> pretty_print o p w h <> (Ok out, h').
Proof.
  intros Hl H. apply pretty_print_scan in H. destruct H as (e & h1 & Hh & Hr).
  destruct (scanned_named _ _ _ _ _ _ _ _ Hh Hr) as [Hne _]. rewrite Hl in Hne. now apply Hne.
Qed.

Lemma C21_lemma o p w dk st v :
  steady w dk -> uses w o st -> sees w o v -> location w p = mkPath true [] ->
  is_dir dk (mkPath true []) -> readable st dk (mkPath true []) ->
  forall h, exists h', pretty_print o p w h = (Throw ExNullPointer, h').
Proof.
  intros Hw Hu (Hx & He & Hc) Hl Hd Hr h.
  destruct (handle_returns w dk o st Hw Hu _ Hr (Z.to_nat (o_max_depth o)) 0 (mkPath true [])) as [e Hh]; auto; try lia; try constructor.
  rewrite scan_unfold, Hl. unfold bind. destruct (Hh h) as [h1 E1]. rewrite E1.
  assert (exists es, e = EDir (mkPath true []) es) as [es ->].
  { apply handle_tree with (dk := dk) (st := st) in E1; auto. inversion E1; subst; eauto. contradiction. }
  pose proof (render_root_npe o w (v_emoji v) He (EDir (mkPath true []) es) eq_refl h1) as Hn.
  destruct (render_tree _ _ _ w h1) as [r h2]. cbn in Hn. subst r. eauto.
Qed.

(** ** C22 *)
Lemma pretty_print_location o p q w h : location w p = location w q -> pretty_print o p w h = pretty_print o q w h.
Proof. intro H. rewrite !pretty_print_split. now rewrite H. Qed.

Lemma same_location_location w p q : same_location (jv_cwd (w_jvm w)) p q <-> location w p = location w q.
Proof.
  unfold location. rewrite !normalize_to_absolute. split; intro H.
  - f_equal. now apply same_location_loc.
  - apply same_location_complete. now injection H.
Qed.

Lemma C22_spelling o p q w h : same_location (jv_cwd (w_jvm w)) p q -> pretty_print o p w h = pretty_print o q w h.
Proof. intro H. apply pretty_print_location. now apply same_location_location. Qed.

Lemma C22_string_nul o s w h : In 0%N s -> pretty_print_string o s w h = (Throw ExIllegalArgument, h).
Proof.
  intros I. unfold pretty_print_string. replace (existsb (N.eqb 0) s) with true; [reflexivity|].
  symmetry. apply existsb_exists. exists 0%N. split; [exact I|reflexivity].
Qed.
Lemma C22_string o s w h : ~ In 0%N s -> pretty_print_string o s w h = pretty_print o (path_of s) w h.
Proof.
  intros NI. unfold pretty_print_string. replace (existsb (N.eqb 0) s) with false.
  2: { symmetry. apply not_true_is_false. intros T. apply existsb_exists in T. destruct T as (x & I & E). apply N.eqb_eq in E. now subst x. }
  destruct (p_abs (path_of s)) eqn:Ea; [reflexivity|].
  apply C22_spelling. unfold path_of2. destruct s as [|x s]; cbn iota.
  - change (js ".") with [c_dot]. apply (same_dot _ false [] []).
  - change (path_of (match js "." with [] => x :: s | _ :: _ => js "." ++ [c_slash] ++ x :: s end))
      with (mkPath false (parse_names (js "." ++ [c_slash] ++ (x :: s)))).
    rewrite parse_names_dot_slash. unfold path_of in *. cbn [p_abs] in Ea. rewrite Ea.
    apply (same_dot _ false [] (parse_names (x :: s))).
Qed.

Lemma location_real w p : Forall (fun n => n <> n_dot /\ n <> n_dotdot) (p_names (location w p)).
Proof. unfold location. rewrite normalize_to_absolute. cbn [p_names]. apply norm_names_abs_plain. Qed.

Lemma C22_root o p w h out h' v :
  sees w o v -> pretty_print o p w h = (Ok out, h') ->
  exists e h1 s label rest,
    scan o (location w p) w h = (Ok e, h1) /\ shows v true e s /\ out = text (o_tree_format o) (labelled v s) /\
    (exists kids, s = SDir [location w p] kids \/ exists k, s = SFile (location w p) k) /\
    rows (labelled v s) = ([], label) :: rest /\
    (exists mark, label = emoji_str v (location w p) ++ last_name (location w p) ++ mark) /\
    last_name (location w p) <> n_dot /\ last_name (location w p) <> n_dotdot /\
    In (last_name (location w p)) (p_names (location w p)).
Proof.
  intros Hs H. destruct (print_scan _ _ _ _ _ _ H) as (e0 & h0 & Hsc0 & _ & Hr0).
  destruct (print_displays _ _ _ _ _ _ _ Hs H) as (e & h1 & Hsc & s & Hsh & Ho).
  rewrite Hsc0 in Hsc. injection Hsc as <- <-.
  pose proof Hsc0 as Hh. apply scan_handle in Hh.
  destruct (scanned_named _ _ _ _ _ _ _ _ Hh Hr0) as [Hne _].
  apply handle_shaped, shaped_root_path in Hh.
  assert (Hl : In (last_name (location w p)) (p_names (location w p))).
  { unfold last_name. destruct (p_names (location w p)) as [|a l] eqn:E; [now destruct Hne|].
    clear. revert a. induction l as [|b l IH]; intro a; [now left|]. right. apply IH. }
  pose proof (location_real w p) as Hreal. rewrite Forall_forall in Hreal. destruct (Hreal _ Hl) as [R1 R2].
  assert (K : exists label rest,
    (exists kids, s = SDir [location w p] kids \/ exists k, s = SFile (location w p) k) /\
    rows (labelled v s) = ([], label) :: rest /\
    (exists mark, label = emoji_str v (location w p) ++ last_name (location w p) ++ mark)).
  { clear -Hsh Hh. inversion Hsh as [? f k|? d|? n|? d es ks Htop HF|]; subst; cbn in Hh; try discriminate; injection Hh as ->.
    - exists (emoji_str v (location w p) ++ last_name (location w p) ++ kind_mark k ++ opt_str (v_ext v (location w p))), [].
      split; [exists []; right; now exists k|]. split; [reflexivity|]. now exists (kind_mark k ++ opt_str (v_ext v (location w p))).
    - eexists. eexists. split; [exists ks; left; reflexivity|]. cbn [labelled]. rewrite rows_eq. split; [reflexivity|].
      cbn [last map concat]. exists (js "/" ++ opt_str (v_ext v (location w p))). now rewrite app_nil_r, <- ?app_assoc. }
  destruct K as (label & rest & K1 & K2 & K3). exists e0, h0, s, label, rest. auto 12.
Qed.

(** ** C23 *)
Lemma C23_lemma o p w h :
  w_lstat w h (location w p) = None ->
  w_stat w (EvLstat (location w p) None :: h) (location w p) = None ->
  exists h', pretty_print o p w h = (Throw (ExUncheckedIO ReadAttributes (location w p)), h').
Proof.
  intros Hl Hs. rewrite scan_unfold. unfold bind at 1.
  assert (E : handle (Z.to_nat (o_max_depth o)) o 0 (location w p) (path_filter o) w h =
          (Throw (ExUncheckedIO ReadAttributes (location w p)), EvStat (location w p) None :: EvLstat (location w p) None :: h)).
  { destruct (Z.to_nat (o_max_depth o)); cbn [handle]; unfold bind at 1; unfold pm_is_directory; rewrite has_kind_run, Hl;
      unfold handle_file, bind, stat; rewrite Hs; reflexivity. }
  rewrite E. eauto.
Qed.

(** ** C24 *)
Lemma C24_lemma o p w h v k :
  sees w o v -> p_names (location w p) <> [] ->
  w_lstat w h (location w p) <> Some KDir ->
  w_stat w (EvLstat (location w p) (w_lstat w h (location w p)) :: h) (location w p) = Some k ->
  exists h', pretty_print o p w h =
    (Ok (emoji_str v (location w p) ++ last_name (location w p) ++ kind_mark k ++ opt_str (v_ext v (location w p))), h').
Proof.
  intros (Hx & He & Hc) Hne Hl Hs. rewrite scan_unfold. unfold bind at 1.
  assert (E : exists h1, handle (Z.to_nat (o_max_depth o)) o 0 (location w p) (path_filter o) w h = (Ok (Some (EFile (location w p) k)), h1)).
  { destruct (Z.to_nat (o_max_depth o)); cbn [handle]; unfold bind at 1; unfold pm_is_directory; rewrite has_kind_run;
      (destruct (w_lstat w h (location w p)) as [[]|] eqn:El; [| congruence | | |]; cbn [kind_eqb]; unfold handle_file, bind, stat; rewrite Hs;
       eexists; reflexivity). }
  destruct E as [h1 E]. rewrite E.
  destruct (render_tree_spec w o (line_renderer_create o) v (extension_answers _ _ _ Hx) He Hc (EFile (location w p) k))
    as (s & Hsh & Hy). { constructor; auto. }
  destruct (Hy h1) as [h2 E2]. exists h2. rewrite E2. f_equal. f_equal. inversion Hsh; subst.
  - reflexivity.
Qed.

(** ** C07 *)
Definition agree {A} (w1 w2 : world) (m1 m2 : M A) : Prop := forall h1 h2, fst (m1 w1 h1) = fst (m2 w2 h2).

Lemma agree_bind A B w1 w2 (m1 m2 : M A) (f1 f2 : A -> M B) :
  agree w1 w2 m1 m2 -> (forall a, agree w1 w2 (f1 a) (f2 a)) -> agree w1 w2 (bind m1 f1) (bind m2 f2).
Proof.
  intros Hm Hf h1 h2. unfold bind. specialize (Hm h1 h2).
  destruct (m1 w1 h1) as [[a|x] h1'], (m2 w2 h2) as [[b|y] h2']; cbn in Hm; try discriminate; injection Hm as ->; [apply Hf|reflexivity].
Qed.

Lemma agree_ret A w1 w2 (a : A) : agree w1 w2 (ret a) (ret a).
Proof. intros h1 h2. reflexivity. Qed.
Lemma agree_throw A w1 w2 x : agree (A := A) w1 w2 (throw x) (throw x).
Proof. intros h1 h2. reflexivity. Qed.

Lemma agree_yields A w1 w2 (m1 m2 : M A) a : yields w1 m1 a -> yields w2 m2 a -> agree w1 w2 m1 m2.
Proof. intros H1 H2 h1 h2. destruct (H1 h1) as [? ->]. destruct (H2 h2) as [? ->]. reflexivity. Qed.

Definition agree_on {A B} (R : A -> B -> Prop) (w1 w2 : world) (m1 : M A) (m2 : M B) : Prop := forall h1 h2,
  match fst (m1 w1 h1), fst (m2 w2 h2) with Ok a, Ok b => R a b | Throw x, Throw y => x = y | _, _ => False end.

Lemma agree_on_bind A B C (R : A -> B -> Prop) w1 w2 (m1 : M A) (m2 : M B) (f1 : A -> M C) (f2 : B -> M C) :
  agree_on R w1 w2 m1 m2 -> (forall a b, R a b -> agree w1 w2 (f1 a) (f2 b)) -> agree w1 w2 (bind m1 f1) (bind m2 f2).
Proof.
  intros Hm Hf h1 h2. unfold bind. specialize (Hm h1 h2).
  destruct (m1 w1 h1) as [[a|x] h1'], (m2 w2 h2) as [[b|y] h2']; cbn in Hm; try contradiction; [now apply Hf|now subst].
Qed.

Lemma agree_on_yields A B (R : A -> B -> Prop) w1 w2 (m1 : M A) (m2 : M B) a b :
  yields w1 m1 a -> yields w2 m2 b -> R a b -> agree_on R w1 w2 m1 m2.
Proof. intros H1 H2 HR h1 h2. destruct (H1 h1) as [? ->]. destruct (H2 h2) as [? ->]. exact HR. Qed.

Lemma stream_paths_yields w dk o st p names : steady w dk -> uses w o st ->
  yields w (stream_paths p (mkDirlist names false) (path_filter o)) (filter (accepts st dk) (map (child p) names)).
Proof.
  intros Hw Hu. unfold stream_paths. cbn [dl_names dl_fail].
  eapply yields_bind; [|apply yields_ret]. change (resolve_name p) with (child p).
  apply filterM_yields. intros. eapply path_filter_yields; eauto.
Qed.

Section SameOrder.
  Context (w1 w2 : world) (dk1 dk2 : disk) (o : options) (st : settings).
  Hypothesis Hw1 : steady w1 dk1.
  Hypothesis Hw2 : steady w2 dk2.
  Hypothesis Hu1 : uses w1 o st.
  Hypothesis Hu2 : uses w2 o st.
  Hypothesis Hc : configured_order (s_cmp st).
  Hypothesis Hdn : distinct_names dk1.
  Hypothesis Hsame : same_but_order dk1 dk2.

  Lemma same_accepts q : accepts st dk1 q = accepts st dk2 q.
  Proof. destruct Hsame as (Hk & _). unfold accepts, is_dirb. now rewrite Hk. Qed.

  Lemma same_sorted p l1 l2 : d_list dk1 p = Some l1 -> d_list dk2 p = Some l2 ->
    psort (s_cmp st) (filter (accepts st dk1) (map (child p) l1)) =
    psort (s_cmp st) (filter (accepts st dk2) (map (child p) l2)).
  Proof.
    intros E1 E2. pose proof Hsame as (Hk & Ha & Hl). specialize (Hl p). rewrite E1, E2 in Hl.
    apply strict_sorted_unique with (c := s_cmp st).
    - pose proof (configured_contract _ Hc) as (Hanti & _). intros a b. specialize (Hanti a b). lia.
    - eapply (order_strict st dk1 p l1); [exact Hc|eapply Hdn; eauto|apply tim_sort_in_order].
    - eapply (order_strict st dk2 p l2); [exact Hc| |apply tim_sort_in_order].
      eapply Permutation_NoDup; [exact Hl|]. eapply Hdn; eauto.
    - rewrite <- !tim_sort_perm. rewrite (filter_ext _ _ same_accepts).
      apply Permutation_map with (f := child p) in Hl. clear -Hl.
      induction Hl as [| x l l' Hp IHp| x y l| l l' l'' Hp1 IH1 Hp2 IH2]; simpl.
      + constructor.
      + destruct (accepts st dk2 x); [now constructor|exact IHp].
      + destruct (accepts st dk2 x), (accepts st dk2 y); try reflexivity. apply perm_swap.
      + etransitivity; eauto.
  Qed.

  Lemma children_loop_agree (hc1 hc2 : path -> M (option entry)) hl mc :
    (forall c, agree w1 w2 (hc1 c) (hc2 c)) ->
    forall it n acc, agree w1 w2 (children_loop hc1 hl mc n acc it) (children_loop hc2 hl mc n acc it).
  Proof.
    intro H. induction it as [|c it IH]; intros n acc; cbn [children_loop]; [apply agree_ret|].
    destruct (hl && _); [apply agree_ret|]. apply agree_bind; [apply H|]. intros [e|]; apply IH.
  Qed.

  Lemma handle_agree fuel : forall d p,
    agree w1 w2 (handle fuel o d p (path_filter o)) (handle fuel o d p (path_filter o)).
  Proof.
    pose proof Hw1 as (L1 & S1 & O1 & C1 & F1). pose proof Hw2 as (L2 & S2 & O2 & C2 & F2).
    pose proof Hsame as (Hk & Ha & Hl).
    assert (Hdir : forall p, agree w1 w2 (pm_is_directory p) (pm_is_directory p)).
    { intros p h1 h2. unfold pm_is_directory. rewrite !has_kind_run, L1, L2, Hk. reflexivity. }
    assert (Hfile : forall p, agree w1 w2 (handle_file p) (handle_file p)).
    { intros p h1 h2. unfold handle_file, bind, stat. rewrite S1, S2, Ha. destruct (d_attr dk2 p); reflexivity. }
    induction fuel as [|fuel IH]; intros d p; cbn [handle]; apply agree_bind; auto; intros [|]; auto;
      destruct (o_max_depth o <=? d).
    - apply agree_bind; [unfold new_max_depth_entry; destruct (d <? 0); [apply agree_throw|apply agree_ret]|]. intro. apply agree_ret.
    - apply agree_throw.
    - apply agree_bind; [unfold new_max_depth_entry; destruct (d <? 0); [apply agree_throw|apply agree_ret]|]. intro. apply agree_ret.
    - apply agree_on_bind with (R := fun a b =>
        match a, b with
        | Some x, Some y => exists l1 l2, d_list dk1 p = Some l1 /\ d_list dk2 p = Some l2 /\ x = mkDirlist l1 false /\ y = mkDirlist l2 false
        | None, None => True
        | _, _ => False
        end).
      { intros h1 h2. unfold open_dir. rewrite O1, O2. specialize (Hl p).
        destruct (d_list dk1 p) as [l1|] eqn:E1; destruct (d_list dk2 p) as [l2|] eqn:E2; try contradiction; cbn; [|trivial].
        exists l1, l2. auto. }
      intros [x|] [y|] HR; try contradiction; [|apply agree_throw]. destruct HR as (l1 & l2 & E1 & E2 & -> & ->).
      assert (Hbody : agree w1 w2
        (handle_directory_children o (fun c => handle fuel o (d + 1) c (path_filter o)) p (mkDirlist l1 false) (path_filter o))
        (handle_directory_children o (fun c => handle fuel o (d + 1) c (path_filter o)) p (mkDirlist l2 false) (path_filter o))).
      { unfold handle_directory_children. apply agree_bind.
        { apply agree_yields with (a := s_limit st p); intro h; [apply Hu1|apply Hu2]. }
        intro mc. eapply agree_on_bind with (R := fun a b => psort (s_cmp st) a = psort (s_cmp st) b).
        { apply agree_on_yields with (a := filter (accepts st dk1) (map (child p) l1)) (b := filter (accepts st dk2) (map (child p) l2)).
          - eapply stream_paths_yields; eauto.
          - eapply stream_paths_yields; eauto.
          - now apply same_sorted. }
        intros a b Hab. eapply agree_bind.
        { intros h1 h2. destruct Hu1 as (_ & _ & _ & Hcmp1 & _). destruct Hu2 as (_ & _ & _ & Hcmp2 & _).
          destruct (sorted_answers w1 (o_comparator o) (s_cmp st) a h1 Hcmp1) as [h1' ->].
          destruct (sorted_answers w2 (o_comparator o) (s_cmp st) b h2 Hcmp2) as [h2' ->].
          rewrite !sort_fine by (left; now apply configured_contract). cbn. now rewrite Hab. }
        intro it. apply agree_bind; [apply children_loop_agree; intro; apply IH|]. intros [es rest]. apply agree_ret. }
      apply agree_bind; [|intro; apply agree_ret]. intros h3 h4. unfold with_close. specialize (Hbody h3 h4).
      destruct (handle_directory_children _ _ _ _ _ w1 h3) as [[es1|x1] h5], (handle_directory_children _ _ _ _ _ w2 h4) as [[es2|x2] h6];
        cbn in Hbody; try discriminate; injection Hbody as ->; unfold close_dir; rewrite ?C1, ?C2; reflexivity.
  Qed.
End SameOrder.

Lemma C07_lemma w1 w2 dk1 dk2 o st v p :
  steady w1 dk1 -> steady w2 dk2 -> w_jvm w1 = w_jvm w2 -> same_but_order dk1 dk2 -> distinct_names dk1 ->
  uses w1 o st -> uses w2 o st -> sees w1 o v -> sees w2 o v -> configured_order (s_cmp st) ->
  forall h1 h2, fst (pretty_print o p w1 h1) = fst (pretty_print o p w2 h2).
Proof.
  intros Hw1 Hw2 Hj Hso Hdn Hu1 Hu2 (Hx1 & He1 & Hc1) (Hx2 & He2 & Hc2) Hcfg h1 h2. rewrite !scan_unfold.
  assert (Hloc : location w1 p = location w2 p) by (unfold location; now rewrite Hj).
  pose proof (handle_agree w1 w2 dk1 dk2 o st Hw1 Hw2 Hu1 Hu2 Hcfg Hdn Hso (Z.to_nat (o_max_depth o)) 0 (location w1 p)) as Hag.
  rewrite Hloc in *. unfold bind. specialize (Hag h1 h2).
  destruct (handle (Z.to_nat (o_max_depth o)) o 0 (location w2 p) (path_filter o) w1 h1) as [[[e|]|x] k1] eqn:E1;
    destruct (handle (Z.to_nat (o_max_depth o)) o 0 (location w2 p) (path_filter o) w2 h2) as [[[e2|]|x2] k2];
    cbn in Hag; try discriminate; try (injection Hag as ->); try reflexivity.
  apply handle_shaped in E1.
  destruct (p_names (location w2 p)) as [|a l] eqn:En.
  - (* "/": the formatter fails in the same way *)
    pose proof (shaped_root_path _ _ _ _ E1) as Hrp.
    assert (Heq : location w2 p = mkPath true []).
    { pose proof (location_abs w2 p). destruct (location w2 p) as [ab ns]. cbn in *. congruence. }
    rewrite Heq in Hrp. rewrite (render_root_npe o w1 _ He1 _ Hrp), (render_root_npe o w2 _ He2 _ Hrp). reflexivity.
  - assert (Hn : named e2).
    { apply (shaped_named_below _ _ _ _ E1). rewrite En. discriminate. }
    destruct (render_tree_spec w1 o (line_renderer_create o) v (extension_answers _ _ _ Hx1) He1 Hc1 e2 Hn) as (s1 & Hs1 & Hy1).
    destruct (render_tree_spec w2 o (line_renderer_create o) v (extension_answers _ _ _ Hx2) He2 Hc2 e2 Hn) as (s2 & Hs2 & Hy2).
    rewrite (shows_fun _ _ _ _ _ Hs1 Hs2) in Hy1.
    destruct (Hy1 k1) as [? ->]. destruct (Hy2 k2) as [? ->]. reflexivity.
Qed.

(** ** The configured order, in terms of names *)
Lemma StronglySorted_impl_in A (R S : A -> A -> Prop) l :
  (forall a b, In a l -> In b l -> R a b -> S a b) -> StronglySorted R l -> StronglySorted S l.
Proof.
  intros H HS. induction HS as [|x l Hl IH Hx]; constructor.
  - apply IH. intros. apply H; auto; now right.
  - rewrite Forall_forall in *. intros y Hy. apply H; [now left|now right|auto].
Qed.

Lemma tree_children_named st dk d q es c : tree_at st dk d q (EDir q es) -> In c (child_paths es) -> p_names c <> [].
Proof.
  intros Ht Hc. inversion Ht as [| |? ? names order es0 Hdir Hlt Hli Hord HF]; subst; [destruct Hc|].
  rewrite child_paths_app, child_paths_marker, app_nil_r, (child_paths_trees _ _ _ _ _ HF) in Hc.
  apply limited_incl in Hc. destruct Hord as [Hp _]. apply (Permutation_in c (Permutation_sym Hp)) in Hc.
  apply filter_In in Hc. destruct Hc as [Hc _]. apply in_map_iff in Hc. destruct Hc as (n & <- & _).
  cbn. destruct (p_names q); discriminate.
Qed.

Lemma C06_sorted o p w h out h' v dk st (R : path -> path -> Prop) :
  steady w dk -> distinct_names dk -> uses w o st -> sees w o v -> configured_order (s_cmp st) ->
  (forall a b, p_names a <> [] -> p_names b <> [] -> s_cmp st a b < 0 -> R a b) ->
  pretty_print o p w h = (Ok out, h') ->
  exists e s, tree_at st dk 0 (location w p) e /\ shows v true e s /\ out = text (o_tree_format o) (labelled v s) /\
    forall k q es, at_depth k e (EDir q es) -> StronglySorted R (child_paths es).
Proof.
  intros Hw Hd Hu Hs Hc HR H. destruct (C06_lemma _ _ _ _ _ _ _ _ _ Hw Hd Hu Hs Hc H) as (e & s & Ht & Hsh & Ho & Hso).
  exists e, s. split; [exact Ht|]. split; [exact Hsh|]. split; [exact Ho|]. intros k q es Hat.
  eapply StronglySorted_impl_in; [|eapply Hso; eauto]. intros a b Ha Hb Hab.
  pose proof (tree_sub _ _ _ _ _ _ _ _ Ht Hat) as Hsub. apply HR; auto; eapply tree_children_named; eauto.
Qed.

Lemma sorts_by_order w o st c g : sorts_by c o -> (forall a, answers w (c a) (g a)) -> (forall a, answers w (o_comparator o a) (s_cmp st a)) ->
  forall a b, s_cmp st a b = then_by g alphabetical a b.
Proof.
  intros Hso Hg Hu a. rewrite Hso in Hu. apply (answers_eq _ _ w (o_comparator (with_sort c default_options) a)); [apply Hu|].
  apply (answers_then w c g ALPHABETICAL alphabetical Hg (answers_alphabetical w)).
Qed.

Lemma sorts_by_default_order w o st : sorts_by_default o -> (forall a, answers w (o_comparator o a) (s_cmp st a)) ->
  forall a b, s_cmp st a b = alphabetical a b.
Proof.
  intros Hso Hu a. rewrite Hso in Hu. apply (answers_eq _ _ w (ALPHABETICAL a)); [apply Hu|apply answers_alphabetical].
Qed.

Lemma C06_sort_lemma o p w h out h' v dk st c g :
  steady w dk -> distinct_names dk -> uses w o st -> sees w o v -> sorts_by c o -> (forall a, answers w (c a) (g a)) -> contract g ->
  pretty_print o p w h = (Ok out, h') ->
  exists e s, tree_at st dk 0 (location w p) e /\ shows v true e s /\ out = text (o_tree_format o) (labelled v s) /\
    forall k q es, at_depth k e (EDir q es) -> StronglySorted (refined g) (child_paths es).
Proof.
  intros Hw Hd Hu Hs Hso Hg Hc H. destruct Hu as (U1 & U2 & U3 & U4 & U5).
  assert (E := sorts_by_order _ _ _ _ _ Hso Hg U4).
  eapply C06_sorted; eauto.
  - repeat split; eauto.
  - now apply (refined_configured g).
  - intros a b Ha Hb Hab. rewrite E in Hab. now apply refined_lt in Hab.
Qed.

Lemma C06_default_lemma o p w h out h' v dk st :
  steady w dk -> distinct_names dk -> uses w o st -> sees w o v -> sorts_by_default o ->
  pretty_print o p w h = (Ok out, h') ->
  exists e s, tree_at st dk 0 (location w p) e /\ shows v true e s /\ out = text (o_tree_format o) (labelled v s) /\
    forall k q es, at_depth k e (EDir q es) ->
      StronglySorted (fun a b => name_lt (last_name a) (last_name b)) (child_paths es).
Proof.
  intros Hw Hd Hu Hs Hso H. destruct Hu as (U1 & U2 & U3 & U4 & U5).
  assert (E := sorts_by_default_order _ _ _ Hso U4).
  eapply C06_sorted; eauto.
  - repeat split; eauto.
  - now apply alphabetical_configured.
  - intros a b Ha Hb Hab. rewrite E in Hab. now apply alphabetical_lt in Hab.
Qed.

Lemma configured_of o st w : uses w o st ->
  sorts_by_default o \/ (exists c g, contract g /\ (forall a, answers w (c a) (g a)) /\ sorts_by c o) -> configured_order (s_cmp st).
Proof.
  intros (_ & _ & _ & U4 & _) [H|(c & g & Hc & Hg & H)].
  - apply alphabetical_configured. eapply sorts_by_default_order; eauto.
  - apply (refined_configured g); [exact Hc|]. eapply sorts_by_order; eauto.
Qed.

Lemma C07_sort_lemma w1 w2 dk1 dk2 o st v p :
  steady w1 dk1 -> steady w2 dk2 -> w_jvm w1 = w_jvm w2 -> same_but_order dk1 dk2 -> distinct_names dk1 ->
  uses w1 o st -> uses w2 o st -> sees w1 o v -> sees w2 o v ->
  sorts_by_default o \/ (exists c g, contract g /\ (forall a, answers w1 (c a) (g a)) /\ sorts_by c o) ->
  forall h1 h2, fst (pretty_print o p w1 h1) = fst (pretty_print o p w2 h2).
Proof. intros Hw1 Hw2 Hj Hso Hdn Hu1 Hu2 Hs1 Hs2 Hc. eapply C07_lemma; eauto. eapply configured_of; [exact Hu1|exact Hc]. Qed.
