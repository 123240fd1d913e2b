(** * What particular globs test *)

From Verif Require Import SpecGlob PathFacts RenderFacts LayoutFacts MatcherFacts PointFacts GlobFacts.
From Coq Require Import Lia.
Close Scope Z_scope.

Lemma tells_iff w c p Q Q' : (Q <-> Q') -> tells w c p Q -> tells w c p Q'.
Proof. intros H (b & H1 & H2). exists b. split; [exact H1|]. now rewrite H2. Qed.

(** ** Names *)

Lemma with_gaps_any n : with_gaps [[]; []] n.
Proof. rewrite <- (app_nil_r n). apply (fl_more [] n [[]] []). constructor. Qed.

Lemma ends_name p n : ends_with_name p n -> exists q, get_file_name p = Some q /\ path_str q = n.
Proof.
  intro H. inversion H as [a l x|]; subst; [|exists (mkPath false []); now split].
  exists (mkPath false [n]). unfold get_file_name. cbn. rewrite rev_app_distr. now split.
Qed.

Lemma name_glob w h g f : unix_globs w -> g <> s_star -> jdk_glob g = Some f ->
  exists c, pm_name_glob g w h = (Ok c, h) /\ (forall p n, ends_with_name p n -> exists q, path_str q = n /\ forall h', c p w h' = (Ok (f q), h')) /\
    forall h', c (mkPath true []) w h' = (Ok false, h').
Proof.
  intros U Hg E. unfold pm_name_glob. destruct (jeqb_spec g s_star); [contradiction|]. unfold bind, glob_matcher, bind, get_jvm. rewrite U, E.
  eexists. split; [reflexivity|]. split; [|reflexivity]. intros p nm Hp. destruct (ends_name p nm Hp) as (q & Eq & Hq). exists q. split; [exact Hq|].
  intro h'. now rewrite Eq.
Qed.

Theorem name_pieces : forall w h pieces, unix_globs w -> pieces <> [] -> pieces_ok pieces -> Forall paired pieces ->
  exists c, pm_name_glob (join (js "*") pieces) w h = (Ok c, h) /\
    forall p n, ends_with_name p n -> ~ In c_slash n -> tells w c p (with_gaps pieces n).
Proof.
  intros w h pieces U Hne Hok Hpd. destruct (jdk_pieces pieces Hne Hok Hpd) as (f & E & Hf).
  destruct (jeqb_spec (join (js "*") pieces) s_star) as [Es|Hs].
  - rewrite Es. eexists. split; [reflexivity|]. intros p n _ _. exists true. split; [reflexivity|]. split; [intros _|reflexivity].
    destruct pieces as [|x [|y l]]; [now contradict Hne| |].
    + exfalso. cbn in Es. subst x. destruct Hok as [Hv _]. inversion Hv as [|? ? Hx _]; subst. inversion Hx as [|? ? Hc _]; subst. apply Hc. cbn. tauto.
    + rewrite join_cons in Es by discriminate. destruct x as [|a x]; cbn in Es.
      * injection Es as Es. destruct l as [|z l]; [cbn in Es; subst y; apply with_gaps_any|].
        exfalso. destruct y; [now apply (proj2 Hok [[]] [] z l)|]. rewrite join_cons in Es by discriminate. discriminate.
      * exfalso. injection Es as _ Es. destruct x; discriminate.
  - destruct (name_glob w h _ f U Hs E) as (c & Ec & Hc & _). exists c. split; [exact Ec|]. intros p n Hp Hn.
    destruct (Hc p n Hp) as (q & <- & Hq). exists (f q). split; [exact Hq|]. now apply Hf.
Qed.

Lemma pieces1 s : verbatim s -> pieces_ok [s].
Proof. intro H. split; [now repeat constructor|]. intros [|? [|? ?]] x y r E; discriminate. Qed.

Lemma pieces2 s t : verbatim s -> verbatim t -> pieces_ok [s; t].
Proof.
  intros H1 H2. split; [now repeat constructor|]. intros [|a [|b [|d l]]] x y r E Hl; try (now contradict Hl); try discriminate.
Qed.

Lemma gaps2 s t n : with_gaps [s; t] n <-> exists m, n = s ++ m ++ t.
Proof.
  split.
  - intro H. inversion H as [|? gap ? ? H']; subst. inversion H' as [|? ? ? ? H'']; subst; [|inversion H'']. now exists gap.
  - intros (m & ->). apply fl_more. constructor.
Qed.

Lemma gaps1 s n : with_gaps [s] n <-> n = s.
Proof. split; [|intros ->; constructor]. intro H. inversion H as [|? ? ? ? H']; subst; [reflexivity|inversion H']. Qed.

Theorem name_shapes : forall w h s, unix_globs w -> verbatim s -> paired s ->
  exists c1 c2 c3 c4, pm_name_glob s w h = (Ok c1, h) /\ pm_name_glob (s ++ js "*") w h = (Ok c2, h) /\
    pm_name_glob (js "*" ++ s) w h = (Ok c3, h) /\ pm_name_glob (js "*." ++ s) w h = (Ok c4, h) /\
    forall p n h', ends_with_name p n -> ~ In c_slash n ->
      c1 p w h' = pm_name s p w h' /\ c2 p w h' = pm_name_starting_with s p w h' /\
      c3 p w h' = pm_name_ending_with s p w h' /\ c4 p w h' = pm_extension s p w h'.
Proof.
  intros w h s U Hv Hs. assert (H0 : paired []) by constructor.
  assert (Pd : paired (c_dot :: s)) by (apply (paired_app [c_dot]); [apply pairedb_ok; reflexivity|exact Hs]).
  assert (V : verbatim (c_dot :: s)) by (constructor; [cbn; intuition discriminate|exact Hv]).
  destruct (name_pieces w h [s] U ltac:(discriminate) (pieces1 s Hv) ltac:(auto)) as (c1 & E1 & H1).
  destruct (name_pieces w h [s; []] U ltac:(discriminate) (pieces2 s [] Hv ltac:(constructor)) ltac:(auto)) as (c2 & E2 & H2).
  destruct (name_pieces w h [[]; s] U ltac:(discriminate) (pieces2 [] s ltac:(constructor) Hv) ltac:(auto)) as (c3 & E3 & H3).
  destruct (name_pieces w h [[]; c_dot :: s] U ltac:(discriminate) (pieces2 [] _ ltac:(constructor) V) ltac:(auto)) as (c4 & E4 & H4).
  exists c1, c2, c3, c4. split; [exact E1|]. split; [exact E2|]. split; [exact E3|]. split; [exact E4|]. intros p n h' Hp Hn.
  assert (T : forall c pieces f, (forall q m, ends_with_name q m -> ~ In c_slash m -> tells w c q (with_gaps pieces m)) ->
    (forall m, f m = true <-> with_gaps pieces m) -> c p w h' = pm_name_test f p w h').
  { intros c pieces f Hc Hf. destruct (Hc p n Hp Hn) as (b & Hb & Hbt). rewrite Hb. unfold pm_name_test.
    destruct (ends_name p n Hp) as (q & -> & ->). unfold ret. do 2 f_equal. apply Bool.eq_iff_eq_true. now rewrite Hbt, Hf. }
  split; [|split; [|split]].
  - apply (T c1 [s]); [exact H1|]. intro m. rewrite gaps1. destruct (jeqb_spec m s); split; congruence.
  - apply (T c2 [s; []]); [exact H2|]. intro m. rewrite gaps2, jprefixb_spec. split; intros (t & ->); exists t; now rewrite ?app_nil_r.
  - apply (T c3 [[]; s]); [exact H3|]. intro m. rewrite gaps2, jsuffixb_spec. reflexivity.
  - apply (T c4 [[]; c_dot :: s]); [exact H4|]. intro m. rewrite gaps2, jsuffixb_spec. reflexivity.
Qed.

Theorem name_escaped : forall w h n, unix_globs w ->
  exists c, pm_name_glob (escaped n) w h = (Ok c, h) /\ forall p h', c p w h' = pm_name n p w h'.
Proof.
  intros w h n U. destruct (jdk_literal (escaped n) n (escaped_literal n)) as (f & E & Hf).
  unfold pm_name_glob. destruct (jeqb_spec (escaped n) s_star) as [Es|_]; [destruct n; discriminate|].
  unfold bind, glob_matcher, bind, get_jvm. rewrite U, E. eexists. split; [reflexivity|]. intros p h'. unfold pm_name, pm_name_test.
  destruct (get_file_name p) as [q|]; [|reflexivity]. unfold ret. do 2 f_equal. apply Bool.eq_iff_eq_true. rewrite Hf.
  destruct (jeqb_spec (path_str q) n); split; congruence.
Qed.

(** A glob with a '/' is true of no name. *)
Theorem name_slash : forall w h g c h1, unix_globs w -> In c_slash g -> ~ In 91%N g -> ~ In 123%N g ->
  pm_name_glob g w h = (Ok c, h1) -> forall p n h', ends_with_name p n -> ~ In c_slash n -> c p w h' = (Ok false, h').
Proof.
  intros w h g c h1 U Hs H1 H2 E p n h' Hp Hn. unfold pm_name_glob in E. destruct (jeqb_spec g s_star) as [->|Hg]; [destruct Hs as [H|[]]; discriminate|].
  unfold bind, glob_matcher, bind, get_jvm in E. rewrite U in E. destruct (jdk_glob g) as [f|] eqn:Eg; [|discriminate]. cbn in E. injection E as <- <-.
  destruct (ends_name p n Hp) as (q & -> & Hq). unfold ret. do 2 f_equal. destruct (f q) eqn:Ef; [|reflexivity].
  exfalso. apply Hn. rewrite <- Hq. eapply needs_slash; eassumption.
Qed.

(** ** Relative paths *)

Lemma relative_glob w h g f ref R : unix_globs w -> g <> s_star -> jdk_glob g = Some f -> at_names w ref R ->
  exists c, pm_relative_path_glob ref g w h = (Ok c, h) /\
    forall p L h', at_names w p L -> c p w h' = (Ok (f (mkPath false (relativize_names R L))), h').
Proof.
  intros U Hg E [HR Hr]. unfold pm_relative_path_glob. destruct (jeqb_spec g s_star); [contradiction|].
  unfold bind at 1. unfold glob_matcher, bind at 1, get_jvm. rewrite U, E. destruct (relative_matcher w ref (fun p => ret (f p)) h) as (c & Ec & Hc).
  exists c. split; [exact Ec|]. intros p L h' [HL Hp]. rewrite Hc, (loc_real _ _ R HR Hr), (loc_real _ _ L HL Hp). reflexivity.
Qed.

Lemma str_relative l : path_str (mkPath false l) = slashed l.
Proof. reflexivity. Qed.
Lemma str_absolute l : path_str (mkPath true l) = c_slash :: slashed l.
Proof. reflexivity. Qed.

Lemma real_head (rest : list jstring) : rest <> [] -> Forall real_name rest -> forall r, exists x l, rest ++ r = x :: l /\ x <> n_dotdot.
Proof. intros Hne H r. destruct rest as [|x rest]; [now contradict Hne|]. inversion H as [|? ? Hx _]; subst. exists x, (rest ++ r). split; [reflexivity|apply Hx]. Qed.

Theorem relative_literal : forall w h ref R rest g, unix_globs w -> at_names w ref R -> rest <> [] -> Forall real_name rest ->
  literal g (slashed rest) ->
  exists c, pm_relative_path_glob ref g w h = (Ok c, h) /\ forall p L, at_names w p L -> tells w c p (L = R ++ rest).
Proof.
  intros w h ref R rest g U Hr Hne Hrest Hg. destruct (jdk_literal g _ Hg) as (f & E & Hf).
  destruct (relative_glob w h g f ref R U (literal_star g _ Hg) E Hr) as (c & Ec & Hc). exists c. split; [exact Ec|].
  intros p L Hp. exists (f (mkPath false (relativize_names R L))). split; [intro h'; now apply Hc|].
  rewrite Hf, str_relative, <- (rel_under R L rest).
  - split; [|now intros ->]. apply slashed_inj; [apply rel_good; apply Hp|now apply real_good].
  - right. destruct (real_head rest Hne Hrest []) as (x & l & El & Hx). rewrite app_nil_r in El. now exists x, l.
Qed.

Lemma slashed_app a b : a <> [] -> b <> [] -> slashed (a ++ b) = slashed a ++ c_slash :: slashed b.
Proof. intros Ha Hb. unfold slashed. rewrite join_app by assumption. reflexivity. Qed.

Theorem relative_below : forall w h ref R rest g, unix_globs w -> at_names w ref R -> rest <> [] -> Forall real_name rest ->
  literal g (slashed rest) ->
  exists c, pm_relative_path_glob ref (g ++ js "/**") w h = (Ok c, h) /\ forall p L, at_names w p L ->
    tells w c p (exists r, r <> [] /\ L = R ++ rest ++ r /\ no_terminator (slashed r)).
Proof.
  intros w h ref R rest g U Hr Hne Hrest Hg. destruct (jdk_below g _ Hg) as (f & E & Hf).
  assert (Hs : g ++ js "/**" <> s_star) by (destruct g as [|? [|? ?]]; discriminate).
  destruct (relative_glob w h _ f ref R U Hs E Hr) as (c & Ec & Hc). exists c. split; [exact Ec|].
  intros p L Hp. exists (f (mkPath false (relativize_names R L))). split; [intro h'; now apply Hc|].
  rewrite Hf, str_relative. split.
  - intros (t & Et & Ht). symmetry in Et. apply slashed_prefix in Et as (r & Hn & Er & ->); [|exact Hne|now apply real_good|apply rel_good; apply Hp].
    exists r. split; [exact Hn|]. split; [|exact Ht]. apply rel_under; [right; now apply real_head|exact Er].
  - intros (r & Hn & -> & Ht). exists (slashed r). split; [|exact Ht]. rewrite relativize_names_under. now apply slashed_app.
Qed.

(** ** The globs [**/*] and [**] with a text *)

Lemma last_slash a b x y : ~ In c_slash b -> ~ In c_slash y -> a ++ c_slash :: b = x ++ c_slash :: y -> a = x /\ b = y.
Proof.
  intros Hb Hy E. apply (f_equal (@rev _)) in E. rewrite !rev_app_distr in E. cbn in E. rewrite <- !app_assoc in E. cbn in E.
  apply first_slash in E as [E1 E2]; [|now rewrite <- in_rev|now rewrite <- in_rev]. split; [rewrite <- (rev_involutive a), E2; apply rev_involutive|].
  rewrite <- (rev_involutive b), E1. apply rev_involutive.
Qed.

Lemma deep_match a n s : ~ In c_slash n ->
  (exists x b, a ++ c_slash :: n = x ++ c_slash :: b ++ s /\ no_terminator x /\ ~ In c_slash b) /\ ~ In c_slash s <->
  no_terminator a /\ ending n s.
Proof.
  intro Hn. split.
  - intros ((x & b & E & Hx & Hb) & Hs). apply last_slash in E as [-> ->]; [|exact Hn|rewrite in_app_iff; tauto]. split; [exact Hx|now exists b].
  - intros (Ha & m & ->). rewrite in_app_iff in Hn. split; [|tauto]. exists a, m. split; [reflexivity|]. split; [exact Ha|tauto].
Qed.

Lemma tail_match dirs n s : ~ In c_slash s -> ~ In c_slash n -> ending (dirs ++ c_slash :: n) s <-> ending n s.
Proof.
  intros Hs Hn. split; [|intros (m & ->); exists (dirs ++ c_slash :: m); now rewrite <- app_assoc].
  intros (m & E). destruct (in_dec N.eq_dec c_slash m) as [Hm|Hm].
  - apply in_split in Hm as (m1 & m2 & ->).
    assert (exists k1 k2, m1 ++ c_slash :: m2 = k1 ++ c_slash :: k2 /\ ~ In c_slash k2) as (k1 & k2 & Ek & Hk).
    { clear. revert m1. induction m2 as [m2 IH] using (well_founded_induction (well_founded_ltof _ (@length jchar))). intro m1.
      destruct (in_dec N.eq_dec c_slash m2) as [H|H]; [|now exists m1, m2]. apply in_split in H as (a & b & ->).
      destruct (IH b) with (m1 := m1 ++ c_slash :: a) as (k1 & k2 & E & Hk).
      - unfold ltof. rewrite app_length. cbn. lia.
      - exists k1, k2. split; [|exact Hk]. rewrite <- E, <- app_assoc. reflexivity. }
    rewrite Ek, <- app_assoc in E. cbn in E. apply last_slash in E as [_ ->]; [now exists k2|exact Hn|rewrite in_app_iff; tauto].
  - exfalso. assert (In c_slash (m ++ s)) as H by (rewrite <- E, in_app_iff; cbn; tauto). apply in_app_iff in H. tauto.
Qed.

Lemma real_no_slash n : real_name n -> ~ In c_slash n.
Proof. intros [[_ H] _]. exact H. Qed.

Lemma last_real l (n : jstring) : Forall real_name (l ++ [n]) -> Forall real_name l /\ ~ In c_slash n.
Proof. intro H. apply Forall_app in H as [H1 H2]. inversion H2; subst. split; [exact H1|now apply real_no_slash]. Qed.

Lemma str_last abs (dirs : list jstring) n : (abs = true \/ dirs <> []) ->
  path_str (mkPath abs (dirs ++ [n])) = (path_str (mkPath abs dirs) ++ (match abs, dirs with true, [] => [] | _, _ => [c_slash] end)) ++ n.
Proof.
  intro H. unfold path_str. cbn [p_abs p_names]. destruct dirs as [|x dirs].
  - destruct abs; [reflexivity|now destruct H].
  - rewrite join_app by discriminate. destruct abs; cbn [app]; rewrite <- ?app_assoc; reflexivity.
Qed.

Lemma dirs_str abs (dirs : list jstring) n : (abs = true \/ dirs <> []) ->
  exists a, path_str (mkPath abs (dirs ++ [n])) = a ++ c_slash :: n /\ (no_terminator a <-> no_terminator (slashed dirs)).
Proof.
  intro H. destruct dirs as [|x dirs].
  - destruct H as [->|H]; [|now contradict H]. exists []. split; reflexivity.
  - exists (path_str (mkPath abs (x :: dirs))). split.
    + rewrite str_last by (right; discriminate). rewrite <- app_assoc. destruct abs; reflexivity.
    + unfold path_str. cbn [p_abs p_names]. destruct abs; [|reflexivity]. split; [intro G; now inversion G|]. intro G. now constructor.
Qed.

Lemma absolute_glob w h g f : unix_globs w -> Forall real_name (jv_cwd (w_jvm w)) -> g <> s_star -> jdk_glob g = Some f ->
  exists c, pm_absolute_path_glob g w h = (Ok c, h) /\
    forall p L, at_names w p L -> p_abs p = true \/ ~ In n_dotdot (p_names (normalize p)) -> forall h', c p w h' = (Ok (f (mkPath true L)), h').
Proof.
  intros U Hc Hg E. rewrite <- (U g) in E. destruct (C97_absolute_lemma w g f h E Hg) as (c & Ec & Hq). exists c. split; [exact Ec|].
  intros p L [HL Hp] Ha h'. destruct (Hq p) as ([abs l] & H1 & H2 & H3 & H4). cbn in H2. subst abs. rewrite H1. do 3 f_equal.
  specialize (H4 Hc Ha). cbn in H4. apply same_location_loc in H3. rewrite (loc_real _ _ L HL Hp) in H3. rewrite H3. unfold loc, to_absolute. cbn [p_abs p_names].
  now rewrite norm_names_plain.
Qed.

Lemma long_glob a b g : a :: b :: g <> s_star.
Proof. intro H. discriminate H. Qed.

Theorem absolute_deep : forall w h g s, unix_globs w -> Forall real_name (jv_cwd (w_jvm w)) -> literal g s -> paired s -> ~ In c_slash s ->
  exists c, pm_absolute_path_glob (js "**/*" ++ g) w h = (Ok c, h) /\
    forall p dirs n, at_names w p (dirs ++ [n]) -> p_abs p = true \/ ~ In n_dotdot (p_names (normalize p)) ->
      tells w c p (no_terminator (slashed dirs) /\ ending n s).
Proof.
  intros w h g s U Hcwd Hg Hpd Hs. destruct (jdk_deep g s Hg Hpd) as (f & E & Hf).
  destruct (absolute_glob w h _ f U Hcwd (long_glob _ _ _) E) as (c & Ec & Hc). exists c. split; [exact Ec|]. intros p dirs n Hp Ha.
  exists (f (mkPath true (dirs ++ [n]))). split; [now apply Hc|]. rewrite Hf. destruct (last_real dirs n (proj1 Hp)) as [_ Hn].
  destruct (dirs_str true dirs n ltac:(now left)) as (a & -> & Hd). rewrite <- Hd, <- (deep_match a n s Hn). tauto.
Qed.

Lemma no_terminator_app a b : no_terminator (a ++ b) <-> no_terminator a /\ no_terminator b.
Proof. apply Forall_app. Qed.

(** What a relative path must be for [**/*] and a text. *)
Lemma relative_deep_match f s : ~ In c_slash s ->
  (forall p, f p = true <-> exists a b, path_str p = a ++ c_slash :: b ++ s /\ no_terminator a /\ ~ In c_slash b) ->
  forall dirs n, ~ In c_slash n -> f (mkPath false (dirs ++ [n])) = true <-> dirs <> [] /\ no_terminator (slashed dirs) /\ ending n s.
Proof.
  intros Hs Hf dirs n Hn. rewrite Hf. destruct dirs as [|x dirs].
  - split; [|intros [H _]; now contradict H]. intros (a & b & E & _). exfalso. apply Hn. unfold path_str in E. cbn in E. rewrite E, in_app_iff. cbn. tauto.
  - destruct (dirs_str false (x :: dirs) n ltac:(right; discriminate)) as (a & -> & Hd). rewrite <- Hd, <- (deep_match a n s Hn).
    split; [intro H; split; [discriminate|tauto]|tauto].
Qed.

Lemma dots_clean (b : list jstring) : no_terminator (slashed (map (fun _ => n_dotdot) b)).
Proof.
  unfold slashed. induction b as [|x [|y b] IH]; [constructor|repeat constructor|]. cbn [map] in *. rewrite join_cons by discriminate.
  apply no_terminator_app. split; [repeat constructor|]. apply no_terminator_app. split; [repeat constructor|exact IH].
Qed.

Lemma dots_rest (x : jstring) b dirs : no_terminator (slashed (map (fun _ => n_dotdot) (x :: b) ++ dirs)) <-> no_terminator (slashed dirs).
Proof.
  destruct dirs as [|d dirs]; [rewrite app_nil_r; split; [constructor|intros _; apply dots_clean]|].
  rewrite slashed_app by discriminate. rewrite no_terminator_app. split.
  - intros [_ H]. now inversion H.
  - intro H. split; [apply dots_clean|]. constructor; [reflexivity|exact H].
Qed.

Theorem relative_deep : forall w h ref R g s, unix_globs w -> at_names w ref R -> literal g s -> paired s -> ~ In c_slash s ->
  exists c, pm_relative_path_glob ref (js "**/*" ++ g) w h = (Ok c, h) /\
    (forall p dirs n, at_names w p (R ++ dirs ++ [n]) -> tells w c p (dirs <> [] /\ no_terminator (slashed dirs) /\ ending n s)) /\
    (forall p common x b dirs n, R = common ++ x :: b -> hd_error (dirs ++ [n]) <> Some x -> at_names w p (common ++ dirs ++ [n]) ->
       tells w c p (no_terminator (slashed dirs) /\ ending n s)).
Proof.
  intros w h ref R g s U Hr Hg Hpd Hs. destruct (jdk_deep g s Hg Hpd) as (f & E & Hf).
  destruct (relative_glob w h _ f ref R U (long_glob _ _ _) E Hr) as (c & Ec & Hc). exists c. split; [exact Ec|].
  pose proof (relative_deep_match f s Hs Hf) as D. split.
  - intros p dirs n Hp. eexists. split; [intro h'; exact (Hc p _ h' Hp)|]. rewrite relativize_names_under. apply D.
    destruct Hp as [Hp _]. apply Forall_app in Hp as [_ Hp]. now apply last_real in Hp.
  - intros p common x b dirs n -> Hd Hp. eexists. split; [intro h'; exact (Hc p _ h' Hp)|].
    rewrite relativize_names_spec by (destruct (dirs ++ [n]); [exact I|]; intro; subst; now apply Hd).
    rewrite app_assoc, D.
    + rewrite dots_rest. split; [tauto|]. intro H. split; [discriminate|exact H].
    + destruct Hp as [Hp _]. apply Forall_app in Hp as [_ Hp]. now apply last_real in Hp.
Qed.

(** [**] and a text. *)
Lemma tail_str f s abs dirs n : ~ In c_slash s -> ~ In c_slash n ->
  (forall p, f p = true <-> exists a, path_str p = a ++ s /\ no_terminator a) ->
  f (mkPath abs (dirs ++ [n])) = true <-> no_terminator (slashed dirs) /\ exists m, n = m ++ s /\ no_terminator m.
Proof.
  intros Hs Hn Hf. rewrite Hf. assert (abs = false /\ dirs = [] \/ (abs = true \/ dirs <> [])) as [[-> ->]|H].
  { destruct abs; [right; now left|]. destruct dirs; [now left|right; right; discriminate]. }
  - split; [|intros [_ H]; exact H]. intro H. split; [constructor|exact H].
  - destruct (dirs_str abs dirs n H) as (a & -> & <-). split.
    + intros (x & E & Hx). destruct (proj1 (tail_match a n s Hs Hn) (ex_intro _ x E)) as (m & ->).
      change (a ++ c_slash :: m ++ s) with (a ++ (c_slash :: m) ++ s) in E. rewrite app_assoc in E. apply app_inv_tail in E as <-.
      apply no_terminator_app in Hx as [H1 H2]. inversion H2; subst. split; [exact H1|]. now exists m.
    + intros (Ha & m & -> & Hm). exists (a ++ c_slash :: m). split; [now rewrite <- app_assoc|]. apply no_terminator_app. split; [exact Ha|].
      now constructor.
Qed.

Theorem absolute_tail : forall w h g s, unix_globs w -> Forall real_name (jv_cwd (w_jvm w)) -> literal g s -> paired s -> ~ In c_slash s ->
  exists c, pm_absolute_path_glob (js "**" ++ g) w h = (Ok c, h) /\
    forall p dirs n, at_names w p (dirs ++ [n]) -> p_abs p = true \/ ~ In n_dotdot (p_names (normalize p)) ->
      tells w c p (no_terminator (slashed dirs) /\ exists m, n = m ++ s /\ no_terminator m).
Proof.
  intros w h g s U Hcwd Hg Hpd Hs. destruct (jdk_tail g s Hg Hpd) as (f & E & Hf).
  destruct (absolute_glob w h _ f U Hcwd (long_glob _ _ _) E) as (c & Ec & Hc). exists c. split; [exact Ec|]. intros p dirs n Hp Ha.
  exists (f (mkPath true (dirs ++ [n]))). split; [now apply Hc|]. destruct (last_real dirs n (proj1 Hp)) as [_ Hn]. now apply tail_str.
Qed.

Theorem relative_tail : forall w h ref R g s, unix_globs w -> at_names w ref R -> literal g s -> paired s -> ~ In c_slash s ->
  exists c, pm_relative_path_glob ref (js "**" ++ g) w h = (Ok c, h) /\
    (forall p dirs n, at_names w p (R ++ dirs ++ [n]) -> tells w c p (no_terminator (slashed dirs) /\ exists m, n = m ++ s /\ no_terminator m)) /\
    (forall p common x b dirs n, R = common ++ x :: b -> hd_error (dirs ++ [n]) <> Some x -> at_names w p (common ++ dirs ++ [n]) ->
       tells w c p (no_terminator (slashed dirs) /\ exists m, n = m ++ s /\ no_terminator m)).
Proof.
  intros w h ref R g s U Hr Hg Hpd Hs. destruct (jdk_tail g s Hg Hpd) as (f & E & Hf).
  destruct (relative_glob w h _ f ref R U (long_glob _ _ _) E Hr) as (c & Ec & Hc). exists c. split; [exact Ec|]. split.
  - intros p dirs n Hp. eexists. split; [intro h'; exact (Hc p _ h' Hp)|]. rewrite relativize_names_under. apply tail_str; [exact Hs| |exact Hf].
    destruct Hp as [Hp _]. apply Forall_app in Hp as [_ Hp]. now apply last_real in Hp.
  - intros p common x b dirs n -> Hd Hp. eexists. split; [intro h'; exact (Hc p _ h' Hp)|].
    rewrite relativize_names_spec by (destruct (dirs ++ [n]); [exact I|]; intro; subst; now apply Hd).
    rewrite app_assoc, (tail_str f s false) by (try assumption; destruct Hp as [Hp _]; apply Forall_app in Hp as [_ Hp]; now apply last_real in Hp).
    now rewrite dots_rest.
Qed.
