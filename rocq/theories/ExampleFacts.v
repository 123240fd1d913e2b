(** * Facts about the example programs *)

From Verif Require Import SpecExample DocTreeFacts GlobMatchFacts GlobFacts PointFacts BuilderFacts MatcherFacts PathFacts ScanPrintFacts TreeFacts MetaFacts EmojiFacts.
From Verif Require Import PrintFacts ScanFacts RenderFacts SortFacts.
From Coq Require Import Lia.
Close Scope Z_scope.

(** ** The wish and the disk determine the text *)
Definition definite (T : list jstring) (a : wish) : Prop := forall rest, Forall real_name rest ->
  (exists l, wi_limit a (mkPath true (T ++ rest)) l) /\ (exists x, wi_extension a (mkPath true (T ++ rest)) x).

Lemma iff_bool (a b : bool) (Q : Prop) : (a = true <-> Q) -> (b = true <-> Q) -> a = b.
Proof. intros H1 H2. apply Bool.eq_iff_eq_true. now rewrite H1, H2. Qed.

Section Wish.
  Context (w : world) (dk : disk) (T : list jstring) (a : wish).
  Hypothesis U : usual w dk.
  Hypothesis D : definite T a.
  Let lower := jv_lower (w_jvm w).

  Lemma grants_settings st v st' v' : grants lower dk T a st v -> grants lower dk T a st' v' ->
    same_settings dk (plain_limits st) (mkPath true T) (plain_limits st') (mkPath true T).
  Proof.
    intros F F'. split; [|split].
    - intros ns Hns _. apply (listed_real _ _ _ (us_real _ _ U)) in Hns. unfold deeper. cbn [p_abs p_names s_dirs s_files plain_limits]. split.
      + eapply iff_bool; [exact (gr_dirs _ _ _ _ _ _ F ns Hns)|exact (gr_dirs _ _ _ _ _ _ F' ns Hns)].
      + eapply iff_bool; [exact (gr_files _ _ _ _ _ _ F ns Hns)|exact (gr_files _ _ _ _ _ _ F' ns Hns)].
    - intros ns Hns. apply (listed_real _ _ _ (us_real _ _ U)) in Hns. unfold deeper. cbn [p_abs p_names s_limit plain_limits].
      destruct (proj1 (D ns Hns)) as (l & Hl).
      eapply same_limits; [exact (gr_limit _ _ _ _ _ _ F ns l Hns Hl)|exact (gr_limit _ _ _ _ _ _ F' ns l Hns Hl)].
    - intros ns x y _ _. cbn [s_cmp plain_limits]. set (p := deeper _ _). set (q := deeper _ _).
      pose proof (configured_contract _ (gr_order _ _ _ _ _ _ F)) as (A & _). pose proof (configured_contract _ (gr_order _ _ _ _ _ _ F')) as (A' & _).
      specialize (A p q). specialize (A' p q).
      pose proof (gr_before _ _ _ _ _ _ F p q). pose proof (gr_before _ _ _ _ _ _ F q p). pose proof (gr_before _ _ _ _ _ _ F' p q). pose proof (gr_before _ _ _ _ _ _ F' q p).
      assert ((s_cmp st p q < 0 <-> s_cmp st' p q < 0)%Z) by tauto. assert ((s_cmp st q p < 0 <-> s_cmp st' q p < 0)%Z) by tauto. lia.
  Qed.

  Lemma grants_view st v st' v' : grants lower dk T a st v -> grants lower dk T a st' v' -> same_view dk v (mkPath true T) v' (mkPath true T).
  Proof.
    intros F F'. split.
    - now rewrite (gr_compact _ _ _ _ _ _ F), (gr_compact _ _ _ _ _ _ F').
    - intros ns Hns. apply (listed_real _ _ _ (us_real _ _ U)) in Hns. unfold deeper. cbn [p_abs p_names].
      destruct (proj2 (D ns Hns)) as (x & Hx).
      rewrite (gr_extension _ _ _ _ _ _ F ns x Hns Hx), (gr_extension _ _ _ _ _ _ F' ns x Hns Hx). split; [reflexivity|]. set (p := mkPath _ _).
      destruct (wi_emojis a) eqn:E.
      + assert (is_dir dk p \/ ~ is_dir dk p) as [Hd|Hd] by (unfold is_dir; destruct (d_kind dk p) as [[]|]; [right; discriminate|now left|right; discriminate..]).
        * now rewrite (gr_dir_emoji _ _ _ _ _ _ F p E Hd), (gr_dir_emoji _ _ _ _ _ _ F' p E Hd).
        * destruct (gr_file_emoji _ _ _ _ _ _ F p E Hd) as (e & -> & H), (gr_file_emoji _ _ _ _ _ _ F' p E Hd) as (e' & -> & H'). f_equal.
          eapply own_emoji_fun; [| |exact (us_lower _ _ U)|exact H|exact H'].
          -- intros k b c. apply table_fun. apply (init_names_nodup FromDefault).
          -- intros k b c. apply table_fun. apply (init_exts_nodup FromDefault).
      + now rewrite (gr_no_emoji _ _ _ _ _ _ F p E), (gr_no_emoji _ _ _ _ _ _ F' p E).
  Qed.

  Lemma grants_move st v st' v' e s : grants lower dk T a st v -> grants lower dk T a st' v' ->
    tree_at st dk 0 (mkPath true T) e -> shows v true e s ->
    exists e' s', tree_at st' dk 0 (mkPath true T) e' /\ shows v' true e' s' /\ labelled v' s' = labelled v s.
  Proof.
    intros F F' Ht Hs. set (r := mkPath true T) in *.
    pose proof (tree_move r r (plain_limits st) (plain_limits st') dk dk 0 (refl_content dk r) (gr_order _ _ _ _ _ _ F) (grants_settings _ _ _ _ F F')) as Hm.
    assert (s_depth (plain_limits st) + 0 = s_depth (plain_limits st'))%Z as Ed.
    { cbn [s_depth plain_limits]. rewrite (gr_depth _ _ _ _ _ _ F), (gr_depth _ _ _ _ _ _ F'). apply Z.add_0_r. }
    specialize (Hm Ed e [] 0%Z (listed_start dk r)). rewrite !under_nil in Hm. specialize (Hm (proj2 (tree_plain_limits st dk e 0 r) Ht)).
    apply (proj1 (tree_plain_limits st' _ _ _ _)) in Hm.
    destruct (move_shows r r dk v v' (grants_view _ _ _ _ F F') eq_refl 0 e (tree_listed _ _ _ _ _ Ht) true s Hs) as [Hs' El].
    eexists _, _. split; [exact Hm|]. split; [exact Hs'|exact El].
  Qed.

  (** Options that do what is wished. *)
  Definition fulfils (o : options) : Prop :=
    o_tree_format o = wi_format a /\ exists st v, uses w o st /\ sees w o v /\ grants lower dk T a st v.

  Lemma wish_text o p h out : T <> [] -> location w p = mkPath true T -> fulfils o ->
    (exists h', pretty_print o p w h = (Ok out, h')) <-> shows_wish lower dk T a out.
  Proof.
    intros Hne Hp (Hf & st & v & Hu & Hv & F). split.
    - intros (h' & P). destruct (print_tree _ _ _ _ _ _ _ _ _ (us_steady _ _ U) Hu Hv P) as (e & s & Ht & Hsh & Ho). rewrite Hp in Ht. rewrite Hf in Ho.
      exists st, v, e, s. auto.
    - intros (st' & v' & e' & s' & F' & Ht & Hs & ->).
      destruct (grants_move _ _ _ _ _ _ F' F Ht Hs) as (e & s & Ht1 & Hs1 & El).
      destruct (print_complete o p w dk st v e (us_steady _ _ U) (us_distinct _ _ U) Hu Hv) as (s2 & Hs2 & Hy).
      + exact (gr_order _ _ _ _ _ _ F).
      + now rewrite Hp.
      + now rewrite Hp.
      + rewrite (shows_fun _ _ _ _ _ Hs2 Hs1), El, Hf in Hy. apply Hy.
  Qed.

  Lemma wish_shown o : T <> [] -> Forall real_name T -> fulfils o -> all_can_be_read dk (mkPath true T) -> exists out, shows_wish lower dk T a out.
  Proof.
    intros Hne HT Hf Ha. pose proof (DocTreeFacts.location_real w T HT) as Hp. destruct Hf as (Hf & st & v & Hu & Hv & F).
    destruct (pretty_print_returns o (mkPath true T) w dk st v (us_steady _ _ U) Hu Hv) as (out & Hout).
    - rewrite Hp. intros d p Hp'. apply reach_listed in Hp' as (ns & Hns & ->). destruct (Ha ns Hns) as [H1 H2]. split.
      + intros Hd _. destruct (d_list dk _) as [l|]; [|now destruct (H1 Hd)]. exists l. split; [reflexivity|left].
        apply configured_contract. exact (gr_order _ _ _ _ _ _ F).
      + intro Hd. destruct (d_attr dk _) as [k|]; [now exists k|]. now destruct (H2 Hd).
    - now rewrite Hp.
    - exists out. destruct (Hout []) as (h' & P). apply (wish_text o (mkPath true T) [] out Hne Hp); [|now exists h']. split; [exact Hf|]. now exists st, v.
  Qed.
End Wish.

(** ** What matchers decide, for the paths in [P] *)
Definition decides (w : world) (P : path -> Prop) (m : matcher) (Q : path -> Prop) : Prop :=
  exists g, answers w m g /\ forall p, P p -> g p = true <-> Q p.

Definition anywhere (p : path) : Prop := True.
Definition below_T (T : list jstring) (p : path) : Prop := exists rest, Forall real_name rest /\ p = mkPath true (T ++ rest).

Lemma decides_weaken w (P P' : path -> Prop) m (Q Q' : path -> Prop) : (forall p, P' p -> P p) -> (forall p, P' p -> Q p <-> Q' p) -> decides w P m Q -> decides w P' m Q'.
Proof. intros HP HQ (g & H1 & H2). exists g. split; [exact H1|]. intros p Hp. rewrite <- (HQ p Hp). now apply H2, HP. Qed.

Lemma decides_em w P m Q p : decides w P m Q -> P p -> Q p \/ ~ Q p.
Proof. intros (g & _ & H) Hp. specialize (H p Hp). destruct (g p); [left; now apply H|right]. intro K. now apply H in K. Qed.

Lemma ends_inv p q : get_file_name p = Some q -> ends_with_name p (path_str q).
Proof.
  destruct p as [abs l]. unfold get_file_name. cbn [p_names p_abs]. destruct (rev l) as [|n r] eqn:E.
  - destruct l as [|x l]; [|apply (f_equal (@length _)) in E; rewrite rev_length in E; discriminate]. destruct abs; [discriminate|]. intro H. injection H as <-. constructor.
  - intro H. injection H as <-. assert (l = rev r ++ [n]) as -> by (rewrite <- (rev_involutive l), E; reflexivity). apply ewn_last.
Qed.

Lemma ends_real p n : Forall real_name (p_names p) -> ends_with_name p n -> ~ In c_slash n.
Proof.
  intros Hr Hn. destruct Hn as [abs l n|]; [|intros []]. cbn in Hr. apply Forall_app in Hr. destruct Hr as [_ Hr]. inversion Hr as [|? ? [[_ Hx] _] _]. exact Hx.
Qed.

Lemma decides_name w f (Q : jstring -> Prop) : (forall n, f n = true <-> Q n) -> decides w anywhere (pm_name_test f) (named Q).
Proof.
  intro Hf. exists (fun p => match get_file_name p with None => false | Some n => f (path_str n) end). split; [intros p h; now exists h|].
  intros p _. unfold named. destruct (get_file_name p) as [q|] eqn:E.
  - rewrite Hf. split; [intro H; exists (path_str q); split; [now apply ends_inv|exact H]|].
    intros (n & Hn & H). destruct (ends_name p n Hn) as (q' & E' & <-). congruence.
  - split; [discriminate|]. intros (n & Hn & _). destruct (ends_name p n Hn) as (q' & E' & _). congruence.
Qed.

Lemma decides_eq w n : decides w anywhere (pm_name n) (named (eq n)).
Proof. apply decides_name. intro m. destruct (jeqb_spec m n); split; congruence. Qed.

Lemma decides_starting w s : decides w anywhere (pm_name_starting_with s) (named (starting s)).
Proof.
  apply decides_name. intro m. apply jprefixb_spec.
Qed.
Lemma decides_ending w s : decides w anywhere (pm_name_ending_with s) (named (fun n => ending n s)).
Proof. apply decides_name. intro m. apply jsuffixb_spec. Qed.

Lemma decides_not w P m Q : decides w P m Q -> decides w P (pm_not m) (fun p => ~ Q p).
Proof.
  intros (g & H1 & H2). exists (fun p => negb (g p)). split.
  - intros p h. destruct (H1 p h) as (h' & E). exists h'. unfold pm_not, bind. now rewrite E.
  - intros p Hp. rewrite <- (H2 p Hp). destruct (g p); cbn; split; congruence.
Qed.

Lemma decides_any w P ms Qs : Forall2 (decides w P) ms Qs -> decides w P (pm_any ms) (fun p => Exists (fun Q => Q p) Qs).
Proof.
  intro HF. induction HF as [|m Q ms Qs (g & H1 & H2) HF (gs & K1 & K2)].
  - exists (fun _ => false). split; [intros p h; now exists h|]. intros p _. rewrite Exists_nil. split; [discriminate|contradiction].
  - exists (fun p => if g p then true else gs p). split.
    + intros p h. destruct (H1 p h) as (h' & E). cbn [pm_any]. unfold bind. rewrite E. destruct (g p); [now exists h'|apply K1].
    + intros p Hp. rewrite Exists_cons, <- (H2 p Hp), <- (K2 p Hp). destruct (g p); intuition.
Qed.

Lemma decides_none w P ms Qs : Forall2 (decides w P) ms Qs -> decides w P (pm_none ms) (fun p => ~ Exists (fun Q => Q p) Qs).
Proof.
  intro HF. induction HF as [|m Q ms Qs (g & H1 & H2) HF (gs & K1 & K2)].
  - exists (fun _ => true). split; [intros p h; now exists h|]. intros p _. rewrite Exists_nil. tauto.
  - exists (fun p => if g p then false else gs p). split.
    + intros p h. destruct (H1 p h) as (h' & E). cbn [pm_none]. unfold bind. rewrite E. destruct (g p); [now exists h'|apply K1].
    + intros p Hp. rewrite Exists_cons. specialize (H2 p Hp). specialize (K2 p Hp). destruct (g p); intuition discriminate.
Qed.

(** ** Rules *)
Lemma first_rule_fun {A} (other : A) l a b : first_rule other l a -> first_rule other l b -> a = b.
Proof. intro H. induction H; intro K; inversion K; subst; auto; contradiction. Qed.

Section Rules.
  Context (w : world) (P : path -> Prop).

  Lemma rules_total {A} (other : A) (l : list (matcher * (path -> Prop) * A)) p : P p -> Forall (fun r => decides w P (fst (fst r)) (snd (fst r))) l ->
    exists r, first_rule other (map (fun r => (snd (fst r) p, snd r)) l) r.
  Proof.
    intros Hp HF. induction HF as [|[[m Q] a] l Hd HF (r & IH)]; [exists other; constructor|]. cbn [map fst snd] in *.
    destruct (decides_em _ _ _ _ p Hd Hp) as [H|H]; [exists a; now constructor|]. exists r. now apply fr_later.
  Qed.

  Lemma limit_rules (l : list (matcher * (path -> Prop) * Z)) :
    Forall (fun r => decides w P (fst (fst r)) (snd (fst r)) /\ (0 <= snd r)%Z) l -> forall d, (d < 0)%Z ->
    exists g, answers w (limit_loop d (map (fun r => limit_rule (fst (fst r)) (snd r)) l)) g /\
      forall p z, P p -> first_rule None (map (fun r => (snd (fst r) p, Some (snd r))) l) z -> same_limit (g p) z.
  Proof.
    intro HF. induction HF as [|[[m Q] z] l [(gm & M1 & M2) Hz] HF IH]; intros d Hd.
    - exists (fun _ => d). split; [intros p h; now exists h|]. intros p z _ H. inversion H; subst. now split.
    - destruct (IH UNLIMITED eq_refl) as (g & G1 & G2). cbn [map fst snd] in *. exists (fun p => if gm p then z else g p). split.
      + intros p h. destruct (M1 p h) as (h' & E). cbn [limit_loop]. unfold limit_rule at 1, bind, ret. rewrite E. destruct (gm p).
        * destruct (Z.leb_spec 0 z); [now exists h'|lia].
        * change (0 <=? UNLIMITED)%Z with false. apply G1.
      + intros p r Hp H. specialize (M2 p Hp). inversion H as [|? ? ? HQ|? ? ? ? HQ Hr]; subst.
        * apply M2 in HQ. rewrite HQ. split; [auto|lia].
        * destruct (gm p); [destruct HQ; now apply M2|]. now apply G2.
  Qed.

  Lemma extension_rules (l : list (matcher * (path -> Prop) * option jstring)) :
    Forall (fun r => decides w P (fst (fst r)) (snd (fst r)) /\ snd r <> None) l ->
    exists g, answers w (ext_loop None (map (fun r => ext_rule (fst (fst r)) (snd r)) l)) g /\
      forall p z, P p -> first_rule None (map (fun r => (snd (fst r) p, snd r)) l) z -> g p = z.
  Proof.
    intro HF. induction HF as [|[[m Q] z] l [(gm & M1 & M2) Hz] HF (g & G1 & G2)].
    - exists (fun _ => None). split; [intros p h; now exists h|]. intros p z _ H. now inversion H.
    - cbn [map fst snd] in *. exists (fun p => if gm p then z else g p). split.
      + intros p h. destruct (M1 p h) as (h' & E). cbn [ext_loop]. unfold ext_rule at 1, bind, ret. rewrite E. destruct (gm p).
        * destruct z as [z|]; [now exists h'|contradiction].
        * apply G1.
      + intros p r Hp H. specialize (M2 p Hp). inversion H as [|? ? ? HQ|? ? ? ? HQ Hr]; subst.
        * apply M2 in HQ. now rewrite HQ.
        * destruct (gm p); [destruct HQ; now apply M2|]. now apply G2.
  Qed.

  Lemma sort_rules (l : list (matcher * (path -> Prop) * Z)) :
    Forall (fun r => decides w P (fst (fst r)) (snd (fst r)) /\ snd r <> 0%Z) l ->
    exists g, answers w (sort_precedence_loop 0 (map (fun r p => matches <- fst (fst r) p; ret (if matches : bool then snd r else DEFAULT_PRECEDENCE)) l)) g /\
      forall p z, P p -> first_rule 0%Z (map (fun r => (snd (fst r) p, snd r)) l) z -> g p = z.
  Proof.
    intro HF. induction HF as [|[[m Q] z] l [(gm & M1 & M2) Hz] HF (g & G1 & G2)].
    - exists (fun _ => 0%Z). split; [intros p h; now exists h|]. intros p z _ H. now inversion H.
    - cbn [map fst snd] in *. exists (fun p => if gm p then z else g p). split.
      + intros p h. destruct (M1 p h) as (h' & E). cbn [sort_precedence_loop]. unfold bind at 1 2. rewrite E. unfold ret at 1. destruct (gm p).
        * change DEFAULT_PRECEDENCE with 0%Z. destruct (Z.eqb_spec z 0); [contradiction|]. now exists h'.
        * apply G1.
      + intros p r Hp H. specialize (M2 p Hp). inversion H as [|? ? ? HQ|? ? ? ? HQ Hr]; subst.
        * apply M2 in HQ. now rewrite HQ.
        * destruct (gm p); [destruct HQ; now apply M2|]. now apply G2.
  Qed.
End Rules.

(** ** Globs *)
Lemma tells_decides w (P : path -> Prop) c Q : pure w c -> (forall p, P p -> tells w c p (Q p)) -> decides w P c Q.
Proof.
  intros (g & Hg) H. exists g. split; [intros p h; exists h; apply Hg|]. intros p Hp. destruct (H p Hp) as (b & E & Hb). specialize (E []). rewrite Hg in E.
  assert (g p = b) as -> by congruence. exact Hb.
Qed.

Lemma relative_pure w ref g h c h1 : pm_relative_path_glob ref g w h = (Ok c, h1) -> pure w c.
Proof.
  unfold pm_relative_path_glob, glob_matcher, pm_relative_path, clean_path, bind, get_jvm, ret. destruct (jeqb g s_star).
  - intro E. injection E as <- _. now exists (fun _ => true).
  - destruct (jv_glob (w_jvm w) g) as [f|]; [|discriminate]. intro E. injection E as <- _. eexists (fun p => f _). intros p h'. reflexivity.
Qed.
Lemma absolute_pure w g h c h1 : pm_absolute_path_glob g w h = (Ok c, h1) -> pure w c.
Proof.
  unfold pm_absolute_path_glob, glob_matcher, pm_absolute_path, clean_path, bind, get_jvm, ret. destruct (jeqb g s_star).
  - intro E. injection E as <- _. now exists (fun _ => true).
  - destruct (jv_glob (w_jvm w) g) as [f|]; [|discriminate]. intro E. injection E as <- _. eexists (fun p => f _). intros p h'. reflexivity.
Qed.
Lemma name_pure w g h c h1 : pm_name_glob g w h = (Ok c, h1) -> pure w c.
Proof.
  unfold pm_name_glob, glob_matcher, bind, get_jvm, ret. destruct (jeqb g s_star).
  - intro E. injection E as <- _. now exists (fun _ => true).
  - destruct (jv_glob (w_jvm w) g) as [f|]; [|discriminate]. intro E. injection E as <- _.
    exists (fun p => match get_file_name p with None => false | Some n => f n end). intros p h'. now destruct (get_file_name p).
Qed.

Section Globs.
  Context (w : world) (dk : disk) (T : list jstring) (ref : path).
  Hypothesis U : usual w dk.
  Hypothesis HT : Forall real_name T.
  Hypothesis Href : at_names w ref T.
  Hypothesis Hne : T <> [].

  Lemma below_at p : below_T T p -> at_names w p (p_names p) /\ p = mkPath true (p_names p) /\ Forall real_name (p_names p).
  Proof.
    intros (rest & Hr & ->). cbn [p_names]. assert (Forall real_name (T ++ rest)) as H by (apply Forall_app; now split). split; [|now split].
    split; [exact H|]. apply same_refl.
  Qed.

  Lemma relative_names h rest g : rest <> [] -> Forall real_name rest -> literal g (slashed rest) ->
    exists c, pm_relative_path_glob ref g w h = (Ok c, h) /\ decides w (below_T T) c (fun p => p_names p = T ++ rest).
  Proof.
    intros Hrest Hr Hg. destruct (relative_literal w h ref T rest g (us_globs _ _ U) Href Hrest Hr Hg) as (c & E & H). exists c. split; [exact E|].
    apply tells_decides; [eapply relative_pure, E|]. intros p Hp. apply H. now apply below_at.
  Qed.

  Lemma extension_glob h s : verbatim s -> paired s -> exists c, pm_name_glob (js "*." ++ s) w h = (Ok c, h) /\ decides w (below_T T) c (named (fun n => ending n (c_dot :: s))).
  Proof.
    intros Hs Hpd. destruct (name_shapes w h s (us_globs _ _ U) Hs Hpd) as (c1 & c2 & c3 & c & _ & _ & _ & E & H). exists c. split; [exact E|].
    destruct (name_pure _ _ _ _ _ E) as (f & Hf). exists f. split; [intros p h'; exists h'; apply Hf|]. intros p Hp.
    destruct (decides_ending w (c_dot :: s)) as (g & G1 & G2). rewrite <- (G2 p I). destruct (below_at p Hp) as (_ & Ep & Hr).
    destruct (get_file_name p) as [q|] eqn:Eq.
    - pose proof (ends_inv p q Eq) as Hn. assert (~ In c_slash (path_str q)) as Hs'.
      { exact (ends_real _ _ Hr Hn). }
      destruct (H p _ [] Hn Hs') as (_ & _ & _ & E4). rewrite Hf in E4. destruct (G1 p []) as (h' & Eg). unfold pm_extension in E4. rewrite Eg in E4.
      assert (f p = g p) as -> by congruence. tauto.
    - exfalso. rewrite Ep in Eq. unfold get_file_name in Eq. cbn [p_names p_abs] in Eq. destruct (rev (p_names p)) eqn:El; [|discriminate].
      apply (f_equal (@rev _)) in El. rewrite rev_involutive in El. destruct Hp as (rest & _ & ->). cbn in El. apply app_eq_nil in El. now destruct El.
  Qed.
End Globs.

(** ** The programs *)

Lemma definite_plain T a : wi_limit a = all_children -> wi_extension a = nothing_added -> definite T a.
Proof. intros E1 E2 rest _. rewrite E1, E2. split; now exists None. Qed.

(** A function that always answers the same. *)
Lemma decides_all w P : decides w P (fun _ => ret true) everything.
Proof. exists (fun _ => true). split; [intros p h; now exists h|]. now split. Qed.

Definition names_order : ordering := alphabetical.

(** Options put together. *)
Lemma fulfilled w dk T a o :
  usual w dk -> Forall real_name T ->
  o_tree_format o = wi_format a -> o_max_depth o = wi_depth a -> o_compact o = wi_compact a ->
  decides w (below_T T) (o_dir_matcher o) (wi_dirs a) -> decides w (below_T T) (o_file_matcher o) (wi_files a) ->
  (exists g, answers w (o_child_limit o) g /\ forall p l, below_T T p -> wi_limit a p l -> same_limit (g p) l) ->
  (exists c, configured_order c /\ (forall p, answers w (o_comparator o p) (c p)) /\ forall p q, (c p q < 0)%Z <-> wi_before a p q) ->
  (exists g, extension_is w o g /\ forall p x, below_T T p -> wi_extension a p x -> g p = x) ->
  (if wi_emojis a then emoji_create_default (jv_lower (w_jvm w)) = Ok (o_emoji o) else o_emoji o = o_emoji default_options) ->
  fulfils w dk T a o.
Proof.
  intros U HT Hf Hm Hc (gd & D1 & D2) (gf & F1 & F2) (gl & L1 & L2) (c & C1 & C2 & C3) (gx & X1 & X2) He. split; [exact Hf|].
  assert (exists gm, answers w (o_emoji o) gm /\ (forall p, wi_emojis a = false -> gm p = None) /\
    (forall p, wi_emojis a = true -> is_dir dk p -> gm p = Some DEFAULT_DIR_EMOJI) /\
    (forall p, wi_emojis a = true -> ~ is_dir dk p ->
      exists e, gm p = Some e /\ own_emoji (jv_lower (w_jvm w)) default_names default_exts DEFAULT_FILE_EMOJI p e)) as (gm & M1 & M2 & M3 & M4).
  { pose proof (us_steady _ _ U) as Hw. destruct (wi_emojis a).
    - destruct (C73_lemma w (us_lower _ _ U)) as (f & Ef & Hf'). assert (o_emoji o = f) as -> by congruence. clear He.
      unfold emoji_create_default in Ef. destruct (emoji_build _ _) as [be|]; [|discriminate].
      destruct (no_matchers_emoji w be emoji_builder_default dk Hw eq_refl eq_refl) as (g & Hg). assert (f = built_emoji_apply be emoji_builder_default) as -> by congruence.
      clear Ef. destruct Hw as (L & _).
      exists g. split; [exact Hg|]. split; [discriminate|]. split; intros p _ Hp; destruct (Hf' p []) as (e & E' & He1 & He2); destruct (Hg p []) as (h1 & Eg); rewrite E' in Eg;
        injection Eg as Eg _; rewrite L in *; [rewrite <- Eg; f_equal; now apply He1|]. exists e. split; [now symmetry|]. now apply He2.
    - exists (fun _ => None). rewrite He. split; [intros p h1; now exists h1|]. split; [reflexivity|]. split; discriminate. }
  exists (mkSettings gd gf gl c (o_max_depth o)), (mkView gx gm (o_compact o)). split; [|split].
  - now repeat (split; [assumption|]).
  - split; [exact X1|]. split; [exact M1|reflexivity].
  - assert (B : forall rest, Forall real_name rest -> below_T T (mkPath true (T ++ rest))) by (intros rest Hr; now exists rest).
    constructor; cbn [s_depth s_cmp s_dirs s_files s_limit v_compact v_emoji v_ext]; try assumption; auto.
Qed.

Lemma names_ordered w : exists c, configured_order c /\ (forall p, answers w (ALPHABETICAL p) (c p)) /\ forall p q, (c p q < 0)%Z <-> by_names p q.
Proof.
  exists alphabetical. split; [|split].
  - apply named_order; [apply contract_alphabetical|apply TreeFacts.alphabetical_lt].
  - intro p. apply answers_alphabetical.
  - apply TreeFacts.alphabetical_lt.
Qed.

Lemma no_limit w T : exists g, answers w (fun _ => ret (-1)%Z) g /\ forall p l, below_T T p -> all_children p l -> same_limit (g p) l.
Proof. exists (fun _ => (-1)%Z). split; [intros p h; now exists h|]. intros p l _ ->. now split. Qed.

Lemma no_extension_added w T o : o_line_extension o = None -> exists g, extension_is w o g /\ forall p x, below_T T p -> nothing_added p x -> g p = x.
Proof. intro E. exists (fun _ => None). unfold extension_is. rewrite E. split; [reflexivity|]. now intros p x _ ->. Qed.

Lemma location_below w l : Forall real_name (jv_cwd (w_jvm w)) -> Forall real_name l -> location w (mkPath false l) = mkPath true (jv_cwd (w_jvm w) ++ l).
Proof.
  intros H1 H2. unfold location, to_absolute, normalize. cbn [p_abs p_names]. f_equal. apply norm_names_plain. apply Forall_app.
  split; (eapply Forall_impl; [|eassumption]); intros n (_ & H & K); now split.
Qed.

Ltac real_names := repeat (apply Forall_cons || apply Forall_nil); try (split; [split; [discriminate|let K := fresh in intro K; repeat (destruct K as [K|K]; [discriminate|]); exact K]|split; discriminate]).

Lemma resource_real w dk n : usual w dk -> real_name n -> Forall real_name (resource w n).
Proof.
  intros U H. unfold resource. apply Forall_app. split; [exact (us_cwd _ _ U)|]. apply Forall_app. split; [real_names|]. now constructor.
Qed.
Lemma resource_nonempty w n : resource w n <> [].
Proof. unfold resource. destruct (jv_cwd (w_jvm w)); discriminate. Qed.

(** A program that prints a resource directory with options made beforehand. *)
Lemma prints_options m w dk T a o p :
  usual w dk -> Forall real_name T -> T <> [] -> location w p = mkPath true T -> definite T a -> fulfils w dk T a o ->
  (forall h, m w h = pretty_print o p w h) -> prints_wish m w dk T a.
Proof.
  intros U HT Hne Hp D F E. split.
  - intros h out. rewrite E. now apply wish_text.
  - intro Ha. eapply wish_shown; eassumption.
Qed.

Lemma prints_at m w dk a name o :
  usual w dk -> real_name name ->
  (existsb (N.eqb 0) (js "src/main/resources/" ++ name), path_of (js "src/main/resources/" ++ name)) =
  (false, mkPath false [js "src"; js "main"; js "resources"; name]) ->
  definite (resource w name) a -> fulfils w dk (resource w name) a o ->
  (forall h, m w h = prints_resource name o w h) -> prints_wish m w dk (resource w name) a.
Proof.
  intros U Hn Hnp D F E. pose proof (f_equal fst Hnp) as H0. pose proof (f_equal snd Hnp) as Hp. cbn [fst snd] in H0, Hp. clear Hnp.
  eapply prints_options with (o := o) (p := mkPath false [js "src"; js "main"; js "resources"; name]); try eassumption.
  - eapply resource_real; eassumption.
  - apply resource_nonempty.
  - rewrite location_below; [reflexivity|exact (us_cwd _ _ U)|]. apply (Forall_app real_name [js "src"; js "main"; js "resources"] [name]). split; [real_names|now constructor].
  - intro h. rewrite E. unfold prints_resource. rewrite C22_string, Hp; [reflexivity|].
    intros I. assert (T : existsb (N.eqb 0) (js "src/main/resources/" ++ name) = true) by (apply existsb_exists; exists 0%N; split; [exact I|reflexivity]).
    congruence.
Qed.

Ltac easy_parts U :=
  try reflexivity; try (exact (decides_all _ _)); try (apply no_limit); try (apply names_ordered); try (now apply no_extension_added);
  try (eapply resource_real; [exact U|real_names]).

Theorem basic_usage_prints w dk : usual w dk -> prints_wish basic_usage_run w dk (resource w (js "base")) basic_wish.
Proof.
  intro U. eapply prints_at with (o := default_options); [exact U|real_names|reflexivity|now apply definite_plain| |reflexivity].
  apply fulfilled; [exact U|..]; easy_parts U.
Qed.

Theorem tree_format_prints w dk : usual w dk -> prints_wish tree_format_run w dk (resource w (js "tree_format")) format_wish.
Proof.
  intro U. eapply prints_at; [exact U|real_names|reflexivity|now apply definite_plain| |intro h; reflexivity].
  apply fulfilled; [exact U|..]; easy_parts U.
Qed.

Theorem max_depth_prints w dk : usual w dk -> prints_wish max_depth_run w dk (resource w (js "max_depth")) depth_wish.
Proof.
  intro U. eapply prints_at; [exact U|real_names|reflexivity|now apply definite_plain| |intro h; reflexivity].
  apply fulfilled; [exact U|..]; easy_parts U.
Qed.

Theorem compact_directories_prints w dk : usual w dk -> prints_wish compact_directories_run w dk (resource w (js "single_directory_child")) compact_wish.
Proof.
  intro U. eapply prints_at; [exact U|real_names|reflexivity|now apply definite_plain| |intro h; reflexivity].
  apply fulfilled; [exact U|..]; easy_parts U.
Qed.

Theorem child_limit_static_prints w dk : usual w dk -> prints_wish child_limit_static_run w dk (resource w (js "child_limit_static")) three_wish.
Proof.
  intro U. eapply prints_at; [exact U|real_names|reflexivity| | |intro h; reflexivity].
  - intros rest _. split; [now exists (Some 3%Z)|now exists None].
  - apply fulfilled; [exact U|..]; easy_parts U.
    exists (fun _ => 3%Z). split; [intros p h; now exists h|]. intros p l _ ->. split; [reflexivity|lia].
Qed.

Theorem emojis_prints w dk : usual w dk -> prints_wish emojis_run w dk (resource w (js "emojis")) emojis_wish.
Proof.
  intro U. destruct (C73_lemma w (us_lower _ _ U)) as (f & Ef & _).
  eapply prints_at with (o := with_emojis f default_options); [exact U|real_names|reflexivity|now apply definite_plain| |].
  - apply fulfilled; [exact U|..]; easy_parts U. exact Ef.
  - intro h. unfold emojis_run, customized, bind, get_jvm. cbn [set_all set_option]. rewrite Ef. reflexivity.
Qed.

Theorem filtering_prints w dk : usual w dk -> prints_wish filtering_run w dk (resource w (js "filtering")) java_wish.
Proof.
  intro U. eapply prints_at; [exact U|real_names|reflexivity|now apply definite_plain| |intro h; reflexivity].
  apply fulfilled; [exact U|..]; easy_parts U.
  - apply decides_not. eapply decides_weaken; [..|apply decides_ending]; [exact (fun _ _ => I)|reflexivity].
  - eapply decides_weaken; [..|apply decides_ending]; [exact (fun _ _ => I)|reflexivity].
Qed.

Theorem child_limit_dynamic_prints w dk : usual w dk -> prints_wish child_limit_dynamic_run w dk (resource w (js "child_limit_dynamic")) modules_wish.
Proof.
  intro U. set (rules := [(pm_name (js "node_modules"), named (eq (js "node_modules")), 0%Z)]).
  assert (Hd : Forall (fun r => decides w (below_T (resource w (js "child_limit_dynamic"))) (fst (fst r)) (snd (fst r)) /\ (0 <= snd r)%Z) rules).
  { constructor; [|constructor]. split; [|cbn; lia]. eapply decides_weaken; [..|apply decides_eq]; [exact (fun _ _ => I)|reflexivity]. }
  eapply prints_at; [exact U|real_names|reflexivity| | |intro h; reflexivity].
  - intros rest Hr. split; [|now exists None].
    destruct (rules_total w (below_T (resource w (js "child_limit_dynamic"))) None [(pm_name (js "node_modules"), named (eq (js "node_modules")), Some 0%Z)]
      (mkPath true (resource w (js "child_limit_dynamic") ++ rest))) as (l & Hl).
    + now exists rest.
    + constructor; [|constructor]. inversion Hd; tauto.
    + exists l. exact Hl.
  - apply fulfilled; [exact U|..]; easy_parts U. destruct (limit_rules w _ rules Hd (-1)%Z eq_refl) as (g & G1 & G2). exists g. split; [exact G1|].
    intros p l Hp Hl. apply G2; assumption.
Qed.

Theorem sorting_prints w dk : usual w dk -> prints_wish sorting_run w dk (resource w (js "sorting")) (sorting_wish dk).
Proof.
  intro U. eapply prints_at; [exact U|real_names|reflexivity|now apply definite_plain| |intro h; reflexivity].
  apply fulfilled; [exact U|..]; easy_parts U. pose proof (us_steady _ _ U) as Hw.
  exists (then_by (dirs_first (is_dirb dk)) alphabetical). split; [|split].
  - eapply refined_configured; [apply contract_dirs_first|reflexivity].
  - intro p. apply answers_then; [now apply directory_first_answers|exact (answers_alphabetical w)].
  - intros p q. rewrite refined_lt. unfold refined, dirs_first. cbn [wi_before sorting_wish]. unfold by_names, is_dir, is_dirb.
    destruct (d_kind dk p) as [[]|], (d_kind dk q) as [[]|]; cbn; intuition (discriminate || lia).
Qed.

(** Likewise, the options being made by the program. *)
Lemma prints_made m w dk T a p :
  usual w dk -> Forall real_name T -> T <> [] -> location w p = mkPath true T -> definite T a ->
  (forall h, exists o, fulfils w dk T a o /\ m w h = pretty_print o p w h) -> prints_wish m w dk T a.
Proof.
  intros U HT Hne Hp D F. split.
  - intros h out. destruct (F h) as (o & Fo & ->). now apply wish_text.
  - intro Ha. destruct (F []) as (o & Fo & _). eapply wish_shown; eassumption.
Qed.

Lemma at_below w dk l : usual w dk -> Forall real_name l -> at_names w (mkPath false l) (jv_cwd (w_jvm w) ++ l).
Proof. intros U Hl. split; [apply Forall_app; split; [exact (us_cwd _ _ U)|exact Hl]|apply same_cwd]. Qed.

Lemma bind_ok {A B} (m : M A) (f : A -> M B) w h a h1 : m w h = (Ok a, h1) -> bind m f w h = f a w h1.
Proof. intro E. unfold bind. now rewrite E. Qed.

Ltac plain_literal := apply verbatim_literal; repeat (apply Forall_cons || apply Forall_nil); cbn; intuition discriminate.

Lemma some_not_none {A} (x : A) : Some x <> None.
Proof. discriminate. Qed.

Theorem line_extension_prints w dk : usual w dk -> prints_wish line_extension_run w dk (resource w (js "line_extension")) (comments_wish (resource w (js "line_extension"))).
Proof.
  intro U. set (T := resource w (js "line_extension")). set (p0 := path_of (js "src/main/resources/line_extension")).
  assert (HT : Forall real_name T) by (eapply resource_real; [exact U|real_names]). assert (Hne : T <> []) by apply resource_nonempty.
  assert (Hp0 : p0 = mkPath false [js "src"; js "main"; js "resources"; js "line_extension"]) by reflexivity.
  assert (Hat : at_names w p0 T) by (rewrite Hp0; eapply at_below; [exact U|real_names]).
  assert (Hloc : location w p0 = mkPath true T) by (rewrite Hp0, location_below; [reflexivity|exact (us_cwd _ _ U)|real_names]).
  assert (Hm : forall h, exists api domain infra api2 properties,
    (forall X (k : matcher -> matcher -> matcher -> matcher -> matcher -> M X),
      (a <- pm_relative_path_glob p0 (js "src/main/java/api"); b <- pm_relative_path_glob p0 (js "src/main/java/domain");
       c <- pm_relative_path_glob p0 (js "src/main/java/infra"); d <- pm_relative_path_glob p0 (js "src/main/java/api");
       e <- pm_name_glob (js "*.properties"); k a b c d e) w h = k api domain infra api2 properties w h) /\
    decides w (below_T T) api (fun p => p_names p = T ++ [js "src"; js "main"; js "java"; js "api"]) /\
    decides w (below_T T) domain (fun p => p_names p = T ++ [js "src"; js "main"; js "java"; js "domain"]) /\
    decides w (below_T T) infra (fun p => p_names p = T ++ [js "src"; js "main"; js "java"; js "infra"]) /\
    decides w (below_T T) api2 (fun p => p_names p = T ++ [js "src"; js "main"; js "java"; js "api"]) /\
    decides w (below_T T) properties (named (fun n => ending n (js ".properties")))).
  { intro h.
    destruct (relative_names w dk T p0 U HT Hat h [js "src"; js "main"; js "java"; js "api"] (js "src/main/java/api") ltac:(discriminate) ltac:(real_names) ltac:(plain_literal)) as (api & E1 & D1).
    destruct (relative_names w dk T p0 U HT Hat h [js "src"; js "main"; js "java"; js "domain"] (js "src/main/java/domain") ltac:(discriminate) ltac:(real_names) ltac:(plain_literal)) as (domain & E2 & D2).
    destruct (relative_names w dk T p0 U HT Hat h [js "src"; js "main"; js "java"; js "infra"] (js "src/main/java/infra") ltac:(discriminate) ltac:(real_names) ltac:(plain_literal)) as (infra & E3 & D3).
    destruct (extension_glob w dk T U HT Hne h (js "properties")) as (props & E4 & D4).
    { repeat (apply Forall_cons || apply Forall_nil); cbn; intuition discriminate. }
    { apply pairedb_ok. reflexivity. }
    exists api, domain, infra, api, props. split; [|now repeat (split; [assumption|])].
    intros X k. rewrite (bind_ok _ _ _ _ _ _ E1), (bind_ok _ _ _ _ _ _ E2), (bind_ok _ _ _ _ _ _ E3), (bind_ok _ _ _ _ _ _ E1).
    now rewrite (bind_ok _ _ _ _ _ _ E4). }
  apply (prints_made _ w dk T _ p0 U HT Hne Hloc).
  - intros rest Hr. split; [now exists None|]. destruct (Hm []) as (api & domain & infra & api2 & props & _ & D1 & D2 & D3 & D4 & D5).
    apply (rules_total w (below_T T) None [
      (api, (fun p => p_names p = T ++ [js "src"; js "main"; js "java"; js "api"]), tabbed 3 (js "// All API code: controllers, etc."));
      (domain, (fun p => p_names p = T ++ [js "src"; js "main"; js "java"; js "domain"]), tabbed 3 (js "// All domain code: value objects, etc."));
      (infra, (fun p => p_names p = T ++ [js "src"; js "main"; js "java"; js "infra"]), tabbed 3 (js "// All infra code: database, email service, etc."));
      (props, named (fun n => ending n (js ".properties")), tabbed 1 (js "// Config file"))] (mkPath true (T ++ rest))).
    + exists rest. split; [exact Hr|reflexivity].
    + repeat (apply Forall_cons; [assumption|]). constructor.
  - intro h. destruct (Hm h) as (api & domain & infra & api2 & props & Hk & D1 & D2 & D3 & D4 & D5).
    set (rules := [
      (api, (fun p => p_names p = T ++ [js "src"; js "main"; js "java"; js "api"]), tabbed 3 (js "// All API code: controllers, etc."));
      (domain, (fun p => p_names p = T ++ [js "src"; js "main"; js "java"; js "domain"]), tabbed 3 (js "// All domain code: value objects, etc."));
      (infra, (fun p => p_names p = T ++ [js "src"; js "main"; js "java"; js "infra"]), tabbed 3 (js "// All infra code: database, email service, etc."));
      (api2, (fun p => p_names p = T ++ [js "src"; js "main"; js "java"; js "api"]), tabbed 3 (js "// All API code: controllers, etc."));
      (props, named (fun n => ending n (js ".properties")), tabbed 1 (js "// Config file"))] : list (matcher * (path -> Prop) * option jstring)).
    destruct (extension_rules w (below_T T) rules) as (g & G1 & G2).
    { repeat (apply Forall_cons; [split; [assumption|apply some_not_none]|]). constructor. }
    eexists. split; [|unfold line_extension_run; rewrite Hk; reflexivity].
    apply fulfilled; [exact U|exact HT|..]; easy_parts U.
    exists g. split; [exact G1|]. intros p x Hp Hx. apply G2; [exact Hp|]. clear -Hx. unfold rules. cbn [map fst snd] in *. cbn [wi_extension comments_wish] in Hx.
    inversion_clear Hx as [|? ? ? H|? ? ? ? N1 Hx1]; [now apply fr_here|]. apply fr_later; [exact N1|].
    inversion_clear Hx1 as [|? ? ? H|? ? ? ? N2 Hx2]; [now apply fr_here|]. apply fr_later; [exact N2|].
    inversion_clear Hx2 as [|? ? ? H|? ? ? ? N3 Hx3]; [now apply fr_here|]. apply fr_later; [exact N3|]. now apply fr_later.
Qed.
