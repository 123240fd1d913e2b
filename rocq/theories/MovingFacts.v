(** * Proofs about volumes that change during a run *)

From Verif Require Import SpecVolume SpecSeen PathFacts ScanFacts TraceFacts RunFacts SortFacts AccessFacts SeenFacts VolumeFacts VolumePrintFacts.
Close Scope Z_scope.

(** ** A run is told what the world answers at that moment, whatever its outcome *)
Section Honest.
  Context (w : world) (o : options).
  Hypothesis Hh : honest_callbacks w o.

  Definition hon {A} (m : M A) : Prop := forall h, exists r t, m w h = (r, rev t ++ h) /\ truthful_from w h t.

  Lemma hon_ret A (a : A) : hon (ret a).
  Proof. intro h. exists (Ok a), []. split; [reflexivity|apply SeenFacts.truthful_nil]. Qed.

  Lemma hon_throw A x : hon (@throw A x).
  Proof. intro h. exists (Throw x), []. split; [reflexivity|apply SeenFacts.truthful_nil]. Qed.

  Lemma hon_bind A B (m : M A) (f : A -> M B) : hon m -> (forall a, hon (f a)) -> hon (bind m f).
  Proof.
    intros Hm Hf h. destruct (Hm h) as (r & t & Er & Ht). unfold bind. rewrite Er. destruct r as [a|x]; [|exists (Throw x), t; auto].
    destruct (Hf a (rev t ++ h)) as (r' & t' & Er' & Ht'). exists r', (t ++ t'). rewrite Er', rev_app_distr, <- app_assoc.
    split; [reflexivity|now apply SeenFacts.truthful_app].
  Qed.

  Lemma hon_filterM A (f : A -> M bool) l : (forall a, hon (f a)) -> hon (filterM f l).
  Proof.
    intro Hf. induction l as [|a l IH]; cbn [filterM]; [apply hon_ret|].
    apply hon_bind; [apply Hf|]. intro b. apply hon_bind; [exact IH|]. intro. apply hon_ret.
  Qed.

  Lemma hon_has_kind k p : hon (has_kind k p).
  Proof.
    apply hon_bind; [|intro; apply hon_ret]. intro h. exists (Ok (w_lstat w h p)), [EvLstat p (w_lstat w h p)].
    split; [reflexivity|]. now apply truthful_one.
  Qed.

  Lemma hon_stat p : hon (stat p).
  Proof. intro h. exists (Ok (w_stat w h p)), [EvStat p (w_stat w h p)]. split; [reflexivity|]. now apply truthful_one. Qed.

  Lemma hon_filter p : hon (path_filter o p).
  Proof. destruct Hh as (H1 & H2 & _). apply hon_bind; [apply hon_has_kind|]. intros [|] h; [apply H1|apply H2]. Qed.

  Lemma hon_sorted l : hon (sorted (o_comparator o) l).
  Proof.
    destruct Hh as (_ & _ & _ & _ & _ & H6). unfold sorted. generalize (tim_sort l). intro s.
    induction s as [l'| | |a b k IH]; cbn [run_sorting]; [apply hon_ret|apply hon_throw..|]. apply hon_bind; [intro h; apply H6|exact IH].
  Qed.

  Lemma hon_open p : hon (open_dir p).
  Proof.
    intro h. unfold open_dir. destruct (w_open w h p) as [dl|] eqn:E.
    - exists (Ok (Some dl)), [EvOpen p]. split; [reflexivity|]. apply truthful_one. congruence.
    - exists (Ok None), [EvOpenFail p]. split; [reflexivity|]. now apply truthful_one.
  Qed.

  Lemma hon_with_close A p e (m : M A) : hon m -> hon (with_close p e m).
  Proof.
    intros Hm h. unfold with_close. destruct (Hm h) as (r & t & Er & Ht). rewrite Er.
    assert (E : forall r' : res A, exists r'' t', (r', EvClose p (w_close_ok w (rev t ++ h) p) :: rev t ++ h) = (r'', rev t' ++ h) /\ truthful_from w h t').
    { intro r'. exists r', (t ++ [EvClose p (w_close_ok w (rev t ++ h) p)]). rewrite rev_app_distr. split; [reflexivity|].
      apply SeenFacts.truthful_app; [exact Ht|]. now apply truthful_one. }
    destruct r as [a|x]; cbn [close_dir]; unfold close_dir.
    - destruct (w_close_ok w (rev t ++ h) p) eqn:Eo; [exact (E (Ok a))|exact (E (Throw e))].
    - exact (E (Throw x)).
  Qed.

  Lemma hon_children_loop hc hl mc : (forall p, hon (hc p)) -> forall it count acc, hon (children_loop hc hl mc count acc it).
  Proof.
    intros Hc it. induction it as [|c it IH]; intros count acc; [apply hon_ret|].
    cbn [children_loop]. destruct (hl && (mc <? count + 1)%Z); [apply hon_ret|].
    apply hon_bind; [apply Hc|]. intros [e|]; apply IH.
  Qed.

  Lemma hon_iter_fail p : hon (iter_fail p).
  Proof. intro h. exists (Ok tt), [EvIterFail p]. split; [reflexivity|]. now apply truthful_one. Qed.

  Lemma hon_handle fuel : forall depth p, hon (handle fuel o depth p (path_filter o)).
  Proof.
    assert (Hf : forall p, hon (handle_file p)).
    { intro p. apply hon_bind; [apply hon_stat|]. intros [k|]; [apply hon_ret|apply hon_throw]. }
    assert (Hm : forall depth p, hon (e <- new_max_depth_entry depth; ret (Some (EDir p [e])))).
    { intros depth p. apply hon_bind; [|intro; apply hon_ret]. unfold new_max_depth_entry. destruct (depth <? 0)%Z; [apply hon_throw|apply hon_ret]. }
    destruct Hh as (_ & _ & H3 & _).
    induction fuel as [|fuel IH]; intros depth p; cbn [handle].
    - apply hon_bind; [apply hon_has_kind|]. intros [|]; [|apply Hf]. destruct (o_max_depth o <=? depth)%Z; [apply Hm|apply hon_throw].
    - apply hon_bind; [apply hon_has_kind|]. intros [|]; [|apply Hf]. destruct (o_max_depth o <=? depth)%Z; [apply Hm|].
      apply hon_bind; [apply hon_open|]. intros [dl|]; [|apply hon_throw]. apply hon_bind; [|intro; apply hon_ret]. apply hon_with_close.
      unfold handle_directory_children. apply hon_bind; [intro; apply H3|]. intro mc. apply hon_bind.
      + apply hon_bind; [apply hon_filterM; apply hon_filter|]. intro l. destruct (dl_fail dl); [|apply hon_ret].
        apply hon_bind; [apply hon_iter_fail|]. intro. apply hon_throw.
      + intro l. apply hon_bind; [apply hon_sorted|]. intro it. apply hon_bind; [apply hon_children_loop; apply IH|]. intros [es rest]. apply hon_ret.
  Qed.

  Lemma print_honest p : hon (pretty_print o p).
  Proof.
    apply hon_bind; [intro h; exists (Ok (w_jvm w)), []; split; [reflexivity|apply SeenFacts.truthful_nil]|]. intro jv.
    apply hon_bind; [|intro e; exact (render_honest w o Hh e)].
    apply hon_bind; [|intro q; apply hon_bind; [apply hon_handle|intros [e|]; [apply hon_ret|apply hon_throw]]].
    apply hon_bind; [intro h; exists (Ok (w_jvm w)), []; split; [reflexivity|apply SeenFacts.truthful_nil]|]. intro. apply hon_ret.
  Qed.
End Honest.

(** ** What is looked into was delivered by a directory opened before *)
Definition delivered (w : world) (p q : path) : Prop := exists n h dl, q = child p n /\ w_open w h p = Some dl /\ In n (dl_names dl).

Definition led_to (w : world) (root : path) (pre : trace) (ev : event) : Prop :=
  forall q, looks_into ev q -> q = root \/ exists p, delivered w p q /\ In (EvOpen p) pre.

Lemma led_other w root pre ev : (forall q, ~ looks_into ev q) -> led_to w root pre ev.
Proof. intros H q Hq. destruct (H q Hq). Qed.

Lemma led_modest w root pre t : modest w t -> always (led_to w root) pre t.
Proof. intro H. apply always_in. intros ev Hin t1. apply led_other. intro q. now apply (modest_looks w t). Qed.

Lemma kids_led w p (Q : path -> res (option entry) -> trace -> Prop) hl mc n it r t :
  (forall c r t, Q c r t -> always (led_to w c) [] t) -> kids_run Q hl mc n it r t ->
  forall pre, In (EvOpen p) pre -> (forall c, In c it -> delivered w p c) -> always (led_to w p) pre t.
Proof.
  intros HQ H.
  assert (Hone : forall c r t pre, Q c r t -> In (EvOpen p) pre -> delivered w p c -> always (led_to w p) pre t).
  { intros c r0 t0 pre H0 H1 H2. eapply always_weaken; [|exact (HQ _ _ _ H0)].
    intros t1 ev Hp q Hq. right. destruct (Hp q Hq) as [->|(p' & G1 & G2)]; [exists p|exists p']; split; auto; apply in_or_app; [now left|now right]. }
  induction H as [n|n c it|n c it x t Hg H|n c it e t es rest t' Hg H Hk IH|n c it e t x t' Hg H Hk IH]; intros pre Hpre Hit; try apply always_nil.
  - eapply Hone; eauto. apply Hit. now left.
  - apply always_app; [eapply Hone; eauto; apply Hit; now left|]. apply IH; [apply in_or_app; now left|]. intros c' Hc'. apply Hit. now right.
  - apply always_app; [eapply Hone; eauto; apply Hit; now left|]. apply IH; [apply in_or_app; now left|]. intros c' Hc'. apply Hit. now right.
Qed.

Lemma scan_led w o (E : exn -> Prop) : callbacks w o (modest w) E ->
  obeys w (fun q => handle (Z.to_nat (o_max_depth o)) o 0 q (path_filter o)) (fun p r t => always (led_to w p) [] t).
Proof.
  intro Hc. destruct (callbacks_obey _ _ _ _ Hc) as (H1 & H2 & H3 & H6).
  assert (Kf : forall l r t, filter_run w (cb (modest w) E) (cb (modest w) E) l r t -> modest w t).
  { intros. eapply (filter_run_K w (modest w) (modest w)); eauto using modest_app, modest_nil. intros h p. repeat constructor. exists h. reflexivity. }
  assert (Ko : forall l r t, order_run w o (fun _ => cb (modest w) E) l r t -> modest w t).
  { intros. eapply (order_run_K w o (modest w) (modest w)); eauto using modest_app, modest_nil. }
  apply (handle_runs w o _ _ _ (fun _ => cb _ _) H1 H2 H3 H6 (fun d p r t => always (led_to w p) [] t)); try lia.
  - intros d p h a k _ _ _. apply always_cons; [apply led_other; intros q [E0|[E0|[y E0]]]; discriminate|].
    apply always_cons; [|apply always_nil]. intros q [E0|[E0|[y E0]]]; try discriminate. injection E0 as <- _. now left.
  - intros d p h a _ _ _. apply always_cons; [apply led_other; intros q [E0|[E0|[y E0]]]; discriminate|].
    apply always_cons; [|apply always_nil]. intros q [E0|[E0|[y E0]]]; try discriminate. injection E0 as <- _. now left.
  - intros d p h _ _ _. apply always_cons; [apply led_other; intros q [E0|[E0|[y E0]]]; discriminate|]. apply always_nil.
  - intros d p h _ _ _ _. apply always_cons; [apply led_other; intros q [E0|[E0|[y E0]]]; discriminate|].
    apply always_cons; [|apply always_nil]. intros q [E0|[E0|[y E0]]]; try discriminate. injection E0 as <-. now left.
  - intros d p h dl rb t ok _ _ _ Hop Hb _.
    apply always_cons; [apply led_other; intros q [E0|[E0|[y E0]]]; discriminate|].
    apply always_cons; [intros q [E0|[E0|[y E0]]]; try discriminate; injection E0 as <-; now left|].
    set (pre := ([] ++ [EvLstat p (Some KDir)]) ++ [EvOpen p]). assert (Hpre : In (EvOpen p) pre) by (cbn; auto).
    clearbody pre. apply always_app; [|apply always_cons; [apply led_other; intros q [E0|[E0|[y E0]]]; discriminate|apply always_nil]].
    assert (Hkids : forall l u t' order r mc t'' ,
       filter_run w (cb (modest w) E) (cb (modest w) E) (map (child p) (dl_names dl)) (Ok l) t' ->
       Permutation l order -> kids_run (fun p r t => always (led_to w p) [] t) (0 <=? mc)%Z mc 0%Z order r t'' ->
       always (led_to w p) (pre ++ u) t'').
    { intros l u t' order r mc t'' Hf HP Hk. eapply kids_led; [|exact Hk| |]; [auto|apply in_or_app; now left|]. intros c Hc'.
      apply (Permutation_in c (Permutation_sym HP)) in Hc'. apply (filter_run_sub _ _ _ _ _ _ Hf) in Hc'. apply in_map_iff in Hc'. destruct Hc' as (m & <- & Hm).
      exists m, (EvLstat p (Some KDir) :: h), dl. auto. }
    destruct Hb as [x t0 Hk0|mc t0 x t' Hk0 Hf|mc t0 l t' Hk0 Hf Hd0|mc t0 l t' x ts Hk0 Hf Hd0 Hs
      |mc t0 l t' order ts x t'' Hk0 Hf Hd0 Hs Hkr|mc t0 l t' order ts es rest t'' Hk0 Hf Hd0 Hs Hkr].
    + apply led_modest. apply Hk0.
    + apply led_modest. apply modest_app; [apply Hk0|eauto].
    + rewrite app_assoc. apply always_app; [apply led_modest, modest_app; [apply Hk0|eauto]|].
      apply always_cons; [apply led_other; intros q [E0|[E0|[y E0]]]; discriminate|apply always_nil].
    + apply led_modest. apply modest_app; [apply Hk0|]. apply modest_app; eauto.
    + rewrite (app_assoc t'), app_assoc. apply always_app; [apply led_modest; repeat apply modest_app; [apply Hk0|eauto|eauto]|].
      eapply Hkids; [exact Hf|apply Hs|exact Hkr].
    + rewrite (app_assoc t'), app_assoc. apply always_app; [apply led_modest; repeat apply modest_app; [apply Hk0|eauto|eauto]|].
      eapply Hkids; [exact Hf|apply Hs|exact Hkr].
Qed.

Lemma print_led o p w h : callbacks w o (modest w) (fun _ => True) ->
  exists r t, pretty_print o p w h = (r, rev t ++ h) /\
    forall t1 ev t2 q, t = t1 ++ ev :: t2 -> looks_into ev q -> q = location w p \/ exists p', delivered w p' q /\ In (EvOpen p') t1.
Proof.
  intro Hc.
  destruct (print_runs w o (modest w) (fun _ => True) _ p (modest_nil w) (modest_app w) I Hc (scan_led _ _ _ Hc) h) as (r & t & Er & H).
  exists r, t. split; [exact Er|]. intros t1 ev t2 q Et Hl.
  assert (HA : always (led_to w (location w p)) [] t).
  { destruct H as [(x & _ & H)|(e & u1 & u2 & -> & _ & H & Hq & _)]; [exact H|]. apply always_app; [exact H|]. now apply led_modest. }
  exact (HA t1 ev t2 Et q Hl).
Qed.

(** ** Searching straight down *)
Section Straight.
Variable top : node.
Hypothesis Hwf : well_formed top.

Lemma search_straight f k ns : forall here r, Forall plain ns ->
  (forall a b, ns = a ++ b -> a <> [] -> b <> [] \/ f = true -> forall t, node_at top (here ++ a) <> Some (NLink t)) ->
  search top f k here ns = Some r -> r = here ++ ns.
Proof.
  induction ns as [|n ns IH]; intros here r Hp Hn H; [rewrite search_nil in H; injection H as <-; now rewrite app_nil_r|].
  inversion Hp as [|? ? Hp1 Hp2]; subst. destruct (plain_eqb n Hp1) as [E1 E2]. rewrite search_cons, E1, E2 in H.
  assert (Hrec : search top f k (here ++ [n]) ns = Some r -> r = here ++ n :: ns).
  { intro G. rewrite (IH (here ++ [n]) r Hp2); [now rewrite <- app_assoc| |exact G]. intros a b E Ha Hb t. rewrite <- app_assoc. cbn.
    apply (Hn (n :: a) b); [now rewrite E|discriminate|exact Hb]. }
  destruct (node_at top (here ++ [n])) as [[z|b es|tg|]|] eqn:E; try discriminate; auto.
  - destruct ns; [injection H as <-; reflexivity|discriminate].
  - destruct f, ns as [|n' ns].
    + exfalso. apply (Hn [n] [] eq_refl) with (t := tg); [discriminate|now right|exact E].
    + exfalso. apply (Hn [n] (n' :: ns) eq_refl) with (t := tg); [discriminate|now right|exact E].
    + injection H as <-. reflexivity.
    + exfalso. apply (Hn [n] (n' :: ns) eq_refl) with (t := tg); [discriminate|left; discriminate|exact E].
  - destruct ns; [injection H as <-; reflexivity|discriminate].
Qed.

Lemma search_below K f N l ns r : search top false K [] N = Some l -> Forall plain ns ->
  (forall a b, ns = a ++ b -> b <> [] \/ f = true -> forall t, node_at top (l ++ a) <> Some (NLink t)) ->
  search top f K [] (N ++ ns) = Some r -> r = l ++ ns.
Proof.
  intros HN Hp Hn H. assert (Hfollow : forall b, ns = b -> b <> [] \/ f = true -> search top true K [] N = Some l).
  { intros b E Hb. apply search_follow; [exact HN|]. intros t. specialize (Hn [] b E Hb t). now rewrite app_nil_r in Hn. }
  destruct ns as [|n ns].
  - rewrite app_nil_r in *. destruct f; [|congruence]. rewrite (Hfollow [] eq_refl (or_intror eq_refl)) in H. congruence.
  - assert (Ht : folder_at top []) by (destruct Hwf as [(b & es & E) _]; exists b, es; cbn; congruence).
    destruct (search_split top Ht f K N (n :: ns) [] r H ltac:(discriminate) Ht) as (j & m & Hj & H1 & Hf & H2).
    assert (m = l).
    { apply (search_more top true j N [] m K) in H1; [|lia]. rewrite (Hfollow (n :: ns) eq_refl) in H1; [congruence|left; discriminate]. }
    subst m. eapply search_straight; [exact Hp| |exact H2]. intros a b E _. now apply Hn.
Qed.
End Straight.

Section Moving.
Variables (vol : hist -> node) (j : jvm).
Hypothesis Hwf : forall h, well_formed (vol h).
Let w := moving_world vol j.

Lemma delivered_plain p q : delivered w p q -> exists n, q = child p n /\ plain n.
Proof.
  intros (n & h & dl & -> & Ho & Hn). exists n. split; [reflexivity|]. cbn in Ho.
  destruct (found (vol h) true (jv_cwd j) p) as [[z|b es|t|]|] eqn:E; try discriminate. destruct b; [|discriminate]. injection Ho as <-. cbn in Hn.
  unfold found, opt_bind in E. destruct (place (vol h) true (jv_cwd j) p) as [m|]; [|discriminate].
  destruct (Hwf h) as [_ H]. destruct (H m true es E) as [_ Hr]. rewrite Forall_forall in Hr. apply Hr in Hn. apply Hn.
Qed.

Lemma app_last_split {A} (t0 : list A) x u v : t0 ++ [x] = u ++ v -> v <> [] -> exists v', t0 = u ++ v' /\ v = v' ++ [x].
Proof.
  intros E Hv. destruct (exists_last Hv) as (v' & y & ->). rewrite app_assoc in E. apply app_inj_tail in E as [-> ->]. now exists v'.
Qed.

Lemma opened_in_place o p h l :
  callbacks w o (modest w) (fun _ => True) -> honest_callbacks w o ->
  (forall t, place (vol (t ++ h)) false (jv_cwd j) (location w p) = Some l) ->
  (forall t1 t2 ns, folder_at (vol (t1 ++ h)) (l ++ ns) -> forall x, node_at (vol (t2 ++ t1 ++ h)) (l ++ ns) <> Some (NLink x)) ->
  exists r t, pretty_print o p w h = (r, rev t ++ h) /\
    forall t1 ev t2 q, t = t1 ++ ev :: t2 -> opening ev q ->
      exists ns, q = deeper (location w p) ns /\
        (forall r, place (vol (rev t1 ++ h)) true (jv_cwd j) q = Some r -> r = l ++ ns) /\
        (ev = EvOpen q -> folder_at (vol (rev t1 ++ h)) (l ++ ns)).
Proof.
  intros Hc Hh Hl Hno. destruct (print_honest w o Hh p h) as (r & t & Er & Ht).
  destruct (C16_lemma o p w h Hc) as (r1 & t' & Er1 & H16). destruct (print_led o p w h Hc) as (r2 & t'' & Er2 & Hled).
  assert (t' = t) as ->. { rewrite Er in Er1. injection Er1 as _ Et. apply app_inv_tail in Et. apply (f_equal (@rev _)) in Et. now rewrite !rev_involutive in Et. }
  assert (t'' = t) as ->. { rewrite Er in Er2. injection Er2 as _ Et. apply app_inv_tail in Et. apply (f_equal (@rev _)) in Et. now rewrite !rev_involutive in Et. }
  exists r, t. split; [exact Er|]. clear Er Er1 Er2 r1 r2.
  destruct (location w p) as [la N] eqn:EL. assert (la = true) as ->.
  { unfold location in EL. apply (f_equal p_abs) in EL. cbn in EL. rewrite <- EL. unfold to_absolute. now destruct (p_abs p) eqn:Ep. }
  assert (Hat : forall ns, p_names (to_absolute (jv_cwd j) (deeper (mkPath true N) ns)) = N ++ ns) by reflexivity.
  assert (Key : forall n t1 ev t2 q, length t1 <= n -> t = t1 ++ ev :: t2 -> opening ev q ->
    exists ns, q = deeper (mkPath true N) ns /\ Forall plain ns /\
      forall a b, ns = a ++ b -> exists u v, t1 = u ++ v /\ folder_at (vol (rev u ++ h)) (l ++ a)).
  { induction n as [n IH] using lt_wf_ind. intros t1 ev t2 q Hn Et Hop. destruct (H16 t1 ev t2 q Et Hop) as (t0 & E0).
    assert (Hk : w_lstat w (rev t0 ++ h) q = Some KDir).
    { apply (Ht t0 (EvLstat q (Some KDir)) (ev :: t2)). rewrite Et, E0, <- app_assoc. reflexivity. }
    assert (Hfound : exists m, place (vol (rev t0 ++ h)) false (jv_cwd j) q = Some m /\ folder_at (vol (rev t0 ++ h)) m).
    { cbn in Hk. destruct (found (vol (rev t0 ++ h)) false (jv_cwd j) q) as [[z|b es|tg|]|] eqn:Ef; try discriminate.
      unfold found, opt_bind in Ef. destruct (place _ _ _ q) as [m|]; [|discriminate]. exists m. split; [reflexivity|]. now exists b, es. }
    destruct Hfound as (m & Hm & Hfm).
    destruct (Hled t1 ev t2 q Et) as [->|(p' & Hdel & Hin)].
    - destruct Hop as [->| ->]; [now left|right; now left].
    - exists []. split; [unfold deeper; cbn; now rewrite app_nil_r|]. split; [constructor|]. intros a b E. destruct a; [|discriminate]. rewrite app_nil_r.
      rewrite Hl in Hm. injection Hm as <-. exists t0, [EvLstat (mkPath true N) (Some KDir)]. auto.
    - destruct (delivered_plain p' q Hdel) as (c & -> & Hcp). apply in_split in Hin as (s1 & s2 & Es).
      assert (Hs : t0 ++ [EvLstat (child p' c) (Some KDir)] = s1 ++ EvOpen p' :: s2) by congruence.
      destruct (app_last_split _ _ s1 (EvOpen p' :: s2) Hs ltac:(discriminate)) as (v0 & -> & Ev0).
      destruct (IH (length s1)) with (t1 := s1) (ev := EvOpen p') (t2 := s2 ++ ev :: t2) (q := p') as (ns & -> & Hns & Hpre).
      { rewrite Es in Hn. rewrite app_length in Hn. cbn in Hn. lia. }
      { lia. }
      { rewrite Et, Es, <- app_assoc. reflexivity. }
      { now left. }
      assert (Hpl : Forall plain (ns ++ [c])) by (apply Forall_app; split; [exact Hns|constructor; [exact Hcp|constructor]]).
      assert (Hq : child (deeper (mkPath true N) ns) c = deeper (mkPath true N) (ns ++ [c])) by (unfold child, deeper; cbn; now rewrite app_assoc).
      rewrite Hq in *. exists (ns ++ [c]). split; [reflexivity|]. split; [exact Hpl|].
      assert (Em : m = l ++ ns ++ [c]).
      { unfold place in Hm. rewrite Hat in Hm. eapply (search_below (vol (rev (s1 ++ v0) ++ h)) (Hwf _) max_links false N l); [|exact Hpl| |exact Hm].
        - specialize (Hl (rev (s1 ++ v0))). exact Hl.
        - intros a b E [Hb|Hb]; [|discriminate]. intros x.
          destruct (exists_last Hb) as (b' & y & ->). rewrite app_assoc in E. apply app_inj_tail in E as [E _].
          destruct (Hpre a b' E) as (u & v & Eu & Hf). subst s1.
          rewrite !rev_app_distr, <- !app_assoc. rewrite (app_assoc (rev v0)). now apply Hno. }
      intros a b E. destruct (list_end b) as [->|(b' & y & ->)].
      + rewrite app_nil_r in E. subst a. rewrite <- Em. exists (s1 ++ v0), [EvLstat (deeper (mkPath true N) (ns ++ [c])) (Some KDir)]. split; [exact E0|exact Hfm].
      + rewrite app_assoc in E. apply app_inj_tail in E as [E _]. destruct (Hpre a b' E) as (u & v & -> & Hf).
        exists u, (v ++ EvOpen (deeper (mkPath true N) ns) :: s2). split; [rewrite Es, <- app_assoc; reflexivity|exact Hf]. }
  intros t1 ev t2 q Et Hop. destruct (Key _ t1 ev t2 q (le_n _) Et Hop) as (ns & -> & Hns & Hpre).
  assert (Hr : forall r, place (vol (rev t1 ++ h)) true (jv_cwd j) (deeper (mkPath true N) ns) = Some r -> r = l ++ ns).
  { intros r' Hr. unfold place in Hr. rewrite Hat in Hr. eapply (search_below (vol (rev t1 ++ h)) (Hwf _) max_links true N l); [|exact Hns| |exact Hr].
    - specialize (Hl (rev t1)). exact Hl.
    - intros a b E _ x. destruct (Hpre a b E) as (u & v & -> & Hf). rewrite rev_app_distr, <- app_assoc. now apply Hno. }
  exists ns. split; [reflexivity|]. split; [exact Hr|]. intros ->.
  specialize (Ht t1 _ t2 Et). cbn in Ht.
  destruct (found (vol (rev t1 ++ h)) true (jv_cwd j) (deeper (mkPath true N) ns)) as [[z|b es|tg|]|] eqn:Ef; try (now destruct Ht).
  unfold found, opt_bind in Ef. destruct (place (vol (rev t1 ++ h)) true (jv_cwd j) (deeper (mkPath true N) ns)) as [m|]; [|discriminate].
  rewrite <- (Hr m eq_refl). now exists b, es.
Qed.

Lemma deeper_child P ns c : child (deeper P ns) c = deeper P (ns ++ [c]).
Proof. unfold child, deeper. cbn. now rewrite app_assoc. Qed.

(** What is found at a path below is what lies there, if there are no links on the way. *)
Lemma found_below K top N l ns f x : well_formed top -> search top false K [] N = Some l -> Forall plain ns ->
  (forall a b, ns = a ++ b -> b <> [] -> forall t, node_at top (l ++ a) <> Some (NLink t)) ->
  opt_bind (search top f K [] (N ++ ns)) (node_at top) = Some x -> node_at top (l ++ ns) <> None.
Proof.
  intros Hw HN Hp Hn H. assert (Ht : folder_at top []) by (destruct Hw as [(b & es & E) _]; exists b, es; cbn; congruence).
  destruct (list_end ns) as [->|(ns' & c & ->)].
  - rewrite app_nil_r. now destruct (search_ends top Ht false K N [] l Ht HN).
  - unfold opt_bind in H. destruct (search top f K [] (N ++ ns' ++ [c])) as [r|] eqn:E; [|discriminate]. rewrite app_assoc in E.
    destruct (search_split top Ht f K (N ++ ns') [c] [] r E ltac:(discriminate) Ht) as (i & m & Hi & H1 & Hf & H2).
    apply Forall_app in Hp as [Hp Hc]. inversion Hc as [|? ? Hc1 _]; subst. apply (search_more top true i _ [] m K) in H1; [|lia].
    assert (m = l ++ ns').
    { eapply (search_below top Hw K true N l); eauto. intros a b Ea _. apply (Hn a (b ++ [c])); [now rewrite Ea, <- app_assoc|destruct b; discriminate]. }
    subst m. destruct (plain_eqb c Hc1) as [E1 E2]. rewrite search_cons, E1, E2, <- app_assoc in H2. intro E0. rewrite E0 in H2. discriminate.
Qed.

Lemma dir_below K top N ns l : well_formed top -> search top false K [] N = Some l -> Forall plain ns ->
  (forall a b, ns = a ++ b -> b <> [] -> forall t, node_at top (l ++ a) <> Some (NLink t)) ->
  option_map node_kind (opt_bind (search top false K [] (N ++ ns)) (node_at top)) = Some KDir -> folder_at top (l ++ ns).
Proof.
  intros Hw HN Hp Hn H. unfold opt_bind in H. destruct (search top false K [] (N ++ ns)) as [r|] eqn:E; [|discriminate].
  assert (r = l ++ ns) as ->.
  { eapply (search_below top Hw K false N l); eauto. intros a b Ea [Hb|Hb]; [now apply (Hn a b)|discriminate]. }
  destruct (node_at top (l ++ ns)) as [[z|b es|tg|]|] eqn:En; try discriminate. now exists b, es.
Qed.

Lemma found_below_root top cwd N l ns f x : well_formed top -> place top false cwd (mkPath true N) = Some l -> Forall plain ns ->
  (forall a b, ns = a ++ b -> b <> [] -> forall t, node_at top (l ++ a) <> Some (NLink t)) ->
  found top f cwd (deeper (mkPath true N) ns) = Some x -> node_at top (l ++ ns) <> None.
Proof. unfold found, place. cbn [to_absolute deeper p_abs p_names]. generalize max_links. intro K. apply found_below. Qed.

Lemma dir_below_root top cwd N l ns : well_formed top -> place top false cwd (mkPath true N) = Some l -> Forall plain ns ->
  (forall a b, ns = a ++ b -> b <> [] -> forall t, node_at top (l ++ a) <> Some (NLink t)) ->
  option_map node_kind (found top false cwd (deeper (mkPath true N) ns)) = Some KDir -> folder_at top (l ++ ns).
Proof. unfold found, place. cbn [to_absolute deeper p_abs p_names]. generalize max_links. intro K. apply dir_below. Qed.

Lemma depth_parent k e x : at_depth (S k) e x -> exists d es, at_depth k e (EDir d es) /\ In x es.
Proof.
  revert e. induction k as [|k IH]; intros e H; inversion H as [|? d es c ? Hin Hat]; subst.
  - inversion Hat; subst. exists d, es. split; [constructor|exact Hin].
  - destruct (IH c Hat) as (d' & es' & H1 & H2). exists d', es'. split; [econstructor; eauto|exact H2].
Qed.

Lemma shown_was_there o p h out h' v l :
  honest_callbacks w o -> sees w o v ->
  (forall t, place (vol (t ++ h)) false (jv_cwd j) (location w p) = Some l) ->
  (forall t1 t2 ns, folder_at (vol (t1 ++ h)) (l ++ ns) -> forall x, node_at (vol (t2 ++ h)) (l ++ ns) <> Some (NLink x)) ->
  pretty_print o p w h = (Ok out, h') ->
  exists e s t, shows v true e s /\ out = text (o_tree_format o) (labelled v s) /\ h' = rev t ++ h /\
    forall k x q, at_depth k e x -> entry_path x = Some q ->
      exists ns u u', q = deeper (location w p) ns /\ length ns = k /\ t = u ++ u' /\ node_at (vol (rev u ++ h)) (l ++ ns) <> None.
Proof.
  intros Hh Hs Hl Hno Hr. destruct (C94_lemma o p w h out h' v Hh Hs Hr) as (e & s & t & H1 & H2 & H3 & Ht & He & Hseen).
  exists e, s, t. split; [exact H1|]. split; [exact H2|]. split; [exact H3|]. clear H1 H2 H3 Hs Hr.
  destruct (location w p) as [la N] eqn:EL. assert (la = true) as ->.
  { unfold location in EL. apply (f_equal p_abs) in EL. cbn in EL. rewrite <- EL. unfold to_absolute. now destruct (p_abs p) eqn:Ep. }
  assert (Hat : forall ns, p_names (to_absolute (jv_cwd j) (deeper (mkPath true N) ns)) = N ++ ns) by reflexivity.
  assert (Key : forall k x q, at_depth k e x -> entry_path x = Some q ->
    exists ns, q = deeper (mkPath true N) ns /\ length ns = k /\ Forall plain ns /\
      forall a b, ns = a ++ b -> b <> [] -> exists u, folder_at (vol (u ++ h)) (l ++ a)).
  { induction k as [|k IH]; intros x q Hx Hq.
    - inversion Hx; subst. rewrite He in Hq. injection Hq as <-. exists []. split; [unfold deeper; cbn; now rewrite app_nil_r|].
      split; [reflexivity|]. split; [constructor|]. intros a b E Hb. destruct a; [cbn in E; subst b; now destruct Hb|discriminate].
    - destruct (depth_parent _ _ _ Hx) as (d & es & Hd & Hin). destruct (IH _ d Hd eq_refl) as (ns & -> & Hlen & Hp & Hpre).
      specialize (Hseen _ _ Hd). cbn [seen_entry] in Hseen. destruct (Z.of_nat k <? o_max_depth o)%Z.
      2:{ destruct Hseen as [-> _]. destruct Hin as [<-|[]]. discriminate. }
      destruct Hseen as (t1 & t2 & t3 & t4 & t5 & limit & seen & order & real & Et & Ho & _ & _ & _ & HP & _ & Ees & Ereal).
      assert (Hx' : In x real).
      { subst es. apply in_app_or in Hin as [Hin|Hin]; [exact Hin|]. exfalso. unfold marker in Hin. destruct (_ && _); [|destruct Hin].
        destruct Hin as [<-|[]]. discriminate. }
      assert (Hq' : In (Some q) (map Some (limited limit order))) by (rewrite <- Ereal, <- Hq; now apply in_map).
      apply in_map_iff in Hq' as (q' & Eq & Hq'). injection Eq as ->.
      assert (Hord : In q order).
      { unfold limited in Hq'. destruct (limit <? 0)%Z; [exact Hq'|]. rewrite <- (firstn_skipn (Z.to_nat limit) order). apply in_or_app. now left. }
      apply (Permutation_in q (Permutation_sym HP)) in Hord. apply in_map_iff in Hord as ([c b0] & <- & Hc). apply filter_In in Hc as [Hc _]. cbn [fst] in *.
      assert (Hfold : folder_at (vol (rev t1 ++ h)) (l ++ ns)).
      { apply (dir_below_root _ (jv_cwd j) N); [apply Hwf|apply Hl|exact Hp| |].
        - intros a b Ea Hb x0. destruct (Hpre a b Ea Hb) as (u & Hu). exact (Hno u (rev t1) a Hu x0).
        - exact (Ht t1 _ _ Et). }
      destruct (delivered_plain (deeper (mkPath true N) ns) (child (deeper (mkPath true N) ns) c)) as (c' & Ec & Hc').
      { exists c. eexists. eexists. split; [reflexivity|]. split; [exact Ho|]. cbn [dl_names]. apply in_map_iff. now exists (c, b0). }
      assert (c' = c) as -> by (unfold child in Ec; injection Ec as Ec; now apply app_inj_tail in Ec).
      exists (ns ++ [c]). split; [apply deeper_child|]. split; [rewrite app_length; cbn; lia|].
      split; [apply Forall_app; split; [exact Hp|constructor; [exact Hc'|constructor]]|].
      intros a b E Hb. destruct (list_end b) as [->|(b' & y & ->)]; [now destruct Hb|]. rewrite app_assoc in E. apply app_inj_tail in E as [E _].
      destruct b' as [|b1 b2]; [|apply (Hpre a (b1 :: b2) E); discriminate]. rewrite app_nil_r in E. subst a. now exists (rev t1). }
  intros k x q Hx Hq. destruct (Key k x q Hx Hq) as (ns & -> & Hlen & Hp & Hpre). exists ns. specialize (Hseen k x Hx).
  assert (Hbelow : forall u u' f, t = u ++ u' -> found (vol (rev u ++ h)) f (jv_cwd j) (deeper (mkPath true N) ns) <> None ->
    exists v v', deeper (mkPath true N) ns = deeper (mkPath true N) ns /\ length ns = k /\ t = v ++ v' /\ node_at (vol (rev v ++ h)) (l ++ ns) <> None).
  { intros u u' f E Hf. exists u, u'. split; [reflexivity|]. split; [exact Hlen|]. split; [exact E|].
    destruct (found (vol (rev u ++ h)) f (jv_cwd j) (deeper (mkPath true N) ns)) as [y|] eqn:Ef; [|now destruct Hf].
    apply (found_below_root (vol (rev u ++ h)) (jv_cwd j) N l ns f y); [apply Hwf|apply Hl|exact Hp| |exact Ef].
    intros a b Ea Hb x0. destruct (Hpre a b Ea Hb) as (u0 & Hu). exact (Hno u0 (rev u) a Hu x0). }
  destruct x as [d es|f kd|d|n]; try discriminate; injection Hq as ->; cbn [seen_entry] in Hseen.
  - assert (Hd : exists t1 t2, t = t1 ++ EvLstat (deeper (mkPath true N) ns) (Some KDir) :: t2).
    { destruct (Z.of_nat k <? o_max_depth o)%Z; [|destruct Hseen as [_ Hd]; exact Hd].
      destruct Hseen as (t1 & t2 & t3 & t4 & t5 & limit & seen & order & real & Et & _). exists t1. eexists. exact Et. }
    destruct Hd as (t1 & t2 & Et). apply (Hbelow t1 _ false Et). pose proof (Ht t1 _ t2 Et) as Hk. cbn in Hk. intro E. rewrite E in Hk. discriminate.
  - destruct Hseen as (t1 & a & t2 & Et & _). apply (Hbelow (t1 ++ [EvLstat (deeper (mkPath true N) ns) a]) (EvStat (deeper (mkPath true N) ns) (Some kd) :: t2) true).
    + rewrite <- app_assoc. exact Et.
    + pose proof (Ht (t1 ++ [EvLstat (deeper (mkPath true N) ns) a]) (EvStat (deeper (mkPath true N) ns) (Some kd)) t2) as Hk. rewrite <- app_assoc in Hk.
      specialize (Hk Et). cbn [moving_world w_stat volume_disk d_attr] in Hk. intro E. cbn in Hk. rewrite E in Hk. discriminate.
Qed.
End Moving.
