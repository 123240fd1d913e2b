(** * Proofs about callbacks that look into directories *)

From Verif Require Import SpecAround PathFacts RenderFacts TreeFacts ScanFacts TraceFacts RunFacts SortFacts AccessFacts SeenFacts TimFacts VolumeFacts VolumePrintFacts MovingFacts.
Close Scope Z_scope.

Section Around.
  Context (w : world).

  Definition tested (pre : trace) (q : path) : Prop := exists t0, pre = t0 ++ [EvLstat q (Some KDir)].

  Definition led (root : path) (pre : trace) (q : path) : Prop := q = root \/ In (EvOpen q) pre \/ exists p, in_listing w p q /\ In (EvOpen p) pre.

  Definition allowed (beside : bool) (root : path) (pre : trace) (q : path) : Prop := led root pre q \/ (beside = true /\ get_parent root = Some q).

  Definition may_open (beside : bool) (root : path) (pre : trace) (ev : event) : Prop :=
    forall q, opening ev q -> tested pre q /\ allowed beside root pre q.

  Definition inside (b : bool) (root : path) (ctx : trace) {A} (m : M A) : Prop :=
    forall h, exists r t, m w h = (r, rev t ++ h) /\ always (may_open b root) ctx t.

  Lemma tested_more a b q : tested b q -> tested (a ++ b) q.
  Proof. intros (t0 & ->). exists (a ++ t0). now rewrite app_assoc. Qed.

  Lemma led_more root a b q : led root a q -> led root (a ++ b) q.
  Proof.
    intros [H|[H|(p & H1 & H2)]]; [now left|right; left; apply in_or_app; now left|].
    right. right. exists p. split; [exact H1|]. apply in_or_app. now left.
  Qed.

  Lemma allowed_more b root x y q : allowed b root x q -> allowed b root (x ++ y) q.
  Proof. intros [H|H]; [left; now apply led_more|now right]. Qed.

  Lemma led_after root a b q : led root b q -> led root (a ++ b) q.
  Proof.
    intros [H|[H|(p & H1 & H2)]]; [now left|right; left; apply in_or_app; now right|].
    right. right. exists p. split; [exact H1|]. apply in_or_app. now right.
  Qed.

  Lemma always_shift b root ctx t : always (may_open b root) [] t -> always (may_open b root) ctx t.
  Proof.
    intro H. eapply always_weaken; [|exact H]. intros t1 ev Hm q Hq. destruct (Hm q Hq) as [H1 [H2|H2]]; (split; [now apply tested_more|]); [left; now apply led_after|now right].
  Qed.

  Lemma quiet_inside b root ctx ev : (forall q, ~ opening ev q) -> may_open b root ctx ev.
  Proof. intros H q Hq. destruct (H q Hq). Qed.

  Lemma inside_ret b root ctx A (a : A) : inside b root ctx (ret a).
  Proof. intro h. exists (Ok a), []. split; [reflexivity|apply always_nil]. Qed.

  Lemma inside_throw b root ctx A x : inside b root ctx (@throw A x).
  Proof. intro h. exists (Throw x), []. split; [reflexivity|apply always_nil]. Qed.

  Lemma inside_bind b root ctx A B (m : M A) (f : A -> M B) : inside b root ctx m ->
    (forall a h t, m w h = (Ok a, rev t ++ h) -> inside b root (ctx ++ t) (f a)) -> inside b root ctx (bind m f).
  Proof.
    intros Hm Hf h. destruct (Hm h) as (r & t & Er & Ht). unfold bind. rewrite Er. destruct r as [a|x]; [|exists (Throw x), t; auto].
    destruct (Hf a h t Er (rev t ++ h)) as (r' & t' & Er' & Ht'). exists r', (t ++ t'). rewrite Er', rev_app_distr, <- app_assoc.
    split; [reflexivity|now apply always_app].
  Qed.

  (** A step that opens nothing. *)
  Lemma inside_event b root ctx A (m : M A) (f : hist -> res A) (ev : hist -> event) :
    (forall h, m w h = (f h, ev h :: h)) -> (forall h q, ~ opening (ev h) q) -> inside b root ctx m.
  Proof.
    intros Hm Hev h. exists (f h), [ev h]. split; [apply Hm|]. apply always_cons; [|apply always_nil]. apply quiet_inside, Hev.
  Qed.

  Ltac no_opening := intros ? ? [E|E]; discriminate E.

  Lemma inside_lstat b root ctx p : inside b root ctx (lstat p).
  Proof. apply (inside_event b root ctx _ (lstat p) (fun h => Ok (w_lstat w h p)) (fun h => EvLstat p (w_lstat w h p))); [reflexivity|no_opening]. Qed.

  Lemma inside_has_kind b root ctx k p : inside b root ctx (has_kind k p).
  Proof. apply inside_bind; [apply inside_lstat|]. intros. apply inside_ret. Qed.

  Lemma has_kind_dir p h t : has_kind KDir p w h = (Ok true, rev t ++ h) -> t = [EvLstat p (Some KDir)].
  Proof.
    unfold has_kind, bind, lstat. intro H.
    assert (E : w_lstat w h p = Some KDir). { destruct (w_lstat w h p) as [k|]; [|discriminate]. destruct k; cbn in H; first [reflexivity|discriminate]. }
    rewrite E in H. cbn in H. injection H as H. change (EvLstat p (Some KDir) :: h) with ([EvLstat p (Some KDir)] ++ h) in H. apply app_inv_tail in H.
    apply (f_equal (@rev _)) in H. rewrite rev_involutive in H. now symmetry.
  Qed.

  Lemma lstat_dir p h t k : lstat p w h = (Ok (Some k), rev t ++ h) -> t = [EvLstat p (Some k)].
  Proof.
    unfold lstat. intro H. destruct (w_lstat w h p) as [k'|]; [|discriminate]. injection H as <- H.
    change (EvLstat p (Some k') :: h) with ([EvLstat p (Some k')] ++ h) in H. apply app_inv_tail in H.
    apply (f_equal (@rev _)) in H. rewrite rev_involutive in H. now symmetry.
  Qed.

  Lemma inside_open b root ctx p : tested ctx p -> allowed b root ctx p -> inside b root ctx (open_dir p).
  Proof.
    intros H1 H2 h. unfold open_dir. destruct (w_open w h p) as [dl|].
    - exists (Ok (Some dl)), [EvOpen p]. split; [reflexivity|]. apply always_cons; [|apply always_nil]. intros q [E|E]; [|discriminate]. injection E as <-. auto.
    - exists (Ok None), [EvOpenFail p]. split; [reflexivity|]. apply always_cons; [|apply always_nil]. intros q [E|E]; [discriminate|]. injection E as <-. auto.
  Qed.

  Lemma open_dir_opened p h t dl : open_dir p w h = (Ok (Some dl), rev t ++ h) -> t = [EvOpen p] /\ w_open w h p = Some dl.
  Proof.
    unfold open_dir. intro H. destruct (w_open w h p) as [d|]; [|discriminate]. injection H as <- H. split; [|reflexivity].
    change (EvOpen p :: h) with ([EvOpen p] ++ h) in H. apply app_inv_tail in H. apply (f_equal (@rev _)) in H. rewrite rev_involutive in H. now symmetry.
  Qed.

  Lemma inside_close b root ctx p : inside b root ctx (close_dir p).
  Proof. apply (inside_event b root ctx _ (close_dir p) (fun h => Ok (w_close_ok w h p)) (fun h => EvClose p (w_close_ok w h p))); [reflexivity|no_opening]. Qed.

  Lemma inside_iter_fail b root ctx p : inside b root ctx (iter_fail p).
  Proof. apply (inside_event b root ctx _ (iter_fail p) (fun h => Ok tt) (fun h => EvIterFail p)); [reflexivity|no_opening]. Qed.

  Lemma inside_stat b root ctx p : inside b root ctx (stat p).
  Proof. apply (inside_event b root ctx _ (stat p) (fun h => Ok (w_stat w h p)) (fun h => EvStat p (w_stat w h p))); [reflexivity|no_opening]. Qed.

  Lemma inside_modest b root ctx A (m : M A) : (forall h, exists r t, m w h = (r, rev t ++ h) /\ modest w t) -> inside b root ctx m.
  Proof.
    intros H h. destruct (H h) as (r & t & Er & Ht). exists r, t. split; [exact Er|]. apply (always_modest _ w); [|exact Ht].
    intros t1 ev Hev. apply quiet_inside. intros q [->| ->]; exact Hev.
  Qed.

  (** ** What a callback does, about a path found in an opened directory *)
  Lemma around_spec b A (f : path -> M A) : looks_around w b f <-> forall c ctx, inside b c ctx (f c).
  Proof.
    split.
    - intros H c ctx h. destruct (H c h) as (r & t & Er & Ht). exists r, t. split; [exact Er|]. apply always_shift.
      intros t1 ev t2 Et q Hq. destruct (Ht t1 ev t2 q Et Hq) as (H1 & H2). split; [exact H1|]. unfold allowed, led. cbn [app]. tauto.
    - intros H c h. destruct (H c [] h) as (r & t & Er & Ht). exists r, t. split; [exact Er|]. intros t1 ev t2 q Et Hq.
      destruct (Ht t1 ev t2 Et q Hq) as (H1 & H2). split; [exact H1|]. unfold allowed, led in H2. cbn [app] in H2. tauto.
  Qed.

  Lemma parent_child d n q : get_parent (child d n) = Some q -> q = d.
  Proof.
    unfold get_parent, child. destruct d as [xa xn]. cbn [p_names p_abs]. rewrite rev_app_distr. cbn [rev app]. intro H.
    destruct (rev xn) as [|y r] eqn:Er.
    - assert (xn = []) by (rewrite <- (rev_involutive xn), Er; reflexivity). subst xn. destruct xa; [now injection H as <-|discriminate].
    - injection H as <-. rewrite <- (rev_involutive xn), Er. reflexivity.
  Qed.

  Lemma around_below A (f : path -> M A) b' root ctx c : looks_around w false f -> led root ctx c -> inside b' root ctx (f c).
  Proof.
    intros H Hc h. destruct (proj1 (around_spec _ _ _) H c ctx h) as (r & t & Er & Ht). exists r, t. split; [exact Er|].
    intros t1 ev t2 Et q Hq. destruct (Ht t1 ev t2 Et q Hq) as (H1 & [H2|[H2 _]]); [|discriminate]. split; [exact H1|]. left.
    destruct H2 as [->|H2]; [now apply led_more|now right].
  Qed.

  Lemma around_child b A (f : path -> M A) b' root ctx d c : looks_around w b f -> in_listing w d c -> In (EvOpen d) ctx -> inside b' root ctx (f c).
  Proof.
    intros H Hl Hd h. destruct (proj1 (around_spec _ _ _) H c ctx h) as (r & t & Er & Ht). exists r, t. split; [exact Er|].
    intros t1 ev t2 Et q Hq. destruct (Ht t1 ev t2 Et q Hq) as (H1 & H2). split; [exact H1|]. left.
    destruct H2 as [[->|H2]|[_ H2]].
    - right. right. exists d. split; [exact Hl|apply in_or_app; now left].
    - now right.
    - destruct Hl as (n & h' & dl & -> & _). apply parent_child in H2. subst q. right. left. apply in_or_app. now left.
  Qed.

  Lemma listed_name h p dl n : w_open w h p = Some dl -> In n (dl_names dl) -> in_listing w p (resolve_name p n).
  Proof. intros H1 H2. exists n, h, dl. auto. Qed.

  (** ** Walks *)
  Lemma walk_inside (visit : matcher) b b' root : looks_around w b visit ->
    forall n skip p ctx, allowed b' root ctx p -> (skip = false -> exists d, in_listing w d p /\ In (EvOpen d) ctx) -> inside b' root ctx (walk n skip visit p).
  Proof.
    intros Hv. induction n as [|n IH]; intros skip p ctx Hp Hs; cbn [walk]; (apply inside_bind; [apply inside_lstat|]); intros [k|] h t Hk; try apply inside_throw;
      assert (Hvis : forall ctx', inside b' root (ctx ++ ctx') (if skip then ret false else visit p))
        by (intro ctx'; destruct skip; [apply inside_ret|]; destruct (Hs eq_refl) as (d & H1 & H2); eapply around_child; [exact Hv|exact H1|apply in_or_app; now left]).
    - apply Hvis.
    - destruct (kind_eqb k KDir) eqn:Ek; [|apply Hvis]. assert (k = KDir) as -> by (destruct k; (reflexivity || discriminate)).
      apply lstat_dir in Hk. subst t. apply inside_bind.
      { apply inside_open; [now exists ctx|now apply allowed_more]. }
      intros [dl|] h1 t Ho; [|apply inside_throw]. apply open_dir_opened in Ho. destruct Ho as [-> Ho].
      set (body := bind (if skip then ret false else visit p) _).
      assert (Hb : inside b' root ((ctx ++ [EvLstat p (Some KDir)]) ++ [EvOpen p]) body).
      { unfold body. apply inside_bind.
        - rewrite <- app_assoc. apply Hvis.
        - intros [|] h2 t _; [apply inside_ret|].
          assert (Hl : forall n, In n (dl_names dl) -> in_listing w p (resolve_name p n)) by (intros; eapply listed_name; eauto).
          assert (Hin : In (EvOpen p) (((ctx ++ [EvLstat p (Some KDir)]) ++ [EvOpen p]) ++ t)) by (apply in_or_app; left; apply in_or_app; right; now left).
          revert Hin. generalize (((ctx ++ [EvLstat p (Some KDir)]) ++ [EvOpen p]) ++ t). clear body. induction (dl_names dl) as [|x l IHl]; intros c Hin; [apply inside_ret|].
          apply inside_bind.
          + assert (Hx : in_listing w p (resolve_name p x)) by (apply Hl; now left). apply IH; [left; right; right; now exists p|intros _; now exists p].
          + intros [|] h3 t3 _; [apply inside_ret|]. apply IHl; [intros; apply Hl; now right|apply in_or_app; now left]. }
      clearbody body. intro h2. destruct (Hb h2) as (r & t & Er & Ht). rewrite Er.
      assert (G : forall (r' : res bool) z, (forall q, ~ opening z q) -> exists r'' t', (r', z :: rev t ++ h2) = (r'', rev t' ++ h2) /\ always (may_open b' root) ((ctx ++ [EvLstat p (Some KDir)]) ++ [EvOpen p]) t').
      { intros r' z Hz. exists r', (t ++ [z]). rewrite rev_app_distr. split; [reflexivity|]. apply always_app; [exact Ht|]. apply always_cons; [now apply quiet_inside|apply always_nil]. }
      assert (Hc : forall y q, ~ opening (EvClose p y) q) by (intros ? ? [E|E]; discriminate).
      destruct r as [[|]|x]; unfold close_dir; [apply G, Hc| |apply G, Hc]. destruct (dl_fail dl).
      + exists (Throw (ExUncheckedIO WalkNext p)), (t ++ [EvIterFail p; EvClose p (w_close_ok w (EvIterFail p :: rev t ++ h2) p)]). rewrite rev_app_distr. split; [reflexivity|].
        apply always_app; [exact Ht|]. apply always_cons; [apply quiet_inside; intros ? [E|E]; discriminate|]. apply always_cons; [apply quiet_inside, Hc|apply always_nil].
      + destruct (w_close_ok w (rev t ++ h2) p) eqn:E; apply (G _ (EvClose p _)), Hc.
  Qed.

  Lemma around_if_included b (m : matcher) (inc : path -> bool) : looks_around w b m -> looks_around w b (fun q => if inc q then m q else ret false).
  Proof. intro H. apply around_spec. intros c ctx. destruct (inc c); [now apply around_spec|apply inside_ret]. Qed.

  Lemma descendants_inside b b' root ctx (m : matcher) n inc p : looks_around w b m -> allowed b' root ctx p -> inside b' root ctx (test_descendants p n m inc).
  Proof.
    intros Hm Hp. unfold test_descendants. apply inside_bind; [apply inside_has_kind|]. intros [|] h t _; [|apply inside_ret].
    cbn [negb]. eapply walk_inside; [now apply around_if_included|now apply allowed_more|discriminate].
  Qed.

  (** ** Matchers *)
  Lemma around_modest b A (f : path -> M A) : callback w f (modest w) (fun _ => True) -> looks_around w b f.
  Proof.
    intro H. apply around_spec. intros c ctx. apply inside_modest. intro h. destruct (H c h) as (r & t & Er & Ht & _). eauto.
  Qed.

  Lemma around_descendant m : (forall b, looks_around w true m -> looks_around w b (pm_any_descendant m)) /\ (forall b, looks_around w true m -> looks_around w b (pm_any_direct_child m)) /\
    (looks_around w true m -> looks_around w true (pm_sibling m)).
  Proof.
    split; [|split].
    - intros b H. apply around_spec. intros c ctx. eapply descendants_inside; [exact H|left; now left].
    - intros b H. apply around_spec. intros c ctx. eapply descendants_inside; [exact H|left; now left].
    - intro H. apply around_spec. intros c ctx. unfold pm_sibling. destruct (get_parent c) as [q|] eqn:E; [|apply inside_ret].
      eapply descendants_inside; [exact H|right; auto].
  Qed.

  Lemma around_not b m : looks_around w b m -> looks_around w b (pm_not m).
  Proof. intro H. apply around_spec. intros c ctx. apply inside_bind; [now apply around_spec|]. intros. apply inside_ret. Qed.

  Lemma around_then b A B (f : path -> M A) (g : A -> path -> M B) : looks_around w b f -> (forall a, looks_around w b (g a)) -> looks_around w b (fun p => a <- f p; g a p).
  Proof. intros Hf Hg. apply around_spec. intros c ctx. apply inside_bind; [now apply around_spec|]. intros. now apply around_spec. Qed.

  Lemma around_combined b ms md f : (forall m, In (Some m) ms -> looks_around w b m) -> combine_matchers ms md = Ok f -> looks_around w b f.
  Proof.
    intros H E. unfold combine_matchers in E. destruct (check_non_null ms) as [l|] eqn:El; [|discriminate].
    assert (Hl : Forall (looks_around w b) l).
    { clear E. revert l El. induction ms as [|[m|] ms IH]; intros l El; cbn in El; [injection El as <-; constructor| |discriminate].
      destruct (check_non_null ms) as [l'|]; [|discriminate]. injection El as <-. constructor; [apply H; now left|]. apply IH; [|reflexivity]. intros; apply H; now right. }
    assert (Hall : looks_around w b (pm_all l) /\ looks_around w b (pm_any l) /\ looks_around w b (pm_none l)).
    { clear E El. induction Hl as [|m l Hm Hl (H1 & H2 & H3)].
      - repeat split; apply around_spec; intros; apply inside_ret.
      - repeat split; apply around_spec; intros c ctx; cbn [pm_all pm_any pm_none]; (apply inside_bind; [now apply around_spec|]); intros [|] h t _; first [apply inside_ret|now apply around_spec]. }
    destruct l; [discriminate|]. injection E as <-. destruct md; apply Hall.
  Qed.

  Lemma around_limit b rules : Forall (looks_around w b) rules -> forall d, looks_around w b (limit_loop d rules).
  Proof.
    intro H. induction H as [|f rules Hf H IH]; intro d; apply around_spec; intros c ctx; cbn [limit_loop]; [apply inside_ret|].
    apply inside_bind; [now apply around_spec|]. intros z h t _. destruct (0 <=? z)%Z; [apply inside_ret|now apply around_spec].
  Qed.

  Lemma around_ext b rules : Forall (looks_around w b) rules -> forall d, looks_around w b (ext_loop d rules).
  Proof.
    intro H. induction H as [|f rules Hf H IH]; intro d; apply around_spec; intros c ctx; cbn [ext_loop]; [apply inside_ret|].
    apply inside_bind; [now apply around_spec|]. intros z h t _. destruct (is_some z); [apply inside_ret|now apply around_spec].
  Qed.

  Lemma inside_jvm b root ctx A (f : jvm -> M A) : (forall j, inside b root ctx (f j)) -> inside b root ctx (j <- get_jvm; f j).
  Proof. intros H h. exact (H (w_jvm w) h). Qed.

  Lemma around_emoji b be now : (forall m, In m (eb_dir_matchers now ++ eb_file_matchers now) -> looks_around w b (em_matcher m)) ->
    looks_around w b (built_emoji_apply be now).
  Proof.
    intro H.
    assert (Hm : forall l, (forall m, In m l -> looks_around w b (em_matcher m)) -> looks_around w b (path_matcher_emoji l)).
    { clear H. induction l as [|m l IH]; intro H; apply around_spec; intros c ctx; cbn [path_matcher_emoji]; [apply inside_ret|].
      apply inside_bind; [apply around_spec, H; now left|]. intros [|] h t _; [apply inside_ret|]. apply around_spec, IH. intros. apply H. now right. }
    assert (Hn : forall mp, looks_around w b (path_name_emoji mp)).
    { intro mp. apply around_spec. intros c ctx. unfold path_name_emoji. destruct (get_file_name c); [|apply inside_ret]. apply inside_jvm. intro. apply inside_ret. }
    assert (Hxt : forall mp, looks_around w b (path_extension_emoji mp)).
    { intro mp. apply around_spec. intros c ctx. unfold path_extension_emoji. destruct (get_file_name c); [|apply inside_ret]. apply inside_jvm. intro. apply inside_ret. }
    assert (Hs : forall l, Forall (looks_around w b) l -> looks_around w b (sequential_emoji l)).
    { intros l Hl. induction Hl as [|f l Hf Hl IH]; apply around_spec; intros c ctx; cbn [sequential_emoji]; [apply inside_ret|].
      apply inside_bind; [now apply around_spec|]. intros z h t _. destruct (is_some z); [apply inside_ret|now apply around_spec]. }
    apply around_spec. intros c ctx. unfold built_emoji_apply, default_emoji_mapping. apply inside_bind; [apply inside_has_kind|].
    intros [|] h t _; (apply inside_bind; [|intros; apply inside_ret]); apply around_spec, Hs; repeat constructor; auto;
      apply Hm; intros m Hin; apply H, in_or_app; auto.
  Qed.

  Lemma matchers_around b :
    (forall A (f : path -> M A), callback w f (modest w) (fun _ => True) -> looks_around w b f) /\
    (forall m, looks_around w true m -> looks_around w b (pm_any_descendant m) /\ looks_around w b (pm_any_direct_child m) /\ looks_around w true (pm_sibling m)) /\
    (forall m, looks_around w b m -> looks_around w b (pm_not m)) /\
    (forall i t e, looks_around w b i -> looks_around w b t -> looks_around w b e -> looks_around w b (pm_if_then_else i t e)) /\
    (forall ms f, (forall m, In (Some m) ms -> looks_around w b m) -> pm_all_of ms = Ok f \/ pm_any_of ms = Ok f \/ pm_none_of ms = Ok f -> looks_around w b f) /\
    (forall m limit, looks_around w b m -> looks_around w b (limit_rule m limit)) /\
    (forall d rules, Forall (looks_around w b) rules -> looks_around w b (limit_loop d rules)) /\
    (forall m ext, looks_around w b m -> looks_around w b (ext_rule m ext)) /\
    (forall d rules, Forall (looks_around w b) rules -> looks_around w b (ext_loop d rules)) /\
    (forall be now, (forall m, In m (eb_dir_matchers now ++ eb_file_matchers now) -> looks_around w b (em_matcher m)) -> looks_around w b (built_emoji_apply be now)).
  Proof.
    split; [apply around_modest|]. split; [intros m H; destruct (around_descendant m) as (H1 & H2 & H3); auto|]. split; [apply around_not|].
    split; [intros i t e H1 H2 H3; apply (around_then b bool bool i (fun x p => if x then t p else e p)); [exact H1|intros [|]; assumption]|].
    split; [intros ms f H [E|[E|E]]; eapply around_combined; eauto|].
    split; [intros m limit H; apply around_spec; intros c ctx; apply inside_bind; [now apply around_spec|intros; apply inside_ret]|].
    split; [intros; now apply around_limit|].
    split; [intros m ext H; apply around_spec; intros c ctx; apply inside_bind; [now apply around_spec|intros; apply inside_ret]|].
    split; [intros; now apply around_ext|apply around_emoji].
  Qed.

  (** ** Comparators *)
  Definition may_between (a b : path) (pre : trace) (ev : event) : Prop :=
    forall q, opening ev q -> tested pre q /\ (allowed true a pre q \/ allowed true b pre q).

  Definition between (a b : path) (ctx : trace) {A} (m : M A) : Prop := forall h, exists r t, m w h = (r, rev t ++ h) /\ always (may_between a b) ctx t.

  Lemma between_left a b ctx A (m : M A) : inside true a ctx m -> between a b ctx m.
  Proof.
    intros H h. destruct (H h) as (r & t & Er & Ht). exists r, t. split; [exact Er|]. intros t1 ev t2 Et q Hq. destruct (Ht t1 ev t2 Et q Hq). auto.
  Qed.

  Lemma between_swap a b ctx A (m : M A) : between a b ctx m -> between b a ctx m.
  Proof.
    intros H h. destruct (H h) as (r & t & Er & Ht). exists r, t. split; [exact Er|]. intros t1 ev t2 Et q Hq. destruct (Ht t1 ev t2 Et q Hq). tauto.
  Qed.

  Lemma between_bind a b ctx A B (m : M A) (f : A -> M B) : between a b ctx m ->
    (forall x h t, m w h = (Ok x, rev t ++ h) -> between a b (ctx ++ t) (f x)) -> between a b ctx (bind m f).
  Proof.
    intros Hm Hf h. destruct (Hm h) as (r & t & Er & Ht). unfold bind. rewrite Er. destruct r as [x|x]; [|exists (Throw x), t; auto].
    destruct (Hf x h t Er (rev t ++ h)) as (r' & t' & Er' & Ht'). exists r', (t ++ t'). rewrite Er', rev_app_distr, <- app_assoc.
    split; [reflexivity|now apply always_app].
  Qed.

  Lemma between_spec (f : comparator) : looks_between w f <-> forall a b ctx, between a b ctx (f a b).
  Proof.
    split.
    - intros H a b ctx h. destruct (H a b h) as (r & t & Er & Ht). exists r, t. split; [exact Er|].
      intros t1 ev t2 Et q Hq. destruct (Ht t1 ev t2 q Et Hq) as (H1 & H2). split; [now apply tested_more|]. unfold allowed, led.
      destruct H2 as [(c & [->| ->] & [->|H2])|[H2|(p & H2 & H3)]]; try tauto.
      + left. left. right. left. apply in_or_app. now right.
      + left. left. right. right. exists p. split; [exact H2|]. apply in_or_app. now right.
    - intros H a b h. destruct (H a b [] h) as (r & t & Er & Ht). exists r, t. split; [exact Er|]. intros t1 ev t2 q Et Hq.
      destruct (Ht t1 ev t2 Et q Hq) as (H1 & H2). split; [exact H1|]. unfold allowed, led in H2. cbn [app] in H2.
      destruct H2 as [[[->|[H2|H2]]|[_ H2]]|[[->|[H2|H2]]|[_ H2]]]; auto; left; eauto.
  Qed.

  Lemma between_children (f : comparator) root ctx d a b : looks_between w f -> in_listing w d a -> in_listing w d b -> In (EvOpen d) ctx ->
    inside false root ctx (f a b).
  Proof.
    intros H Ha Hb Hd h. destruct (proj1 (between_spec _) H a b ctx h) as (r & t & Er & Ht). exists r, t. split; [exact Er|].
    intros t1 ev t2 Et q Hq. destruct (Ht t1 ev t2 Et q Hq) as (H1 & H2). split; [exact H1|]. left.
    assert (Hd' : In (EvOpen d) (ctx ++ t1)) by (apply in_or_app; now left).
    assert (G : forall c, in_listing w d c -> allowed true c (ctx ++ t1) q -> led root (ctx ++ t1) q).
    { intros c Hc [[->|G]|[_ G]]; [right; right; now exists d|now right|]. destruct Hc as (n & h' & dl & -> & _). apply parent_child in G. subst q. right. now left. }
    destruct H2 as [H2|H2]; eauto.
  Qed.

  Lemma between_comparing key : looks_around w true key -> looks_between w (comparing key).
  Proof.
    intro H. apply between_spec. intros a b ctx. apply between_bind; [now apply between_left, around_spec|]. intros ka h t _.
    apply between_bind; [now apply between_swap, between_left, around_spec|]. intros. apply between_left, inside_ret.
  Qed.

  Lemma between_then c1 c2 : looks_between w c1 -> looks_between w c2 -> looks_between w (then_comparing c1 c2).
  Proof.
    intros H1 H2. apply between_spec. intros a b ctx. apply between_bind; [now apply between_spec|]. intros z h t _.
    destruct (z =? 0)%Z; [now apply between_spec|apply between_left, inside_ret].
  Qed.

  Lemma between_reversed c : looks_between w c -> looks_between w (reversed c).
  Proof. intro H. apply between_spec. intros a b ctx. apply between_swap. exact (proj1 (between_spec c) H b a ctx). Qed.

  Lemma between_modest (c : comparator) : (forall a, callback w (c a) (modest w) (fun _ => True)) -> looks_between w c.
  Proof.
    intro H. apply between_spec. intros a b ctx. apply between_left, inside_modest. intro h. destruct (H a b h) as (r & t & Er & Ht & _). eauto.
  Qed.

  Lemma between_alphabetical : looks_between w ALPHABETICAL.
  Proof. apply between_spec. intros. apply between_left, inside_ret. Qed.

  Lemma around_precedence rules : Forall (looks_around w true) rules -> looks_around w true (sort_precedence rules).
  Proof.
    intro H. unfold sort_precedence. generalize DEFAULT_PRECEDENCE at 1. induction H as [|f rules Hf _ IH]; intro z; apply around_spec; intros c ctx; [apply inside_ret|].
    cbn [sort_precedence_loop]. apply inside_bind; [now apply around_spec|]. intros x h t _. destruct (negb _); [apply inside_ret|]. now apply around_spec.
  Qed.

  (** The precedences that may be added to a builder. *)
  Definition op_around (op : sort_op) : Prop :=
    match op with SAdd f => looks_around w true f | SAddMatcher m _ | SAddFirst m | SAddLast m => looks_around w true m end.

  Lemma between_built ops : Forall op_around ops -> looks_between w (sort_build (fold_left sort_step ops [])).
  Proof.
    intro H. assert (G : forall rules, Forall (looks_around w true) rules -> Forall (looks_around w true) (fold_left sort_step ops rules)).
    { induction H as [|op ops Hop _ IH]; intros rules Hr; [exact Hr|]. apply IH.
      assert (Hm : forall (m : matcher) z, looks_around w true m -> looks_around w true (fun p => matches <- m p; ret (if matches then z else DEFAULT_PRECEDENCE))).
      { intros m z Hm. apply (around_then true bool Z m (fun x _ => ret (if x then z else DEFAULT_PRECEDENCE))); [exact Hm|]. intro x. apply around_spec. intros. apply inside_ret. }
      destruct op; cbn [sort_step]; unfold sort_add_matcher, sort_add; (apply Forall_app; split; [exact Hr|]; constructor; [|constructor]); auto; now apply Hm. }
    apply between_then; [|exact between_alphabetical]. apply between_comparing, around_precedence, G. constructor.
  Qed.

  Lemma comparators_between :
    (forall c : comparator, (forall a, callback w (c a) (modest w) (fun _ => True)) -> looks_between w c) /\
    (forall key, looks_around w true key -> looks_between w (comparing key)) /\
    (forall c1 c2, looks_between w c1 -> looks_between w c2 -> looks_between w (then_comparing c1 c2)) /\
    (forall c, looks_between w c -> looks_between w (reversed c)) /\
    (forall ops, (forall op, In op ops -> match op with SAdd f => looks_around w true f | SAddMatcher m _ | SAddFirst m | SAddLast m => looks_around w true m end) ->
       looks_between w (sort_build (fold_left sort_step ops []))).
  Proof.
    split; [exact between_modest|]. split; [exact between_comparing|]. split; [exact between_then|]. split; [exact between_reversed|].
    intros ops H. apply between_built. apply Forall_forall. exact H.
  Qed.

  (** ** Runs *)
  Section Run.
    Context (o : options).
    Hypothesis Hd : looks_around w true (o_dir_matcher o).
    Hypothesis Hf : looks_around w true (o_file_matcher o).
    Hypothesis Hl : looks_around w false (o_child_limit o).
    Hypothesis Ho : looks_between w (o_comparator o).

    Lemma filter_around : looks_around w true (path_filter o).
    Proof. apply (around_then true bool bool pm_is_directory (fun b p => if b then o_dir_matcher o p else o_file_matcher o p)).
      - apply around_spec. intros c ctx. apply inside_has_kind.
      - intros [|]; assumption.
    Qed.

    Lemma filterM_incl (f : matcher) : forall l h r h', filterM f l w h = (Ok r, h') -> incl r l.
    Proof.
      induction l as [|x l IH]; intros h r h' H; [injection H as <- _; intros ? []|].
      cbn [filterM] in H. apply bind_ok in H. destruct H as (b' & h1 & _ & H). apply bind_ok in H. destruct H as (r' & h2 & Hr & H).
      injection H as <- _. specialize (IH _ _ _ Hr). destruct b'; intros y Hy; [destruct Hy as [<-|Hy]; [now left|right; now apply IH]|right; now apply IH].
    Qed.

    Lemma handle_inside root fuel : forall d p ctx, led root ctx p -> inside false root ctx (handle fuel o d p (path_filter o)).
    Proof.
      assert (Hcut : forall d p ctx, inside false root ctx (e <- new_max_depth_entry d; ret (Some (EDir p [e])))).
      { intros d p ctx. unfold new_max_depth_entry. apply inside_bind; [destruct (d <? 0)%Z; [apply inside_throw|apply inside_ret]|]. intros. apply inside_ret. }
      assert (Hfile : forall p ctx, inside false root ctx (handle_file p)).
      { intros p ctx. apply inside_bind; [apply inside_stat|]. intros [k|] h t _; [apply inside_ret|apply inside_throw]. }
      induction fuel as [|fuel IH]; intros d p ctx Hp; cbn [handle]; (apply inside_bind; [apply inside_has_kind|]); intros [|] h t Hk; try apply Hfile;
        (destruct (o_max_depth o <=? d)%Z; [apply Hcut|]); [apply inside_throw|].
      apply has_kind_dir in Hk. subst t. apply inside_bind; [apply inside_open; [now exists ctx|left; now apply led_more]|].
      intros [dl|] h1 t Hop; [|apply inside_throw]. apply open_dir_opened in Hop. destruct Hop as [-> Hop].
      assert (Hin : In (EvOpen p) ((ctx ++ [EvLstat p (Some KDir)]) ++ [EvOpen p])) by (apply in_or_app; right; now left).
      assert (Hp' : led root ((ctx ++ [EvLstat p (Some KDir)]) ++ [EvOpen p]) p) by (right; now left).
      revert Hin Hp'. generalize ((ctx ++ [EvLstat p (Some KDir)]) ++ [EvOpen p]). clear ctx Hp h. intros ctx Hin Hp.
      assert (Hch : forall c, In c (map (resolve_name p) (dl_names dl)) -> in_listing w p c).
      { intros c Hc. apply in_map_iff in Hc. destruct Hc as (n & <- & Hn). eapply listed_name; eauto. }
      apply inside_bind; [|intros; apply inside_ret].
      assert (Hb : inside false root ctx (handle_directory_children o (fun c => handle fuel o (d + 1)%Z c (path_filter o)) p dl (path_filter o))).
      { unfold handle_directory_children. apply inside_bind; [now apply around_below|]. intros mc h2 t2 _.
        assert (Hin2 : In (EvOpen p) (ctx ++ t2)) by (apply in_or_app; now left). revert Hin2. generalize (ctx ++ t2). clear ctx Hin Hp. intros ctx Hin.
        apply inside_bind.
        - unfold stream_paths. apply inside_bind.
          + revert Hch ctx Hin. generalize (map (resolve_name p) (dl_names dl)). induction l as [|c l IHl]; intros Hch ctx Hin; cbn [filterM]; [apply inside_ret|].
            apply inside_bind; [eapply around_child; [exact filter_around|apply Hch; now left|exact Hin]|]. intros x h3 t3 _.
            apply inside_bind; [apply IHl; [intros; apply Hch; now right|apply in_or_app; now left]|]. intros. apply inside_ret.
          + intros l h3 t3 _. destruct (dl_fail dl); [|apply inside_ret]. apply inside_bind; [apply inside_iter_fail|]. intros. apply inside_throw.
        - intros un h3 t3 Hun. assert (Hsub : forall c, In c un -> in_listing w p c).
          { intros c Hc. apply Hch. unfold stream_paths in Hun. apply bind_ok in Hun. destruct Hun as (l & h4 & H1 & H2). destruct (dl_fail dl); [discriminate|].
            injection H2 as <- _. eapply filterM_incl; eauto. }
          assert (Hin2 : In (EvOpen p) (ctx ++ t3)) by (apply in_or_app; now left). revert Hin2. generalize (ctx ++ t3). clear ctx Hin Hun. intros ctx Hin.
          apply inside_bind.
          + unfold sorted. pose proof (tim_sort_holds un) as Hs. revert Hs. generalize (tim_sort un). intros s Hs. revert ctx Hin.
            induction s as [l'| | |a b k IHs]; intros ctx Hin; cbn [run_sorting]; [apply inside_ret|apply inside_throw..|]. destruct Hs as (Ha & Hb & Hs).
            apply inside_bind; [eapply between_children; [exact Ho|now apply Hsub|now apply Hsub|exact Hin]|]. intros z h4 t4 _. apply IHs; [now apply Hs|]. apply in_or_app. now left.
          + intros it h4 t4 Hit. apply sorted_perm in Hit.
            assert (Hit' : forall c, In c it -> in_listing w p c) by (intros c Hc; apply Hsub; eapply Permutation.Permutation_in; [apply Permutation.Permutation_sym; exact Hit|exact Hc]).
            assert (Hin2 : In (EvOpen p) (ctx ++ t4)) by (apply in_or_app; now left). revert Hin2. generalize (ctx ++ t4). clear ctx Hin Hit. intros ctx Hin.
            apply inside_bind; [|intros [es rest] ? ? _; apply inside_ret]. generalize (0 <=? mc)%Z as hl. intro hl. generalize (@nil entry) as acc. generalize 0%Z as count.
            revert ctx Hin. induction it as [|c it IHit]; intros ctx Hin count acc; cbn [children_loop]; [apply inside_ret|].
            destruct (hl && (mc <? count + 1)%Z); [apply inside_ret|].
            apply inside_bind; [apply IH; right; right; exists p; split; [apply Hit'; now left|exact Hin]|].
            intros e h5 t5 _. destruct e as [e|]; (apply IHit; [intros; apply Hit'; now right|apply in_or_app; now left]). }
      intro h2. destruct (Hb h2) as (r & t & Er & Ht). unfold with_close. rewrite Er.
      assert (G : forall (r' : res (list entry)) y, exists r'' t', (r', EvClose p y :: rev t ++ h2) = (r'', rev t' ++ h2) /\ always (may_open false root) ctx t').
      { intros r' y. exists r', (t ++ [EvClose p y]). rewrite rev_app_distr. split; [reflexivity|]. apply always_app; [exact Ht|].
        apply always_cons; [apply quiet_inside; intros ? [E|E]; discriminate|apply always_nil]. }
      unfold close_dir. destruct r as [es|x]; [destruct (w_close_ok w (rev t ++ h2) p)|]; apply G.
    Qed.

    (** ** The paths of the entries *)
    Definition grows (h h' : hist) : Prop := exists t, h' = rev t ++ h.
    Definition opened_between (h h' : hist) (p : path) : Prop := exists t, h' = rev t ++ h /\ In (EvOpen p) t.
    Definition found_between (h h' : hist) (q : path) : Prop := exists p, in_listing w p q /\ opened_between h h' p.

    Lemma grows_refl h : grows h h.
    Proof. now exists []. Qed.

    Lemma grows_trans h1 h2 h3 : grows h1 h2 -> grows h2 h3 -> grows h1 h3.
    Proof. intros (t & ->) (t' & ->). exists (t ++ t'). now rewrite rev_app_distr, app_assoc. Qed.

    Lemma found_wider h0 h h' h1 q : grows h0 h -> found_between h h' q -> grows h' h1 -> found_between h0 h1 q.
    Proof.
      intros (t0 & ->) (p & Hli & t & -> & Hin) (t1 & ->). exists p. split; [exact Hli|]. exists (t0 ++ t ++ t1).
      split; [now rewrite !rev_app_distr, <- !app_assoc|]. apply in_or_app. right. apply in_or_app. now left.
    Qed.

    Lemma inside_grows b root ctx A (m : M A) h r h' : inside b root ctx m -> m w h = (r, h') -> grows h h'.
    Proof. intros H E. destruct (H h) as (r' & t & Er & _). rewrite Er in E. injection E as _ <-. now exists t. Qed.

    Lemma sorted_grows l h r h' : sorted (o_comparator o) l w h = (r, h') -> grows h h'.
    Proof.
      unfold sorted. generalize (tim_sort l). intro s. revert h. induction s as [l'| | |a b k IHs]; intros h; cbn [run_sorting]; intro H; try (injection H as _ <-; apply grows_refl).
      unfold bind in H. destruct (Ho a b h) as (r1 & t & Er & _). rewrite Er in H. assert (G : grows h (rev t ++ h)) by now exists t.
      destruct r1 as [z|x]; [eapply grows_trans; [exact G|]; eapply IHs; exact H|injection H as _ <-; exact G].
    Qed.

    Lemma one_grows h ev : grows h (ev :: h).
    Proof. now exists [ev]. Qed.

    Lemma stream_grows p dl h r h' : (forall c, In c (map (resolve_name p) (dl_names dl)) -> in_listing w p c) ->
      stream_paths p dl (path_filter o) w h = (r, h') -> grows h h'.
    Proof.
      intros Hch. apply (inside_grows false p [EvOpen p]). unfold stream_paths. apply inside_bind.
      - assert (Hin : In (EvOpen p) [EvOpen p]) by now left. revert Hch Hin. generalize [EvOpen p] as ctx. generalize (map (resolve_name p) (dl_names dl)).
        induction l as [|c l IHl]; intros ctx Hch Hin; cbn [filterM]; [apply inside_ret|].
        apply inside_bind; [eapply around_child; [exact filter_around|apply Hch; now left|exact Hin]|]. intros x h3 t3 _.
        apply inside_bind; [apply IHl; [intros; apply Hch; now right|apply in_or_app; now left]|]. intros. apply inside_ret.
      - intros l h3 t3 _. destruct (dl_fail dl); [|apply inside_ret]. apply inside_bind; [apply inside_iter_fail|]. intros. apply inside_throw.
    Qed.

    Lemma handle_grows fuel d p h r h' : handle fuel o d p (path_filter o) w h = (r, h') -> grows h h'.
    Proof. apply (inside_grows false p []). apply handle_inside. now left. Qed.

    Lemma handle_paths fuel : forall d p h e h', handle fuel o d p (path_filter o) w h = (Ok (Some e), h') ->
      forall q, In q (entry_paths e) -> q = p \/ found_between h h' q.
    Proof.
      assert (Hcut : forall d p h e h' q, (x <- new_max_depth_entry d; ret (Some (EDir p [x]))) w h = (Ok (Some e), h') -> In q (entry_paths e) -> q = p).
      { intros d p h e h' q H Hq. unfold new_max_depth_entry in H. destruct (d <? 0)%Z; [discriminate|]. injection H as <- _. now destruct Hq as [<-|[]]. }
      assert (Hfile : forall p h e h' q, handle_file p w h = (Ok (Some e), h') -> In q (entry_paths e) -> q = p).
      { intros p h e h' q H Hq. unfold handle_file in H. apply bind_ok in H. destruct H as (k & h1 & _ & H). destruct k; [|discriminate].
        injection H as <- _. now destruct Hq as [<-|[]]. }
      induction fuel as [|fuel IH]; intros d p h e h' H q Hq; cbn [handle] in H; apply bind_ok in H; destruct H as (b & h1 & Hk & H);
        (destruct b; [|left; eapply Hfile; eauto]); (destruct (o_max_depth o <=? d)%Z; [left; eapply Hcut; eauto|]); [discriminate|].
      assert (G1 : grows h h1) by (eapply (inside_grows false p []); [apply inside_has_kind|exact Hk]).
      apply bind_ok in H. destruct H as (odl & h2 & Hop & H). destruct odl as [dl|]; [|discriminate].
      unfold open_dir in Hop. destruct (w_open w h1 p) as [dl'|] eqn:Eo; [|discriminate]. injection Hop as -> <-.
      apply bind_ok in H. destruct H as (es & h3 & Hw & H). injection H as <- <-.
      destruct Hq as [<-|Hq]; [now left|]. right.
      assert (Hch : forall c, In c (map (resolve_name p) (dl_names dl)) -> in_listing w p c).
      { intros c Hc. apply in_map_iff in Hc. destruct Hc as (n & <- & Hn). eapply listed_name; eauto. }
      unfold with_close in Hw. destruct (handle_directory_children _ _ _ _ _ w (EvOpen p :: h1)) as [[es'|x] h4] eqn:Hb; unfold close_dir in Hw; [|discriminate].
      destruct (w_close_ok w h4 p) eqn:Ec; [|discriminate]. injection Hw as -> <-.
      eapply found_wider; [exact G1| |apply one_grows].
      unfold handle_directory_children in Hb. apply bind_ok in Hb. destruct Hb as (mc & h5 & Hli & Hb).
      assert (G2 : grows (EvOpen p :: h1) h5) by (eapply (inside_grows false p []); [apply around_below; [exact Hl|now left]|exact Hli]).
      apply bind_ok in Hb. destruct Hb as (un & h6 & Hun & Hb). assert (G3 : grows h5 h6) by (eapply stream_grows; eauto).
      assert (Hsub : forall c, In c un -> in_listing w p c).
      { intros c Hc. apply Hch. unfold stream_paths in Hun. apply bind_ok in Hun. destruct Hun as (l & h7 & H1 & H2). destruct (dl_fail dl); [discriminate|].
        injection H2 as <- _. eapply filterM_incl; eauto. }
      apply bind_ok in Hb. destruct Hb as (it & h7 & Hit & Hb). assert (G4 : grows h6 h7) by (eapply sorted_grows; exact Hit).
      apply sorted_perm in Hit.
      assert (Hit' : forall c, In c it -> in_listing w p c) by (intros c Hc; apply Hsub; eapply Permutation.Permutation_in; [apply Permutation.Permutation_sym; exact Hit|exact Hc]).
      apply bind_ok in Hb. destruct Hb as ([es1 rest] & h8 & Hlo & Hb). injection Hb as <- <-.
      assert (G5 : grows (EvOpen p :: h1) h7) by (eapply grows_trans; [exact G2|]; eapply grows_trans; [exact G3|exact G4]).
      assert (Hes : In q (flat_map entry_paths es1)).
      { rewrite flat_map_app in Hq. apply in_app_or in Hq. destruct Hq as [Hq|Hq]; [exact Hq|]. destruct rest; [destruct Hq|]. destruct Hq. }
      assert (Hloop : forall it count acc h7 es1 rest h8 hl, (forall c, In c it -> in_listing w p c) -> grows (EvOpen p :: h1) h7 ->
        children_loop (fun c => handle fuel o (d + 1)%Z c (path_filter o)) hl mc count acc it w h7 = (Ok (es1, rest), h8) ->
        grows h7 h8 /\ forall q, In q (flat_map entry_paths es1) -> In q (flat_map entry_paths acc) \/ found_between h1 h8 q).
      { clear - IH Hd Hf Hl Ho. induction it as [|c it IHit]; intros count acc h7 es1 rest h8 hl Hit G E; cbn [children_loop] in E.
        - injection E as <- _ <-. split; [apply grows_refl|auto].
        - destruct (hl && (mc <? count + 1)%Z); [injection E as <- _ <-; split; [apply grows_refl|auto]|].
          apply bind_ok in E. destruct E as (e & h9 & Hh & E). assert (G9 : grows h7 h9) by (eapply handle_grows; exact Hh). destruct e as [e|].
          + apply IHit in E; [|intros; apply Hit; now right|eapply grows_trans; eauto]. destruct E as [Ga Hq]. split; [eapply grows_trans; eauto|].
            intros q Hin. destruct (Hq q Hin) as [Hin'|Hfo]; [|now right]. rewrite flat_map_app in Hin'. apply in_app_or in Hin'. destruct Hin' as [Hin'|Hin']; [now left|].
            right. cbn in Hin'. rewrite app_nil_r in Hin'. destruct (IH _ _ _ _ _ Hh q Hin') as [->|Hfo].
            * exists p. split; [apply Hit; now left|]. destruct G as (t & ->). destruct G9 as (t9 & ->). destruct Ga as (ta & ->).
              exists ([EvOpen p] ++ t ++ t9 ++ ta). split; [now rewrite !rev_app_distr, <- !app_assoc|now left].
            * eapply found_wider; [eapply grows_trans; [apply one_grows|exact G]|exact Hfo|exact Ga].
          + exfalso. eapply handle_not_none. exact Hh. }
      destruct (Hloop _ _ _ _ _ _ _ _ Hit' G5 Hlo) as [_ Hq']. destruct (Hq' q Hes) as [[]|Hfo]. exact Hfo.
    Qed.

    Hypothesis He : looks_around w false (o_emoji o).
    Hypothesis Hx : match o_line_extension o with Some f => looks_around w false f | None => True end.

    (** ** Rendering *)
    Section Rendering.
      Context (root : path) (all : list path).

      Definition led_all (ctx : trace) : Prop := forall q, In q all -> led root ctx q.
      Definition drawn {A} (m : M A) : Prop := forall ctx, led_all ctx -> inside false root ctx m.

      Lemma drawn_ret A (a : A) : drawn (ret a).
      Proof. intros ctx _. apply inside_ret. Qed.

      Lemma drawn_throw A x : drawn (@throw A x).
      Proof. intros ctx _. apply inside_throw. Qed.

      Lemma drawn_bind A B (m : M A) (f : A -> M B) : drawn m -> (forall a, drawn (f a)) -> drawn (bind m f).
      Proof. intros Hm Hb ctx Hc. apply inside_bind; [now apply Hm|]. intros a h t _. apply Hb. intros q Hq. apply led_more. now apply Hc. Qed.

      Lemma drawn_emoji p : In p all -> drawn (lr_emoji (line_renderer_create o) p).
      Proof. intros Hp ctx Hc. apply around_below; [exact He|now apply Hc]. Qed.

      Lemma drawn_ext p : In p all -> drawn (compute_line_extension o p).
      Proof.
        intros Hp ctx Hc. unfold compute_line_extension. destruct (o_line_extension o) as [f|]; [|apply inside_ret]. apply around_below; [exact Hx|now apply Hc].
      Qed.

      Lemma drawn_mapM A B (f : A -> M B) l : (forall a, drawn (f a)) -> drawn (mapM f l).
      Proof. intro H. induction l as [|a l IH]; cbn [mapM]; [apply drawn_ret|]. apply drawn_bind; [apply H|]. intro. apply drawn_bind; [exact IH|]. intro. apply drawn_ret. Qed.

      Lemma drawn_prefix p : In p all -> drawn (emoji_prefix (lr_emoji (line_renderer_create o)) p).
      Proof. intro Hp. unfold emoji_prefix. apply drawn_bind; [now apply drawn_emoji|]. intro. apply drawn_ret. Qed.

      Lemma drawn_entry e : incl (entry_paths e) all -> forall d cp, drawn (render_entry o (line_renderer_create o) e d cp).
      Proof.
        induction e as [dir es IH|f k|dd|n] using entry_ind'; intros Hi d cp; cbn [render_entry]; try apply drawn_ret.
        - assert (Hdir : In dir all) by (apply Hi; now left).
          assert (IH' : Forall (fun e => forall d cp, drawn (render_entry o (line_renderer_create o) e d cp)) es).
          { rewrite Forall_forall in *. intros c Hc. apply IH; [exact Hc|]. intros q Hq. apply Hi. right. apply in_flat_map. eauto. }
          assert (Hfin : forall ev : option (option jstring), drawn
            (line <- render_directory_begin (line_renderer_create o) d dir cp;
             ext <- match ev with Some x => ret x | None => compute_line_extension o dir end;
             (let line := line ++ or_empty ext in
              let line := match es with [] => line | _ => line ++ [c_nl] end in
              children <- render_children (fun c cd => render_entry o (line_renderer_create o) c cd (initial_compact_paths c)) d es;
              ret (line ++ children)))).
          { intro ev. apply drawn_bind.
            - unfold render_directory_begin, format_directory_begin. apply drawn_bind; [now apply drawn_prefix|]. intro. apply drawn_bind; [|intro; apply drawn_ret].
              apply drawn_bind; [|intro; apply drawn_ret]. apply drawn_mapM. intro x. unfold dir_label. destruct (get_file_name x); [apply drawn_ret|apply drawn_throw].
            - intro line. apply drawn_bind; [destruct ev; [apply drawn_ret|now apply drawn_ext]|]. intro ext. cbn zeta. apply drawn_bind; [|intro; apply drawn_ret].
              clear -IH'. induction IH' as [|c es Hc Hes IHes]; [apply drawn_ret|].
              destruct es as [|c' es]; [apply Hc|]. simpl in *. apply drawn_bind; [apply Hc|]. intro. apply drawn_bind; [exact IHes|]. intro. apply drawn_ret. }
          destruct es as [|c es]; [apply (Hfin None)|].
          destruct es as [|c' es]; [|destruct c; apply (Hfin None)].
          destruct c as [cd ces|f k|sd|n]; try apply (Hfin None).
          destruct (o_compact o && negb (depth_is_root d)); [|apply (Hfin None)].
          apply drawn_bind; [now apply drawn_ext|]. intros [x|]; [apply (Hfin (Some (Some x)))|].
          inversion IH' as [|a b Hc _]; subst. apply Hc.
        - assert (Hfi : In f all) by (apply Hi; now left). unfold render_file, render_file_line.
          apply drawn_bind; [|intro; apply drawn_bind; [now apply drawn_ext|intro; apply drawn_ret]].
          apply drawn_bind; [now apply drawn_prefix|]. intro. apply drawn_bind; [|intro; apply drawn_ret]. unfold format_file. destruct (get_file_name f); [apply drawn_ret|apply drawn_throw].
      Qed.
    End Rendering.

    Lemma print_inside p h : exists r t, pretty_print o p w h = (r, rev t ++ h) /\ always (may_open false (location w p)) [] t.
    Proof.
      rewrite scan_unfold. destruct (handle_inside (location w p) (Z.to_nat (o_max_depth o)) 0%Z (location w p) [] ltac:(now left) h) as (r & t & Hr & HC).
      destruct r as [[e|]|x].
      - assert (Hall : led_all (location w p) (entry_paths e) t).
        { intros q Hq. destruct (handle_paths _ _ _ _ _ _ Hr q Hq) as [->|(p' & Hin & t' & Et & Hop)]; [now left|]. right. right. exists p'. split; [exact Hin|].
          apply app_inv_tail in Et. apply (f_equal (@rev _)) in Et. rewrite !rev_involutive in Et. now subst t'. }
        destruct (drawn_entry (location w p) (entry_paths e) e (incl_refl _) [] (initial_compact_paths e) t Hall (rev t ++ h)) as (r' & t' & Hr' & HK).
        exists r', (t ++ t'). split; [eapply runs_bind_ok; eauto|]. now apply always_app.
      - exfalso. eapply handle_not_none. exact Hr.
      - exists (Throw x), t. split; [now apply runs_bind_throw|exact HC].
    Qed.
  End Run.
End Around.

Section Moving.
Variables (vol : hist -> node) (j : jvm).
Hypothesis Hwf : forall h, well_formed (vol h).
Let w := moving_world vol j.

Lemma opened_around o p h l :
  looks_around w true (o_dir_matcher o) -> looks_around w true (o_file_matcher o) -> looks_around w false (o_child_limit o) ->
  looks_between w (o_comparator o) -> looks_around w false (o_emoji o) ->
  match o_line_extension o with Some f => looks_around w false f | None => True end -> honest_callbacks w o ->
  (forall t, place (vol (t ++ h)) false (jv_cwd j) (location w p) = Some l) ->
  (forall t1 t2 ns, folder_at (vol (t1 ++ h)) (l ++ ns) -> forall x, node_at (vol (t2 ++ t1 ++ h)) (l ++ ns) <> Some (NLink x)) ->
  exists r t, pretty_print o p w h = (r, rev t ++ h) /\
    forall t1 ev t2 q, t = t1 ++ ev :: t2 -> opening ev q ->
      exists ns, q = deeper (location w p) ns /\
        (forall r, place (vol (rev t1 ++ h)) true (jv_cwd j) q = Some r -> r = l ++ ns) /\
        (ev = EvOpen q -> folder_at (vol (rev t1 ++ h)) (l ++ ns)).
Proof.
  intros Hd Hf Hli Ho He Hx Hh Hl Hno. destruct (print_honest w o Hh p h) as (r & t & Er & Ht).
  destruct (print_inside w o Hd Hf Hli Ho He Hx p h) as (r1 & t' & Er1 & Hled).
  assert (t' = t) as ->. { rewrite Er in Er1. injection Er1 as _ Et. apply app_inv_tail in Et. apply (f_equal (@rev _)) in Et. now rewrite !rev_involutive in Et. }
  exists r, t. split; [exact Er|]. clear Er Er1 r1.
  destruct (location w p) as [la N] eqn:EL. assert (la = true) as ->.
  { unfold location in EL. apply (f_equal p_abs) in EL. cbn in EL. rewrite <- EL. unfold to_absolute. now destruct (p_abs p) eqn:Ep. }
  assert (Hat : forall ns, p_names (to_absolute (jv_cwd j) (deeper (mkPath true N) ns)) = N ++ ns) by reflexivity.
  assert (Key : forall n t1 ev t2 q, length t1 <= n -> t = t1 ++ ev :: t2 -> opening ev q ->
    exists ns, q = deeper (mkPath true N) ns /\ Forall plain ns /\
      forall a b, ns = a ++ b -> exists u v, t1 = u ++ v /\ folder_at (vol (rev u ++ h)) (l ++ a)).
  { induction n as [n IH] using lt_wf_ind. intros t1 ev t2 q Hn Et Hop. destruct (Hled t1 ev t2 Et q Hop) as ((t0 & E0) & Hq). cbn [app] in E0, Hq.
    assert (Hk : w_lstat w (rev t0 ++ h) q = Some KDir).
    { apply (Ht t0 (EvLstat q (Some KDir)) (ev :: t2)). rewrite Et, E0, <- app_assoc. reflexivity. }
    assert (Hfound : exists m, place (vol (rev t0 ++ h)) false (jv_cwd j) q = Some m /\ folder_at (vol (rev t0 ++ h)) m).
    { cbn in Hk. destruct (found (vol (rev t0 ++ h)) false (jv_cwd j) q) as [[z|b es|tg|]|] eqn:Ef; try discriminate.
      unfold found, opt_bind in Ef. destruct (place _ _ _ q) as [m|]; [|discriminate]. exists m. split; [reflexivity|]. now exists b, es. }
    destruct Hfound as (m & Hm & Hfm).
    destruct Hq as [[->|[Hin|(p' & Hdel & Hin)]]|[Hq _]]; [| | |discriminate Hq].
    - exists []. split; [unfold deeper; cbn; now rewrite app_nil_r|]. split; [constructor|]. intros a b E. destruct a; [|discriminate]. rewrite app_nil_r.
      rewrite Hl in Hm. injection Hm as <-. exists t0, [EvLstat (mkPath true N) (Some KDir)]. auto.
    - apply in_split in Hin as (s1 & s2 & Es).
      destruct (IH (length s1)) with (t1 := s1) (ev := EvOpen q) (t2 := s2 ++ ev :: t2) (q := q) as (ns & -> & Hns & Hpre).
      { rewrite Es in Hn. rewrite app_length in Hn. cbn in Hn. lia. }
      { lia. }
      { rewrite Et, Es, <- app_assoc. reflexivity. }
      { now left. }
      exists ns. split; [reflexivity|]. split; [exact Hns|]. intros a b E. destruct (Hpre a b E) as (u & v & -> & Hfo).
      exists u, (v ++ EvOpen (deeper (mkPath true N) ns) :: s2). split; [rewrite Es, <- app_assoc; reflexivity|exact Hfo].
    - destruct (delivered_plain vol j Hwf p' q Hdel) as (c & -> & Hcp). apply in_split in Hin as (s1 & s2 & Es).
      assert (Hs : t0 ++ [EvLstat (child p' c) (Some KDir)] = s1 ++ EvOpen p' :: s2) by congruence.
      destruct (app_last_split _ _ s1 (EvOpen p' :: s2) Hs ltac:(discriminate)) as (v0 & -> & Ev0).
      destruct (IH (length s1)) with (t1 := s1) (ev := EvOpen p') (t2 := s2 ++ ev :: t2) (q := p') as (ns & -> & Hns & Hpre).
      { rewrite Es in Hn. rewrite app_length in Hn. cbn in Hn. lia. }
      { lia. }
      { rewrite Et, Es, <- app_assoc. reflexivity. }
      { now left. }
      assert (Hpl : Forall plain (ns ++ [c])) by (apply Forall_app; split; [exact Hns|constructor; [exact Hcp|constructor]]).
      assert (Hq : child (deeper (mkPath true N) ns) c = deeper (mkPath true N) (ns ++ [c])) by (unfold child, deeper; cbn; now rewrite app_assoc).
      rewrite Hq in *. exists (ns ++ [c]). split; [reflexivity|]. split; [exact Hpl|].
      assert (Em : m = l ++ ns ++ [c]).
      { unfold place in Hm. rewrite Hat in Hm. eapply (search_below (vol (rev (s1 ++ v0) ++ h)) (Hwf _) max_links false N l); [|exact Hpl| |exact Hm].
        - specialize (Hl (rev (s1 ++ v0))). exact Hl.
        - intros a b E [Hb|Hb]; [|discriminate]. intros x.
          destruct (exists_last Hb) as (b' & y & ->). rewrite app_assoc in E. apply app_inj_tail in E as [E _].
          destruct (Hpre a b' E) as (u & v & Eu & Hfo). subst s1.
          rewrite !rev_app_distr, <- !app_assoc. rewrite (app_assoc (rev v0)). now apply Hno. }
      intros a b E. destruct (list_end b) as [->|(b' & y & ->)].
      + rewrite app_nil_r in E. subst a. rewrite <- Em. exists (s1 ++ v0), [EvLstat (deeper (mkPath true N) (ns ++ [c])) (Some KDir)]. split; [exact E0|exact Hfm].
      + rewrite app_assoc in E. apply app_inj_tail in E as [E _]. destruct (Hpre a b' E) as (u & v & -> & Hfo).
        exists u, (v ++ EvOpen (deeper (mkPath true N) ns) :: s2). split; [rewrite Es, <- app_assoc; reflexivity|exact Hfo]. }
  intros t1 ev t2 q Et Hop. destruct (Key _ t1 ev t2 q (le_n _) Et Hop) as (ns & -> & Hns & Hpre).
  assert (Hr : forall r, place (vol (rev t1 ++ h)) true (jv_cwd j) (deeper (mkPath true N) ns) = Some r -> r = l ++ ns).
  { intros r' Hr. unfold place in Hr. rewrite Hat in Hr. eapply (search_below (vol (rev t1 ++ h)) (Hwf _) max_links true N l); [|exact Hns| |exact Hr].
    - specialize (Hl (rev t1)). exact Hl.
    - intros a b E _ x. destruct (Hpre a b E) as (u & v & -> & Hfo). rewrite rev_app_distr, <- app_assoc. now apply Hno. }
  exists ns. split; [reflexivity|]. split; [exact Hr|]. intros ->.
  specialize (Ht t1 _ t2 Et). cbn in Ht.
  destruct (found (vol (rev t1 ++ h)) true (jv_cwd j) (deeper (mkPath true N) ns)) as [[z|b es|tg|]|] eqn:Ef; try (now destruct Ht).
  unfold found, opt_bind in Ef. destruct (place (vol (rev t1 ++ h)) true (jv_cwd j) (deeper (mkPath true N) ns)) as [m|]; [|discriminate].
  rewrite <- (Hr m eq_refl). now exists b, es.
Qed.
End Moving.
