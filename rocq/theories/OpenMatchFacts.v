(** * Proofs for C134: the directory streams that matchers hold *)

From Verif Require Import SpecHist SpecScan SpecMatch SpecOpen TraceFacts RunFacts MatcherFacts OpenFacts.
From Coq Require Import Lia.
Open Scope nat_scope.

Definition few (b : nat) (l : list path) : Prop := length l <= b.

Lemma calmly_at_most c t : calmly (few c) t -> at_most_open c t.
Proof. intros [B M]. split; [exact B|]. intros t1 t2 E. destruct (M t1 t2 E []) as (l & El & Hl). rewrite El, app_nil_r. exact Hl. Qed.

Section Walks.
  Context (w : world) (c : nat) (E : exn -> Prop).
  Hypothesis EIO : forall x, walk_failure x -> E x.

  Definition calm_at {A} (b : nat) (m : M A) : Prop := calm w (fun _ t => calmly (few (b + c)) t) E m.

  Lemma at_ret {A} b (a : A) : calm_at b (ret a).
  Proof. apply calm_ret. intros _. apply calmly_nil. unfold few. cbn. lia. Qed.

  Lemma at_throw {A} b x : walk_failure x -> calm_at b (@throw A x).
  Proof. intro Hx. apply calm_throw; [|now apply EIO]. intros _. apply calmly_nil. unfold few. cbn. lia. Qed.

  Lemma at_bind {A B} b (m : M A) (f : A -> M B) : calm_at b m -> (forall a, calm_at b (f a)) -> calm_at b (bind m f).
  Proof. apply calm_bind. intros _ t t'. apply calmly_app. Qed.

  Lemma at_weaken {A} b b' (m : M A) : b <= b' -> calm_at b m -> calm_at b' m.
  Proof.
    intros Hb Hm h. destruct (Hm h) as (r & t & Hr & HK & HE). exists r, t. split; [exact Hr|]. split; [|exact HE].
    eapply calmly_weaken; [|exact HK]. unfold few. intros l Hl. lia.
  Qed.

  Lemma one_event b ev : (forall p, ev <> EvOpen p) -> (forall p ok, ev <> EvClose p ok) -> calmly (few b) [ev].
  Proof. apply calmly_one. unfold few. cbn. lia. Qed.

  Lemma at_lstat b p : calm_at b (lstat p).
  Proof. apply calm_lstat. intros h q. apply one_event; discriminate. Qed.

  Lemma at_walk visit : (forall p, calm_at 0 (visit p)) -> forall n b skip p, n <= b \/ levels w b p -> calm_at b (walk n skip visit p).
  Proof.
    intros Hv. induction n as [|n IH]; intros b skip p Hb; cbn [walk].
    - apply at_bind; [apply at_lstat|]. intros [k|]; [|apply at_throw; walk_failure_now]. destruct skip; [apply at_ret|]. apply (at_weaken 0); [lia|apply Hv].
    - intro h. unfold bind at 1, lstat at 1. unfold runs.
      assert (Hvp : forall b, calm_at b (if skip then ret false else visit p)).
      { intro b'. destruct skip; [apply at_ret|]. apply (at_weaken 0); [lia|apply Hv]. }
      assert (Hfst : forall A b (m : M A), calm_at b m -> exists r t, m w (EvLstat p (w_lstat w h p) :: h) = (r, rev t ++ h) /\
        calmly (few (b + c)) t /\ (forall x, r = Throw x -> E x)).
      { intros A b' m Hm. destruct (Hm (EvLstat p (w_lstat w h p) :: h)) as (r & t & Hr & HK & HE).
        exists r, (EvLstat p (w_lstat w h p) :: t). split; [|split; [|exact HE]].
        - unfold runs in Hr. rewrite Hr. cbn [rev]. now rewrite <- app_assoc.
        - apply (calmly_app _ [_] t); [apply one_event; discriminate|exact HK]. }
      destruct (w_lstat w h p) as [k|] eqn:Ek; [|apply Hfst, at_throw; walk_failure_now].
      destruct (kind_eqb k KDir) eqn:Ed; [|apply Hfst, Hvp]. apply Hfst. clear Hfst.
      assert (Hpos : exists b', b = S b' /\ forall h dl x, w_open w h p = Some dl -> In x (dl_names dl) -> n <= b' \/ levels w b' (resolve_name p x)).
      { destruct Hb as [Hb|Hb].
        - destruct b as [|b']; [lia|]. exists b'. split; [reflexivity|]. intros. left. lia.
        - destruct Hb as [b p Hp|b' p Hp].
          + destruct (Hp h). destruct k; cbn in Ed; try discriminate. exact Ek.
          + exists b'. split; [reflexivity|]. intros h0 dl x Ho Hx. right. exact (Hp h0 dl x Ho Hx). }
      destruct Hpos as (b' & -> & Hc). clear h Ek Ed.
      intro h.
      set (each := fix each (l : list jstring) : M bool := match l with [] => ret false
         | x :: l' => s <- walk n false visit (resolve_name p x); if s then ret true else each l' end).
      assert (Heach : forall l, (forall x, In x l -> n <= b' \/ levels w b' (resolve_name p x)) -> calm_at b' (each l)).
      { induction l as [|x l IHl]; intro Hl; cbn [each]; [apply at_ret|]. apply at_bind; [apply IH, Hl; now left|].
        intros []; [apply at_ret|]. apply IHl. intros y Hy. apply Hl. now right. }
      assert (Hbody : forall h dl, w_open w h p = Some dl -> calm_at b' (b <- (if skip then ret false else visit p); if b then ret true else each (dl_names dl))).
      { intros h0 dl Ho. apply at_bind; [apply Hvp|]. intros []; [apply at_ret|]. apply Heach. intros x Hx. exact (Hc h0 dl x Ho Hx). }
      assert (Hwrap : forall t ok, calmly (few (b' + c)) t -> calmly (few (S b' + c)) (EvOpen p :: t ++ [EvClose p ok])).
      { intros t ok. apply calmly_wrap; unfold few; [cbn; lia|]. intros l Hl. rewrite app_length. cbn. lia. }
      unfold runs, bind at 1, open_dir. destruct (w_open w h p) as [dl|] eqn:Eo.
      + destruct (Hbody h dl Eo (EvOpen p :: h)) as (r & t & Hr & HK & HE). unfold runs in Hr.
        fold each. cbv zeta. rewrite Hr. destruct r as [[|]|x].
        * unfold close_dir. exists (Ok true), (EvOpen p :: t ++ [EvClose p (w_close_ok w (rev t ++ EvOpen p :: h) p)]).
          split; [|split; [now apply Hwrap|discriminate]]. cbn [rev]. rewrite rev_app_distr. cbn. now rewrite <- app_assoc.
        * unfold close_dir. destruct (dl_fail dl).
          -- eexists (Throw _), (EvOpen p :: (t ++ [EvIterFail p]) ++ [EvClose p (w_close_ok w (rev (t ++ [EvIterFail p]) ++ EvOpen p :: h) p)]).
             split; [|split; [apply Hwrap, calmly_app; [exact HK|apply one_event; discriminate]|]].
             ++ cbn [rev]. rewrite !rev_app_distr. cbn. rewrite <- app_assoc. cbn. reflexivity.
             ++ intros y Ey. injection Ey as <-. apply EIO. walk_failure_now.
          -- pose proof (Hwrap t (w_close_ok w (rev t ++ EvOpen p :: h) p) HK) as Hw. destruct (w_close_ok w (rev t ++ EvOpen p :: h) p) eqn:Ec.
             ++ exists (Ok false), (EvOpen p :: t ++ [EvClose p true]). split; [|split; [exact Hw|discriminate]].
                cbn [rev]. rewrite rev_app_distr. cbn. now rewrite <- app_assoc.
             ++ exists (Throw (ExUncheckedIO WalkNext p)), (EvOpen p :: t ++ [EvClose p false]). split; [|split; [exact Hw|]].
                ** cbn [rev]. rewrite rev_app_distr. cbn. now rewrite <- app_assoc.
                ** intros y Ey. injection Ey as <-. apply EIO. walk_failure_now.
        * unfold close_dir. eexists (Throw x), (EvOpen p :: t ++ [EvClose p _]). split; [|split; [now apply Hwrap|exact HE]].
          cbn [rev]. rewrite rev_app_distr. cbn. rewrite <- app_assoc. reflexivity.
      + exists (Throw (ExUncheckedIO (if skip then WalkStart else WalkNext) p)), [EvOpenFail p]. split; [reflexivity|]. split; [apply one_event; discriminate|].
        intros y Ey. injection Ey as <-. apply EIO. walk_failure_now.
  Qed.

  Lemma at_test z m incl p b : (forall q, calm_at 0 (m q)) -> (z <= Z.of_nat b)%Z \/ levels w b p -> calm_at b (test_descendants p z m incl).
  Proof.
    intros Hm Hb. unfold test_descendants. apply at_bind.
    - apply at_bind; [apply at_lstat|intro; apply at_ret].
    - intros []; cbn [negb]; [|apply at_ret]. apply at_walk.
      + intro q. destruct (incl q); [apply Hm|apply at_ret].
      + destruct Hb; [left; lia|now right].
  Qed.
End Walks.

Definition or_io (E : exn -> Prop) (x : exn) : Prop := E x \/ walk_failure x.

Lemma callback_calm w (m : matcher) c E : callback w m (at_most_open c) E -> forall p, calm_at w c (or_io E) 0 (m p).
Proof.
  intros H p h. destruct (H p h) as (r & t & Er & HK & HE). exists r, t. split; [exact Er|]. split; [now apply at_most_calmly|].
  intros x Hx. left. now apply HE.
Qed.

Lemma calm_callback w c E b (m : M bool) : calm_at w c E b m -> forall h, exists r t, m w h = (r, rev t ++ h) /\ at_most_open (b + c) t /\ (forall x, r = Throw x -> E x).
Proof. intros H h. destruct (H h) as (r & t & Er & HK & HE). exists r, t. split; [exact Er|]. split; [now apply calmly_at_most|exact HE]. Qed.

Lemma or_io_io E x : walk_failure x -> or_io E x.
Proof. now right. Qed.

Lemma C134_one_lemma : forall w m c E, callback w m (at_most_open c) E ->
  callback w (pm_any_direct_child m) (at_most_open (S c)) (fun x => E x \/ walk_failure x) /\
  callback w (pm_sibling m) (at_most_open (S c)) (fun x => E x \/ walk_failure x).
Proof.
  intros w m c E H. pose proof (callback_calm _ _ _ _ H) as Hc. split; intro p; apply (calm_callback w c (or_io E) 1).
  - apply at_test; [apply or_io_io|exact Hc|left; lia].
  - unfold pm_sibling. destruct (get_parent p); [|apply at_ret]. apply at_test; [apply or_io_io|exact Hc|left; lia].
Qed.

Lemma C134_descendants_lemma : forall w m c E k p h, callback w m (at_most_open c) E -> levels w k p ->
  exists r t, pm_any_descendant m p w h = (r, rev t ++ h) /\ at_most_open (k + c) t /\
              (forall x, r = Throw x -> E x \/ walk_failure x).
Proof.
  intros w m c E k p h H L. apply (calm_callback w c (or_io E) k). apply at_test; [apply or_io_io|exact (callback_calm _ _ _ _ H)|now right].
Qed.

Lemma C134_others_lemma : forall w (base : matcher -> Prop) (E : exn -> Prop) c m,
  (forall b, base b -> callback w b (at_most_open c) E) -> assembled w false base m -> callback w m (at_most_open c) E.
Proof.
  intros w base E c m Hb Hm p h.
  assert (X : exists r t, runs w (m p) h r t /\ calmly (few c) t /\ (forall x, r = Throw x -> E x)).
  { refine (calm_assembled w false (fun _ t => calmly (few c) t) _ _ _ _ _ _ _ _ base m _ Hm p h); try discriminate.
    - intros _. apply calmly_nil. unfold few. cbn. lia.
    - intros _. apply calmly_app.
    - intros h0 q. apply one_event; discriminate.
    - intros b Hbb q h0. destruct (Hb b Hbb q h0) as (r & t & Er & HK & HE). exists r, t. split; [exact Er|]. split; [now apply at_most_calmly|exact HE]. }
  destruct X as (r & t & Er & HK & HE). exists r, t. split; [exact Er|]. split; [now apply calmly_at_most|exact HE].
Qed.
