(** * Failing runs *)

From Verif Require Import SpecFail RenderFacts ScanFacts PathFacts TreeFacts TraceFacts PrintFacts ShownFacts RunFacts ScanPrintFacts SortFacts AccessFacts MatcherFacts.
Open Scope Z_scope.

Ltac not_failed := intros ? [?|[?|[?|?]]]; discriminate.

Section Fail.
  Context (w : world) (o : options) (K : trace -> Prop) (E : exn -> Prop).

  Lemma unfailing_app t t' : unfailing K t -> unfailing K t' -> unfailing K (t ++ t').
  Proof. intros H H' ev q Hin Hf. apply in_app_or in Hin. destruct Hin; eauto. Qed.

  Lemma unfailing_nil : unfailing K [].
  Proof. intros ev q []. Qed.

  Lemma unfailing_one ev : (forall q, ~ failed ev q) -> unfailing K [ev].
  Proof. intros H ev' q [<-|[]] Hf. now destruct (H q). Qed.

  Lemma unfailing_cb t : K t -> unfailing K t.
  Proof. intros H ev q Hin _. now exists t. Qed.

  Lemma unfailing_lstat h p : unfailing K [EvLstat p (w_lstat w h p)].
  Proof. apply unfailing_one; not_failed. Qed.

  (** The file system answered so. *)
  Definition cause (q : path) (ev : event) : Prop :=
    exists h h', match ev with
                 | EvStat _ _ => w_stat w h q = None /\ w_lstat w h' q <> Some KDir
                 | EvOpenFail _ => w_open w h q = None /\ w_lstat w h' q = Some KDir
                 | EvClose _ _ => w_close_ok w h q = false
                 | EvIterFail _ => exists dl, w_open w h q = Some dl /\ dl_fail dl = true
                 | _ => False
                 end.

  (** A run for [p] at depth [d] that fallen with [x]. *)
  Definition fallen (d : Z) (p : path) (x : exn) (t : trace) : Prop :=
    exists q ev t1 t2 ns, t = t1 ++ ev :: t2 /\ reports x q ev /\ unfailing K t1 /\ Forall is_close t2 /\
      q = mkPath (p_abs p) (p_names p ++ ns) /\ d + Z.of_nat (length ns) <= Z.max d (o_max_depth o) /\ cause q ev.

  Lemma fallen_after d p x t t' : unfailing K t -> fallen d p x t' -> fallen d p x (t ++ t').
  Proof.
    intros H (q & ev & t1 & t2 & ns & -> & H1 & H2 & H3 & H4 & H5 & H7). exists q, ev, (t ++ t1), t2, ns.
    split; [now rewrite app_assoc|]. split; [exact H1|]. split; [now apply unfailing_app|auto].
  Qed.

  Lemma fallen_closed d p x t q ok : fallen d p x t -> fallen d p x (t ++ [EvClose q ok]).
  Proof.
    intros (q' & ev & t1 & t2 & ns & -> & H1 & H2 & H3 & H4 & H5 & H7). exists q', ev, t1, (t2 ++ [EvClose q ok]), ns.
    split; [now rewrite <- app_assoc|]. split; [exact H1|]. split; [exact H2|]. split; [|auto].
    apply Forall_app. split; [exact H3|]. now repeat constructor.
  Qed.

  Lemma fallen_child d p n x t : d < o_max_depth o -> fallen (d + 1) (child p n) x t -> fallen d p x t.
  Proof.
    intros Hd (q & ev & t1 & t2 & ns & -> & H1 & H2 & H3 & H4 & H5 & H7). exists q, ev, t1, t2, (n :: ns).
    split; [reflexivity|]. split; [exact H1|]. split; [exact H2|]. split; [exact H3|]. split.
    - rewrite H4. unfold child. cbn. now rewrite <- app_assoc.
    - cbn [length]. split; [lia|exact H7].
  Qed.

  Lemma fallen_here d p x t1 ev t2 : cause p ev -> unfailing K t1 -> reports x p ev -> Forall is_close t2 -> fallen d p x (t1 ++ ev :: t2).
  Proof.
    intros H0 H1 H2 H3. exists p, ev, t1, t2, []. split; [reflexivity|]. split; [exact H2|]. split; [exact H1|]. split; [exact H3|]. split.
    - rewrite app_nil_r. now destruct p.
    - cbn. split; [lia|exact H0].
  Qed.

  Definition outcome_of (d : Z) (p : path) (r : res (option entry)) (t : trace) : Prop :=
    (forall e, r = Ok e -> unfailing K t) /\ (forall x, r = Throw x -> E x \/ fallen d p x t).

  Lemma kids_outcome d p hl mc n it r t : d < o_max_depth o -> (forall c, In c it -> exists m, c = child p m) ->
    kids_run (outcome_of (d + 1)) hl mc n it r t ->
    (forall e, r = Ok e -> unfailing K t) /\ (forall x, r = Throw x -> E x \/ fallen d p x t).
  Proof.
    intros Hd Hit H. induction H as [n|n c it|n c it x t Hg H|n c it e t es rest t' Hg H Hk IH|n c it e t x t' Hg H Hk IH].
    - split; [intros _ _; apply unfailing_nil|discriminate].
    - split; [intros _ _; apply unfailing_nil|discriminate].
    - split; [discriminate|]. intros y Ey. injection Ey as ->. destruct (proj2 H y eq_refl) as [?|Hf]; [now left|right].
      destruct (Hit c (or_introl eq_refl)) as (m & ->). now apply (fallen_child d p m).
    - split; [|discriminate]. intros _ _. apply unfailing_app; [now apply (proj1 H _ eq_refl)|].
      destruct IH as [IH _]; [intros c' Hc; apply Hit; now right|]. now apply (IH _ eq_refl).
    - split; [discriminate|]. intros y Ey. injection Ey as ->.
      destruct IH as [_ IH]; [intros c' Hc; apply Hit; now right|]. destruct (IH y eq_refl) as [?|Hf]; [now left|right].
      apply fallen_after; [now apply (proj1 H _ eq_refl)|exact Hf].
  Qed.

  Lemma scan_outcome : callbacks w o K E -> orderly w o \/ E ExIllegalArgument ->
    obeys w (fun q => handle (Z.to_nat (o_max_depth o)) o 0 q (path_filter o)) (outcome_of 0).
  Proof.
    intros Hc Hcmp. destruct (callbacks_obey _ _ _ _ Hc) as (H1 & H2 & H3 & H6).
    assert (Kf : forall l r t, filter_run w (cb K E) (cb K E) l r t -> unfailing K t)
      by (intros; eapply (filter_run_K w K (unfailing K)); eauto using unfailing_app, unfailing_nil, unfailing_cb, unfailing_lstat).
    assert (Ko : forall l r t, order_run w o (fun _ => cb K E) l r t -> unfailing K t)
      by (intros; eapply (order_run_K w o K (unfailing K)); eauto using unfailing_app, unfailing_nil, unfailing_cb, unfailing_lstat).
    apply (handle_runs w o _ _ _ (fun _ => cb _ _) H1 H2 H3 H6 outcome_of); try lia.
    - intros d p h a k _ _ _. split; [|discriminate]. intros _ _. apply (unfailing_app [_] [_]); apply unfailing_one; not_failed.
    - intros d p h a Hk Hnk Hst. split; [discriminate|]. intros x Hx. injection Hx as <-. right.
      apply (fallen_here d p _ [_] _ []); [exists (EvLstat p a :: h), h; split; [exact Hst|congruence]|apply unfailing_one; not_failed|constructor|constructor].
    - intros d p h _ _ _. split; [|discriminate]. intros _ _. apply unfailing_one; not_failed.
    - intros d p h Hk _ _ Hop. split; [discriminate|]. intros x Hx. injection Hx as <-. right.
      apply (fallen_here d p _ [_] _ []); [now exists (EvLstat p (Some KDir) :: h), h|apply unfailing_one; not_failed|constructor|constructor].
    - intros d p h dl rb t ok _ _ Hd Hop Hb (hc & Hclose).
      assert (Hs : unfailing K [EvLstat p (Some KDir); EvOpen p]) by (apply (unfailing_app [_] [_]); apply unfailing_one; not_failed).
      assert (Hbody : (forall e, rb = Ok e -> unfailing K t) /\ (forall x, rb = Throw x -> E x \/ fallen d p x t)).
      { assert (Hkid : forall l t0 order, filter_run w (cb K E) (cb K E) (map (child p) (dl_names dl)) (Ok l) t0 -> Permutation l order ->
          forall c, In c order -> exists m, c = child p m).
        { intros l t0 order Hf HP c Hin. apply (Permutation_in c (Permutation_sym HP)) in Hin.
          apply (filter_run_sub _ _ _ _ _ _ Hf) in Hin. apply in_map_iff in Hin. destruct Hin as (n & <- & _). now exists n. }
        destruct Hb as [x t Hk|mc t x t' Hk Hf|mc t l t' Hk Hf Hit|mc t l t' x ts Hk Hf Hit Hso
          |mc t l t' order ts x t'' Hk Hf Hit Hso Hkids|mc t l t' order ts es rest t'' Hk Hf Hit Hso Hkids];
          (split; [try discriminate|try discriminate]).
        - intros y Ey. injection Ey as ->. left. now apply (proj2 Hk).
        - intros y Ey. injection Ey as ->. left. eapply filter_run_E; eassumption.
        - intros y Ey. injection Ey as <-. right. apply fallen_after; [now apply unfailing_cb, Hk|]. apply fallen_after; [eapply Kf; eassumption|].
          apply (fallen_here d p _ [] _ []); [exists (EvLstat p (Some KDir) :: h), h, dl; now split|apply unfailing_nil|constructor|constructor].
        - intros y Ey. injection Ey as ->. left. exact (order_run_E w o K E l y ts Hcmp Hso).
        - intros y Ey. injection Ey as ->.
          destruct (proj2 (kids_outcome d p _ _ _ _ _ _ Hd (Hkid _ _ _ Hf (proj1 (proj2 Hso))) Hkids) y eq_refl) as [?|Hx]; [now left|right].
          apply fallen_after; [now apply unfailing_cb, Hk|]. apply fallen_after; [eapply Kf; eassumption|].
          apply fallen_after; [eapply Ko; exact Hso|exact Hx].
        - intros _ _. apply unfailing_app; [now apply unfailing_cb, Hk|]. apply unfailing_app; [eapply Kf; eassumption|].
          apply unfailing_app; [eapply Ko; exact Hso|].
          exact (proj1 (kids_outcome d p _ _ _ _ _ _ Hd (Hkid _ _ _ Hf (proj1 (proj2 Hso))) Hkids) _ eq_refl). }
      destruct rb as [es|y]; cbn [after_close].
      + destruct ok; (split; [try discriminate|try discriminate]).
        * intros _ _. apply unfailing_app; [exact Hs|]. apply unfailing_app; [now apply (proj1 Hbody _ eq_refl)|].
          apply unfailing_one; not_failed.
        * intros x Hx. injection Hx as <-. right. apply fallen_after; [exact Hs|].
          apply fallen_here; [exists hc, h; now symmetry|now apply (proj1 Hbody _ eq_refl)|constructor|constructor].
      + split; [discriminate|]. intros x Hx. injection Hx as ->. destruct (proj2 Hbody x eq_refl) as [?|Hf]; [now left|right].
        apply fallen_after; [exact Hs|]. now apply fallen_closed.
  Qed.
End Fail.

Lemma failure_found : forall o p w h v (K : trace -> Prop) (E : exn -> Prop),
  callbacks w o K E -> orderly w o \/ E ExIllegalArgument -> sees w o v -> p_names (location w p) <> [] ->
  exists r t, pretty_print o p w h = (r, rev t ++ h) /\
    forall x, r = Throw x -> E x \/
      exists q ev t1 t2 ns, t = t1 ++ ev :: t2 /\ reports x q ev /\ unfailing K t1 /\ Forall is_close t2 /\
        q = mkPath true (p_names (location w p) ++ ns) /\ Z.of_nat (length ns) <= Z.max 0 (o_max_depth o) /\ cause w q ev.
Proof.
  intros o p w h v K E Hc Hcmp Hv Hne.
  pose proof (callbacks_weaken w o K (fun _ => True) E (fun _ => True) (fun _ _ => I) (fun _ _ => I) Hc) as Hc'.
  destruct (print_runs w o (fun _ => True) (fun _ => True) _ p I (fun _ _ _ _ => I) I Hc' (scan_outcome _ _ _ _ Hc Hcmp) h) as (r & t & Er & H).
  exists r, t. split; [exact Er|]. intros x ->. destruct H as [(y & Ey & H)|(e & t1 & t2 & -> & Hs & _)].
  - injection Ey as <-. destruct (proj2 H x eq_refl) as [?|(q & ev & t1 & t2 & ns & H1 & H2 & H3 & H4 & H5 & H6 & H7)]; [now left|right].
    exists q, ev, t1, t2, ns. rewrite (location_abs w p) in H5. do 5 (split; [assumption|]). split; [lia|exact H7].
  - destruct (scan_then_returns _ _ _ _ _ _ _ Hv Hne Hs) as (out & h' & E'). rewrite E' in Er. discriminate.
Qed.

Theorem C152_lemma : forall o p w h v (K : trace -> Prop) (E : exn -> Prop),
  callbacks w o K E -> orderly w o \/ E ExIllegalArgument -> sees w o v -> p_names (location w p) <> [] ->
  exists r t, pretty_print o p w h = (r, rev t ++ h) /\
    forall x, r = Throw x -> E x \/
      exists q ev t1 t2, t = t1 ++ ev :: t2 /\ reports x q ev /\ unfailing K t1 /\ Forall is_close t2.
Proof.
  intros o p w h v K E Hc Hcmp Hv Hne. destruct (failure_found o p w h v K E Hc Hcmp Hv Hne) as (r & t & Er & H).
  exists r, t. split; [exact Er|]. intros x Hx. destruct (H x Hx) as [?|(q & ev & t1 & t2 & ns & H1 & H2 & H3 & H4 & _)]; [now left|right].
  now exists q, ev, t1, t2.
Qed.

Theorem C150_lemma : forall o p w h v (E : exn -> Prop),
  callbacks w o (fun _ => True) E -> orderly w o \/ E ExIllegalArgument -> sees w o v -> p_names (location w p) <> [] ->
  exists r t, pretty_print o p w h = (r, rev t ++ h) /\
    forall x, r = Throw x -> E x \/
      exists q ns, q = mkPath true (p_names (location w p) ++ ns) /\ Z.of_nat (length ns) <= Z.max 0 (o_max_depth o) /\
        ((In (EvStat q None) t /\ message x = Some (js "Unable to read file attributes: " ++ path_str q)) \/
         ((In (EvOpenFail q) t \/ In (EvClose q false) t) /\ message x = Some (js "Unable to list files for directory: " ++ path_str q)) \/
         (In (EvIterFail q) t /\ x = ExDirectoryIterator q)).
Proof.
  intros o p w h v E Hc Hcmp Hv Hne. destruct (failure_found o p w h v _ E Hc Hcmp Hv Hne) as (r & t & Er & H).
  exists r, t. split; [exact Er|]. intros x Hx. destruct (H x Hx) as [?|(q & ev & t1 & t2 & ns & -> & H2 & _ & _ & H5 & H6 & _)]; [now left|right].
  exists q, ns. split; [exact H5|]. split; [exact H6|].
  assert (Hin : In ev (t1 ++ ev :: t2)) by (apply in_or_app; right; now left). destruct H2; auto 8.
Qed.

(** ** Walks *)
Lemma walk_cannot_start n (visit : path -> M bool) p w h : (0 < n)%nat -> w_lstat w h p = Some KDir ->
  w_open w (EvLstat p (Some KDir) :: h) p = None -> exists h', walk n true visit p w h = (Throw (ExUncheckedIO WalkStart p), h').
Proof.
  intros Hn Hk Ho. destruct n as [|n]; [lia|]. cbn [walk]. unfold bind at 1, lstat. rewrite Hk. cbn [kind_eqb].
  unfold bind at 1, open_dir. rewrite Ho. eexists. reflexivity.
Qed.

Theorem C150_walks_lemma : forall m p n w h, p_abs p = true -> w_lstat w h p = Some KDir -> w_lstat w (EvLstat p (Some KDir) :: h) p = Some KDir ->
  w_open w (EvLstat p (Some KDir) :: EvLstat p (Some KDir) :: h) p = None ->
  forall f, In f [pm_any_direct_child m p; pm_any_descendant m p; pm_sibling m (child p n)] ->
  exists x h', f w h = (Throw x, h') /\ message x = Some (js "Exception while walking files of " ++ path_str p).
Proof.
  intros m p n w h H0 H1 H2 H3.
  assert (K : forall z i, (0 < z)%Z -> exists x h', test_descendants p z m i w h = (Throw x, h') /\ message x = Some (js "Exception while walking files of " ++ path_str p)).
  { intros z i Hz. unfold test_descendants, pm_is_directory, has_kind, bind, lstat, ret. rewrite H1. cbn [kind_eqb negb].
    destruct (walk_cannot_start (Z.to_nat z) (fun q => if i q then m q else ret false) p w (EvLstat p (Some KDir) :: h)) as (h' & E); [lia|exact H2|exact H3|].
    exists (ExUncheckedIO WalkStart p), h'. split; [exact E|reflexivity]. }
  intros f [<-|[<-|[<-|[]]]].
  - apply K. reflexivity.
  - apply K. reflexivity.
  - unfold pm_sibling. assert (G : get_parent (child p n) = Some p).
    { apply get_parent_some. split; [reflexivity|]. split; [now exists n|now left]. }
    rewrite G. apply K. reflexivity.
Qed.
