(** * How a run accesses the file system *)

From Verif Require Import SpecHist RenderFacts ScanFacts PathFacts TreeFacts TraceFacts PrintFacts ShownFacts RunFacts ScanPrintFacts SortFacts.
Open Scope Z_scope.

(** ** Entries of returning runs *)
Lemma kids_run_entries (Q : path -> res (option entry) -> trace -> Prop) hl mc n it r t : kids_run Q hl mc n it r t ->
  forall es rest, r = Ok (es, rest) ->
  forall x, In x es -> exists c u, In c it /\ Q c (Ok (Some x)) u /\ incl u t.
Proof.
  induction 1 as [n|n c it|n c it x t Hg H|n c it e t es0 rest0 t' Hg H Hk IH|n c it e t x t' Hg H Hk IH]; intros es rest E;
    try discriminate; injection E as <- <-; intros y Hy; try destruct Hy.
  - subst. exists c, t. repeat split; [now left|exact H|]. apply incl_appl, incl_refl.
  - destruct (IH _ _ eq_refl y H0) as (c' & u & Hc & HQ & Hi). exists c', u. repeat split; [now right|exact HQ|]. now apply incl_appr.
Qed.

Lemma body_run_entries w o Cd Cf Cl Cc (Q : path -> res (option entry) -> trace -> Prop) p dl es t :
  body_run w o Cd Cf Cl Cc Q p dl (Ok es) t ->
  forall x, In x es -> x = ESkipped p \/ exists n u, In n (dl_names dl) /\ Q (child p n) (Ok (Some x)) u /\ incl u t.
Proof.
  intros H x Hx. inversion H as [| | | | |mc t0 l t' order ts es0 rest t'' Hl Hf Hd (_ & HP & _) Hk Ees Et]; subst.
  apply in_app_or in Hx. destruct Hx as [Hx|Hx].
  - right. destruct (kids_run_entries _ _ _ _ _ _ _ Hk _ _ eq_refl x Hx) as (c & u & Hc & HQ & Hi).
    apply (Permutation_in c (Permutation_sym HP)) in Hc.
    apply (filter_run_sub _ _ _ _ _ _ Hf) in Hc. apply in_map_iff in Hc. destruct Hc as (n & <- & Hn).
    exists n, u. repeat split; auto. do 3 apply incl_appr. exact Hi.
  - left. destruct rest; [destruct Hx|]. destruct Hx as [<-|[]]. reflexivity.
Qed.

(** ** C16 *)
Definition after_lstat (pre : trace) (ev : event) : Prop :=
  forall q, opening ev q -> exists t0, pre = t0 ++ [EvLstat q (Some KDir)].

Lemma always_mono (P : trace -> event -> Prop) : (forall a b ev, P b ev -> P (a ++ b) ev) ->
  forall pre t, always P [] t -> always P pre t.
Proof. intros H pre t Ht. eapply always_weaken; [|exact Ht]. intros t1 ev. apply H. Qed.

Lemma always_mono_app (P : trace -> event -> Prop) : (forall a b ev, P b ev -> P (a ++ b) ev) ->
  forall t t', always P [] t -> always P [] t' -> always P [] (t ++ t').
Proof. intros H t t' Ht Ht'. apply always_app; [exact Ht|]. now apply always_mono. Qed.

Lemma after_lstat_mono a b ev : after_lstat b ev -> after_lstat (a ++ b) ev.
Proof. intros H q Hq. destruct (H q Hq) as (t0 & ->). exists (a ++ t0). now rewrite app_assoc. Qed.

Lemma not_opening ev : (forall q, ~ opening ev q) -> forall pre, after_lstat pre ev.
Proof. intros H pre q Hq. destruct (H q Hq). Qed.

Ltac no_opening := apply not_opening; intros ? [?|?]; discriminate.

Lemma user_not_opening w t1 ev : asks_kind w ev -> after_lstat t1 ev.
Proof. intro H. destruct ev; destruct H; no_opening. Qed.

Definition shown_dirs_seen (r : res (option entry)) (t : trace) : Prop :=
  forall e k q es, r = Ok (Some e) -> at_depth k e (EDir q es) -> In (EvLstat q (Some KDir)) t.

(** Everything the trace says about kinds is what the world answers. *)
Definition truthful (w : world) (t : trace) : Prop :=
  forall p a, In (EvLstat p a) t -> exists h, w_lstat w h p = a.

Lemma truthful_app w t t' : truthful w t -> truthful w t' -> truthful w (t ++ t').
Proof. intros H H' p a Hin. apply in_app_or in Hin. destruct Hin; auto. Qed.

Lemma truthful_other w ev t : (forall p a, ev <> EvLstat p a) -> truthful w t -> truthful w (ev :: t).
Proof. intros H Ht p a [E|Hin]; [destruct (H _ _ E)|auto]. Qed.

Lemma truthful_lstat w h p a t : w_lstat w h p = a -> truthful w t -> truthful w (EvLstat p a :: t).
Proof. intros H Ht q b [E|Hin]; [injection E as <- <-; eauto|auto]. Qed.

Lemma truthful_nil w : truthful w [].
Proof. intros p a []. Qed.

Lemma truthful_modest w t : modest w t -> truthful w t.
Proof. intros H p a Hin. unfold modest in H. rewrite Forall_forall in H. exact (H _ Hin). Qed.

Lemma at_depth_file k f kd x : at_depth k (EFile f kd) x -> x = EFile f kd.
Proof. inversion 1. reflexivity. Qed.

Lemma scan_links w o : callbacks w o (modest w) (fun _ => True) ->
  obeys w (fun q => handle (Z.to_nat (o_max_depth o)) o 0 q (path_filter o))
    (fun p r t => always after_lstat [] t /\ truthful w t /\ shown_dirs_seen r t).
Proof.
  intros Hc. destruct (callbacks_obey _ _ _ _ Hc) as (H1 & H2 & H3 & H6).
  apply (handle_runs w o _ _ _ (fun _ => cb _ _) H1 H2 H3 H6 (fun d p r t => always after_lstat [] t /\ truthful w t /\ shown_dirs_seen r t)); try lia.
  - intros d p h a k Ha _ _. split; [|split].
    + apply always_cons; [no_opening|]. apply always_cons; [no_opening|]. apply always_nil.
    + eapply truthful_lstat; [exact Ha|]. apply truthful_other; [discriminate|apply truthful_nil].
    + intros e j q es E Hat. injection E as <-. apply at_depth_file in Hat. discriminate.
  - intros d p h a Ha _ _. split; [|split].
    + apply always_cons; [no_opening|]. apply always_cons; [no_opening|]. apply always_nil.
    + eapply truthful_lstat; [exact Ha|]. apply truthful_other; [discriminate|apply truthful_nil].
    + intros e j q es E. discriminate.
  - intros d p h Ha _ _. split; [|split].
    + apply always_cons; [no_opening|]. apply always_nil.
    + eapply truthful_lstat; [exact Ha|]. apply truthful_nil.
    + intros e j q es E Hat. injection E as <-. inversion Hat as [|k d0 es0 c x Hin Hat']; subst; [now left|].
      destruct Hin as [<-|[]]. inversion Hat'.
  - intros d p h Ha _ _ _. split; [|split].
    + apply always_cons; [no_opening|]. apply always_cons; [|apply always_nil]. intros q [E|E]; [discriminate|]. injection E as <-. exists []. reflexivity.
    + eapply truthful_lstat; [exact Ha|]. apply truthful_other; [discriminate|apply truthful_nil].
    + intros e j q es E. discriminate.
  - intros d p h dl rb t ok Ha _ _ _ Hb _. split; [|split].
    + assert (Hbody : always after_lstat [] t).
      { refine (body_run_K w o (modest w) (always after_lstat []) (always_mono_app _ after_lstat_mono) (always_nil _ _) _ _ _ _ _ _ _ _ _ _ Hb).
        - intros u Hu. apply always_modest with (w := w); [exact (user_not_opening w)|exact Hu].
        - intros h0 p0. apply always_cons; [no_opening|]. apply always_nil.
        - apply always_cons; [no_opening|]. apply always_nil.
        - intros n r u _ [H _]. exact H. }
      apply always_cons; [no_opening|]. apply always_cons.
      { intros q [E|E]; [|discriminate]. injection E as <-. exists []. reflexivity. }
      apply always_mono; [exact after_lstat_mono|]. apply always_mono_app; [exact after_lstat_mono|exact Hbody|].
      apply always_cons; [no_opening|]. apply always_nil.
    + eapply truthful_lstat; [exact Ha|]. apply truthful_other; [discriminate|]. apply truthful_app.
      * refine (body_run_K w o (modest w) (truthful w) (truthful_app w) (truthful_nil w) (truthful_modest w) _ _ _ _ _ _ _ _ _ Hb).
        -- intros h0 p0. eapply truthful_lstat; [reflexivity|]. apply truthful_nil.
        -- apply truthful_other; [discriminate|]. apply truthful_nil.
        -- intros n r u _ (_ & H & _). exact H.
      * apply truthful_other; [discriminate|]. apply truthful_nil.
    + intros e j q es E Hat. destruct rb as [es0|y]; [|discriminate]. destruct ok; [|discriminate]. injection E as <-.
      inversion Hat as [|k d0 es1 c x Hin Hat']; subst; [now left|]. cbn [app]. right; right. apply in_or_app. left.
      destruct (body_run_entries _ _ _ _ _ _ _ _ _ _ _ Hb c Hin) as [->|(n & u & _ & (_ & _ & H) & Hi)].
      * inversion Hat'.
      * apply Hi. exact (H c k q es eq_refl Hat').
Qed.

Lemma C16_lemma o p w h : callbacks w o (modest w) (fun _ => True) ->
  exists r t, pretty_print o p w h = (r, rev t ++ h) /\
    forall t1 ev t2 q, t = t1 ++ ev :: t2 -> opening ev q -> exists t0, t1 = t0 ++ [EvLstat q (Some KDir)].
Proof.
  intros Hc. destruct (print_runs w o (modest w) (fun _ => True) _ p (modest_nil w) (modest_app w) I Hc (scan_links _ _ Hc) h) as (r & t & Er & H).
  exists r, t. split; [exact Er|]. assert (HA : always after_lstat [] t).
  { destruct H as [(x & _ & H & _)|(e & t1 & t2 & -> & _ & (H & _) & Hq & _)]; [exact H|].
    apply always_mono_app; [exact after_lstat_mono|exact H|]. apply always_modest with (w := w); [exact (user_not_opening w)|exact Hq]. }
  intros t1 ev t2 q E Hop. exact (HA t1 ev t2 E q Hop).
Qed.

Lemma C16_steady o p w dk v h : steady w dk -> callbacks w o (modest w) (fun _ => True) -> sees w o v ->
  exists r t, pretty_print o p w h = (r, rev t ++ h) /\
    (forall q, d_kind dk q = Some KLink -> ~ In (EvOpen q) t /\ ~ In (EvOpenFail q) t) /\
    (forall out, r = Ok out ->
       exists e h1 s, scan o (location w p) w h = (Ok e, h1) /\ shows v true e s /\ out = text (o_tree_format o) (labelled v s) /\
         forall k x q, at_depth k e x -> entry_path x = Some q -> d_kind dk q = Some KLink -> exists kd, x = EFile q kd).
Proof.
  intros Hst Hc Hv. destruct Hst as (Hk & _).
  destruct (print_runs w o (modest w) (fun _ => True) _ p (modest_nil w) (modest_app w) I Hc (scan_links _ _ Hc) h) as (r & t & Er & H).
  exists r, t. split; [exact Er|].
  assert (HA : always after_lstat [] t /\ truthful w t).
  { destruct H as [(x & _ & H & H' & _)|(e & t1 & t2 & -> & _ & (H & H' & _) & Hq & _)]; [auto|]. split.
    - apply always_mono_app; [exact after_lstat_mono|exact H|]. apply always_modest with (w := w); [exact (user_not_opening w)|exact Hq].
    - apply truthful_app; [exact H'|now apply truthful_modest]. }
  destruct HA as [HA HT]. split.
  - assert (Hno : forall q ev, d_kind dk q = Some KLink -> opening ev q -> ~ In ev t).
    { intros q ev Hq Hop Hin. apply in_split in Hin. destruct Hin as (t1 & t2 & E).
      destruct (HA t1 ev t2 E q Hop) as (t0 & E0). cbn in E0. subst t1.
      destruct (HT q (Some KDir)) as (h0 & Hh); [|rewrite Hk in Hh; congruence].
      rewrite E. rewrite <- app_assoc. apply in_or_app. right. now left. }
    intros q Hq. split; apply (Hno q); auto; [now left|now right].
  - intros out ->. destruct (print_displays _ _ _ _ _ _ _ Hv Er) as (e & h1 & Hs & s & Hsh & Ho).
    exists e, h1, s. repeat split; auto. intros k x q Hat Hp Hq.
    destruct H as [(y & ? & _)|(e' & t1 & t2 & -> & Hs' & (_ & HT' & Hd) & _)]; [discriminate|].
    rewrite Hs in Hs'. injection Hs' as <- ->.
    destruct x as [q' es|q' kd| |]; try discriminate; injection Hp as ->; [|eauto].
    specialize (Hd e k q es eq_refl Hat). destruct (HT' _ _ Hd) as (h0 & Hh). rewrite Hk in Hh. congruence.
Qed.

(** ** C13: returning runs *)
Lemma content_app t t' : filter content_event (t ++ t') = filter content_event t ++ filter content_event t'.
Proof. apply filter_app. Qed.

Lemma content_modest w t : modest w t -> filter content_event t = [].
Proof. induction 1 as [|ev t H _ IH]; [reflexivity|]. destruct ev; destruct H; exact IH. Qed.

Lemma content_filter_run w E l r t : filter_run w (cb (modest w) E) (cb (modest w) E) l r t -> filter content_event t = [].
Proof.
  apply (filter_run_K w (modest w) (fun t => filter content_event t = [])).
  - intros a b Ha Hb. rewrite content_app, Ha, Hb. reflexivity.
  - reflexivity.
  - exact (content_modest w).
  - reflexivity.
Qed.

Lemma content_compare_run w E t : compare_run (fun _ => cb (modest w) E) t -> filter content_event t = [].
Proof.
  apply (compare_run_K (modest w) (fun t => filter content_event t = [])).
  - intros a b Ha Hb. rewrite content_app, Ha, Hb. reflexivity.
  - reflexivity.
  - exact (content_modest w).
Qed.

Definition reads_of (r : res (option entry)) (t : trace) : Prop :=
  forall e, r = Ok (Some e) -> entry_path e <> None /\ filter content_event t = reads e.

Lemma content_kids_run (Q : path -> res (option entry) -> trace -> Prop) : (forall c r t, Q c r t -> reads_of r t) ->
  forall hl mc n it r t, kids_run Q hl mc n it r t ->
  forall es rest, r = Ok (es, rest) -> filter content_event t = flat_map reads es /\ Forall (fun e => entry_path e <> None) es.
Proof.
  intros HQ hl mc n it r t H.
  induction H as [n|n c it|n c it x t Hg H|n c it e t es0 rest0 t' Hg H Hk IH|n c it e t x t' Hg H Hk IH]; intros es rest E;
    try discriminate; injection E as <- <-; try (split; [reflexivity|constructor]).
  destruct (IH _ _ eq_refl) as [IH1 IH2]. destruct (HQ _ _ _ H e eq_refl) as [Hp Hr]. split; [|constructor; auto].
  rewrite content_app, Hr, IH1. reflexivity.
Qed.

Lemma reads_dir p es : (forall n, es <> [EMaxDepth n]) -> reads (EDir p es) = EvOpen p :: flat_map reads es.
Proof.
  intros H. destruct es as [|[d l|f k|d|n] [|e' es]]; try reflexivity. destruct (H n eq_refl).
Qed.

Lemma scan_reads w o E : callbacks w o (modest w) E ->
  obeys w (fun q => handle (Z.to_nat (o_max_depth o)) o 0 q (path_filter o)) (fun p r t => reads_of r t).
Proof.
  intros Hc. destruct (callbacks_obey _ _ _ _ Hc) as (H1 & H2 & H3 & H6).
  apply (handle_runs w o _ _ _ (fun _ => cb _ _) H1 H2 H3 H6 (fun d p r t => reads_of r t)); try lia.
  - intros d p h a k _ _ _ e He. injection He as <-. split; [discriminate|reflexivity].
  - intros d p h a _ _ _ e He. discriminate.
  - intros d p h _ _ _ e He. injection He as <-. split; [discriminate|reflexivity].
  - intros d p h _ _ _ _ e He. discriminate.
  - intros d p h dl rb t ok _ _ _ _ Hb _ e He. destruct rb as [es|x]; [|discriminate]. destruct ok; [|discriminate].
    injection He as <-. split; [discriminate|].
    inversion Hb as [| | | | |mc t0 l t' order ts es0 rest t'' [Hl _] Hf Hd (Hs & _) Hk Ees Et]; subst.
    destruct (content_kids_run _ ltac:(intros c r u H; exact H) _ _ _ _ _ _ Hk _ _ eq_refl) as [Hk1 Hk2].
    rewrite reads_dir.
    + cbn [app filter content_event]. rewrite !content_app. rewrite (content_modest _ _ Hl), (content_filter_run _ _ _ _ _ Hf), (content_compare_run _ _ _ Hs), Hk1.
      cbn [filter content_event app]. rewrite flat_map_app. f_equal. rewrite app_nil_r. destruct rest; cbn; now rewrite app_nil_r.
    + intros n E0. destruct es0 as [|e0 es0]; [destruct rest; discriminate|]. cbn in E0. injection E0 as -> _.
      inversion Hk2 as [|a b Hn _]; subst. now apply Hn.
Qed.

Lemma C13_reads o p w h out h' v : callbacks w o (modest w) (fun _ => True) -> sees w o v -> pretty_print o p w h = (Ok out, h') ->
  exists e h1 s t, scan o (location w p) w h = (Ok e, h1) /\ shows v true e s /\ out = text (o_tree_format o) (labelled v s) /\
    h' = rev t ++ h /\ filter content_event t = reads e.
Proof.
  intros Hc Hv Hp. destruct (print_runs w o (modest w) (fun _ => True) _ p (modest_nil w) (modest_app w) I Hc (scan_reads _ _ _ Hc) h) as (r & t & Er & H).
  rewrite Hp in Er. injection Er as <- ->. destruct H as [(x & ? & _)|(e & t1 & t2 & -> & Hs & HQ & Hq & _)]; [discriminate|].
  destruct (print_displays _ _ _ _ _ _ _ Hv Hp) as (e' & h1 & Hs' & s & Hsh & Ho).
  rewrite Hs in Hs'. injection Hs' as <- <-. exists e, (rev t1 ++ h), s, (t1 ++ t2). repeat split; auto.
  rewrite content_app, (content_modest _ _ Hq), app_nil_r. now apply HQ.
Qed.

(** ** C13: whatever the outcome, on a steady disk *)
Definition cbg {B} (w : world) (g : path -> B) : path -> res B -> trace -> Prop := fun p r t => modest w t /\ forall b, r = Ok b -> b = g p.

Lemma cbg_obeys {B} w (f : path -> M B) (g : path -> B) (E : exn -> Prop) : callback w f (modest w) E -> agrees w f g -> obeys w f (cbg w g).
Proof.
  intros Hc Ha a h. destruct (Hc a h) as (r & t & Hr & HK & _). exists r, t. split; [exact Hr|]. split; [exact HK|].
  intros b ->. eapply Ha. exact Hr.
Qed.

Lemma cbg_filter w st l r t : filter_run w (cbg w (s_dirs st)) (cbg w (s_files st)) l r t ->
  (forall ev q, In ev t -> ~ looks_into ev q) /\
  (forall ev, In ev t -> asks_kind w ev) /\
  (forall l', r = Ok l' -> forall c, In c l' -> exists h a, a = w_lstat w h c /\ In (EvLstat c a) t /\ passes st a c = true) /\
  (forall l', r = Ok l' -> forall c, In c l -> exists h a, a = w_lstat w h c /\ In (EvLstat c a) t).
Proof.
  assert (Hflt : forall c r t, flt_run w (cbg w (s_dirs st)) (cbg w (s_files st)) c r t ->
    (forall ev, In ev t -> asks_kind w ev) /\
    exists h a, a = w_lstat w h c /\ In (EvLstat c a) t /\ forall b, r = Ok b -> b = passes st a c).
  { intros c r0 t0 (h & a & u & Ha & -> & H). split.
    - intros ev [<-|Hin]; [cbn; eauto|].
      destruct H as [[_ [Hq _]]|[_ [Hq _]]]; unfold modest in Hq; rewrite Forall_forall in Hq; auto.
    - exists h, a. split; [exact Ha|]. split; [now left|]. intros b Hb.
      destruct H as [[-> [_ H]]|[Hn [_ H]]]; rewrite (H b Hb); [reflexivity|]. destruct a as [[]|]; congruence || reflexivity. }
  intro H.
  assert (Hkind : forall ev, In ev t -> asks_kind w ev).
  { induction H as [|c l x t Hf|c l b t l' t' Hf H IH|c l b t x t' Hf H IH]; intros ev Hin; [destruct Hin| | | ];
      try (apply in_app_or in Hin; destruct Hin as [Hin|Hin]; [|now apply IH]); eapply Hflt; eauto. }
  split; [|split; [exact Hkind|]].
  { intros ev q Hin Hl. specialize (Hkind ev Hin). destruct ev; destruct Hkind; destruct Hl as [?|[?|[? ?]]]; discriminate. }
  clear Hkind. induction H as [|c l x t Hf|c l b t l0 t' Hf H IH|c l b t x t' Hf H IH].
  - split; intros l' E; [injection E as <-|]; intros c [].
  - split; discriminate.
  - destruct (Hflt _ _ _ Hf) as (_ & h & a & Ha & Hin & Hb). specialize (Hb b eq_refl). destruct IH as [IH1 IH2].
    assert (Hrest : forall c0 P, (exists h a, a = w_lstat w h c0 /\ In (EvLstat c0 a) t' /\ P a) -> exists h a, a = w_lstat w h c0 /\ In (EvLstat c0 a) (t ++ t') /\ P a).
    { intros c0 P (h0 & a0 & E0 & I0 & P0). exists h0, a0. repeat split; auto. apply in_or_app. now right. }
    split; intros l' E; injection E as <-; intros c0 Hc0.
    + assert (Hcase : In c0 l0 \/ (b = true /\ c0 = c)) by (destruct b; [destruct Hc0; auto|auto]).
      destruct Hcase as [Hi|[-> ->]].
      * apply (Hrest c0 (fun a => passes st a c0 = true)). eapply IH1; eauto.
      * exists h, a. repeat split; auto. apply in_or_app. now left.
    + destruct Hc0 as [<-|Hi].
      * exists h, a. split; auto. apply in_or_app. now left.
      * destruct (IH2 _ eq_refl c0 Hi) as (h0 & a0 & E0 & I0). exists h0, a0. split; auto. apply in_or_app. now right.
  - split; discriminate.
Qed.

Lemma cbg_filter_steady w st dk l l' t : (forall h p, w_lstat w h p = d_kind dk p) ->
  filter_run w (cbg w (s_dirs st)) (cbg w (s_files st)) l (Ok l') t -> l' = filter (accepts st dk) l.
Proof.
  intros Hk H. remember (Ok l') as r eqn:Er. revert l' Er.
  induction H as [|c l y t Hf|c l b t l0 t' Hf H IH|c l b t y t' Hf H IH]; intros l' Er; try discriminate; injection Er as <-; [reflexivity|].
  specialize (IH _ eq_refl). cbn [filter]. rewrite <- IH. assert (b = accepts st dk c) as ->; [|reflexivity].
  destruct Hf as (h & a & u & Ha & _ & H0). rewrite Hk in Ha. unfold accepts, is_dirb. rewrite <- Ha.
  destruct H0 as [[-> [_ H0]]|[Hn [_ H0]]]; rewrite (H0 b eq_refl); [reflexivity|]. destruct a as [[]|]; congruence || reflexivity.
Qed.

Lemma kids_run_tried (Q : path -> res (option entry) -> trace -> Prop) mc n it r t : 0 <= n -> kids_run Q (0 <=? mc) mc n it r t ->
  forall ev, In ev t -> exists c r' u, In c (limited (if mc <? 0 then mc else Z.max 0 (mc - n)) it) /\ Q c r' u /\ In ev u.
Proof.
  intros Hn H. induction H as [n|n c it|n c it x t Hg H|n c it e t es rest t' Hg H Hk IH|n c it e t x t' Hg H Hk IH]; intros ev Hev; try destruct Hev.
  all: try (assert (Hc : In c (limited (if mc <? 0 then mc else Z.max 0 (mc - n)) (c :: it)));
    [unfold limited; destruct (Z.ltb_spec mc 0); [destruct (Z.ltb_spec mc 0); [now left|lia]|];
     destruct (Z.ltb_spec (Z.max 0 (mc - n)) 0); [lia|]; destruct (Z.leb_spec 0 mc); [|lia]; cbn [andb] in Hg; apply Z.ltb_ge in Hg;
     replace (Z.to_nat (Z.max 0 (mc - n))) with (S (Z.to_nat (mc - n - 1))) by lia; now left|]).
  - exists c, (Throw x), t. auto.
  - apply in_app_or in Hev. destruct Hev as [Hev|Hev]; [exists c, (Ok (Some e)), t; auto|].
    destruct (IH ltac:(lia) ev Hev) as (c' & r' & u & Hi & HQ & Hu). exists c', r', u. split; [|auto].
    clear -Hi Hg Hn. unfold limited in *. destruct (Z.ltb_spec mc 0); [destruct (Z.ltb_spec mc 0); [now right|lia]|].
    destruct (Z.ltb_spec (Z.max 0 (mc - n)) 0); [lia|]. destruct (Z.ltb_spec (Z.max 0 (mc - (n + 1))) 0); [lia|].
    destruct (Z.leb_spec 0 mc); [|lia]. cbn [andb] in Hg. apply Z.ltb_ge in Hg.
    replace (Z.to_nat (Z.max 0 (mc - n))) with (S (Z.to_nat (Z.max 0 (mc - (n + 1))))) by lia. now right.
  - apply in_app_or in Hev. destruct Hev as [Hev|Hev]; [exists c, (Ok (Some e)), t; auto|].
    destruct (IH ltac:(lia) ev Hev) as (c' & r' & u & Hi & HQ & Hu). exists c', r', u. split; [|auto].
    clear -Hi Hg Hn. unfold limited in *. destruct (Z.ltb_spec mc 0); [destruct (Z.ltb_spec mc 0); [now right|lia]|].
    destruct (Z.ltb_spec (Z.max 0 (mc - n)) 0); [lia|]. destruct (Z.ltb_spec (Z.max 0 (mc - (n + 1))) 0); [lia|].
    destruct (Z.leb_spec 0 mc); [|lia]. cbn [andb] in Hg. apply Z.ltb_ge in Hg.
    replace (Z.to_nat (Z.max 0 (mc - n))) with (S (Z.to_nat (Z.max 0 (mc - (n + 1))))) by lia. now right.
Qed.

Lemma kept_trans st dk d0 p0 d p d' q : kept st dk d0 p0 d p -> kept st dk d p d' q -> kept st dk d0 p0 d' q.
Proof. intros H H'. induction H'; [exact H|]. eapply kept_child; eauto. Qed.

Lemma cbg_modest {B} w (g : path -> B) p r t : cbg w g p r t -> forall ev q, In ev t -> ~ looks_into ev q.
Proof.
  intros [Hq _] ev q Hin Hl. unfold modest in Hq. rewrite Forall_forall in Hq. specialize (Hq _ Hin).
  destruct ev; destruct Hq; destruct Hl as [?|[?|[? ?]]]; discriminate.
Qed.

Lemma scan_kept w dk st o (E : exn -> Prop) : steady w dk -> callbacks w o (modest w) E ->
  agrees w (o_dir_matcher o) (s_dirs st) -> agrees w (o_file_matcher o) (s_files st) -> agrees w (o_child_limit o) (s_limit st) ->
  (forall a, agrees w (o_comparator o a) (s_cmp st a)) -> o_max_depth o = s_depth st ->
  obeys w (fun q => handle (Z.to_nat (o_max_depth o)) o 0 q (path_filter o))
    (fun p r t => forall ev q, In ev t -> looks_into ev q -> exists d', kept st dk 0 p d' q).
Proof.
  intros (Sk & _ & So & _) (Hc1 & Hc2 & Hc3 & _ & _ & Hc6) Ha1 Ha2 Ha3 Hcmp Hdep.
  apply (handle_runs w o _ _ _ (fun a => cbg w (s_cmp st a)) (cbg_obeys _ _ _ _ Hc1 Ha1) (cbg_obeys _ _ _ _ Hc2 Ha2) (cbg_obeys _ _ _ _ Hc3 Ha3)
           (fun a => cbg_obeys _ _ _ _ (Hc6 a) (Hcmp a))
           (fun d p r t => forall ev q, In ev t -> looks_into ev q -> exists d', kept st dk d p d' q)); try lia.
  - intros d p h a k _ _ _ ev q [<-|[<-|[]]] [E0|[E0|[y E0]]]; try discriminate. injection E0 as <- _. exists d. constructor.
  - intros d p h a _ _ _ ev q [<-|[<-|[]]] [E0|[E0|[y E0]]]; try discriminate. injection E0 as <- _. exists d. constructor.
  - intros d p h _ _ _ ev q [<-|[]] [E0|[E0|[y E0]]]; discriminate.
  - intros d p h _ _ _ _ ev q [<-|[<-|[]]] [E0|[E0|[y E0]]]; try discriminate. injection E0 as <-. exists d. constructor.
  - intros d p h dl rb t ok Hk Hd Hlt Ho Hb _ ev q Hin Hl. cbn [app] in Hin.
    destruct Hin as [<-|[<-|Hin]]; [destruct Hl as [E0|[E0|[y E0]]]; discriminate| |].
    { destruct Hl as [E0|[E0|[y E0]]]; try discriminate. injection E0 as <-. exists d. constructor. }
    apply in_app_or in Hin. destruct Hin as [Hin|[<-|[]]]; [|destruct Hl as [E0|[E0|[y E0]]]; discriminate].
    rewrite Sk in Hk. rewrite So in Ho. unfold opt_bind in Ho. destruct (d_list dk p) as [names|] eqn:El; [|discriminate]. injection Ho as <-.
    cbn [dl_names] in Hb.
    assert (Hkids : forall mc l t' order ts r t'', cbg w (s_limit st) p (Ok mc) t' ->
        l = filter (accepts st dk) (map (child p) names) ->
        order_run w o (fun a => cbg w (s_cmp st a)) l (Ok order) ts ->
        kids_run (fun p r t => forall ev q, In ev t -> looks_into ev q -> exists d', kept st dk (d + 1) p d' q)
          (0 <=? mc) mc 0 order r t'' -> In ev t'' -> exists d', kept st dk d p d' q).
    { intros mc l t' order ts r t'' [_ Hmc] -> (_ & _ & Hs) Hr Hev. specialize (Hmc mc eq_refl). subst mc.
      destruct (kids_run_tried _ _ _ _ _ _ (Z.le_refl 0) Hr ev Hev) as (c & r' & u & Hc & HQ & Hu).
      destruct (HQ ev q Hu Hl) as (d' & Hd'). exists d'. eapply kept_trans; [|exact Hd'].
      eapply kept_child; [constructor|exact Hk|rewrite <- Hdep; exact Hlt|exact El| |].
      - apply Hs. intros a b z u0 [_ Hz]. exact (Hz z eq_refl).
      - replace (s_limit st p - 0) with (s_limit st p) in Hc by lia. destruct (s_limit st p <? 0) eqn:L; [exact Hc|].
        apply Z.ltb_ge in L. rewrite Z.max_r in Hc by lia. exact Hc. }
    assert (Hcr : forall u, compare_run (fun a => cbg w (s_cmp st a)) u -> ~ In ev u).
    { intros u Hu. induction Hu as [|a b z u u' Hz _ IH]; [intros []|]. rewrite in_app_iff. intros [Hi|Hi]; [|now apply IH].
      exact (cbg_modest _ _ _ _ _ Hz _ _ Hi Hl). }
    destruct Hb as [x t0 Hk0|mc t0 x t' Hk0 Hf|mc t0 l t' Hk0 Hf Hd0|mc t0 l t' x ts Hk0 Hf Hd0 Hs
      |mc t0 l t' order ts x t'' Hk0 Hf Hd0 Hs Hkr|mc t0 l t' order ts es rest t'' Hk0 Hf Hd0 Hs Hkr]; rewrite ?in_app_iff in Hin.
    + destruct (cbg_modest _ _ _ _ _ Hk0 _ _ Hin Hl).
    + destruct Hin as [Hin|Hin]; [destruct (cbg_modest _ _ _ _ _ Hk0 _ _ Hin Hl)|]. destruct (cbg_filter _ _ _ _ _ Hf) as (Hno & _). destruct (Hno _ _ Hin Hl).
    + discriminate.
    + destruct Hin as [Hin|[Hin|Hin]]; [destruct (cbg_modest _ _ _ _ _ Hk0 _ _ Hin Hl)| |].
      * destruct (cbg_filter _ _ _ _ _ Hf) as (Hno & _). destruct (Hno _ _ Hin Hl).
      * exfalso. destruct Hs as [(a & b & t1 & t2 & -> & H1 & H2)|(H1 & _)]; [|exact (Hcr _ H1 Hin)].
        apply in_app_or in Hin. destruct Hin as [Hin|Hin]; [exact (Hcr _ H1 Hin)|exact (cbg_modest _ _ _ _ _ H2 _ _ Hin Hl)].
    + destruct Hin as [Hin|[Hin|[Hin|Hin]]]; [destruct (cbg_modest _ _ _ _ _ Hk0 _ _ Hin Hl)| | |].
      * destruct (cbg_filter _ _ _ _ _ Hf) as (Hno & _). destruct (Hno _ _ Hin Hl).
      * destruct (Hcr _ (proj1 Hs) Hin).
      * eapply Hkids; [exact Hk0| |exact Hs|exact Hkr|exact Hin]. eapply cbg_filter_steady; eauto.
    + destruct Hin as [Hin|[Hin|[Hin|Hin]]]; [destruct (cbg_modest _ _ _ _ _ Hk0 _ _ Hin Hl)| | |].
      * destruct (cbg_filter _ _ _ _ _ Hf) as (Hno & _). destruct (Hno _ _ Hin Hl).
      * destruct (Hcr _ (proj1 Hs) Hin).
      * eapply Hkids; [exact Hk0| |exact Hs|exact Hkr|exact Hin]. eapply cbg_filter_steady; eauto.
Qed.

Lemma C13_kept o p w dk st h (E : exn -> Prop) : steady w dk -> callbacks w o (modest w) E ->
  agrees w (o_dir_matcher o) (s_dirs st) -> agrees w (o_file_matcher o) (s_files st) -> agrees w (o_child_limit o) (s_limit st) ->
  (forall a, agrees w (o_comparator o a) (s_cmp st a)) -> o_max_depth o = s_depth st ->
  exists r t, pretty_print o p w h = (r, rev t ++ h) /\
    forall ev q, In ev t -> looks_into ev q -> exists d, kept st dk 0 (location w p) d q.
Proof.
  intros Hst Hc Ha1 Ha2 Ha3 Hcmp Hdep.
  assert (Hc' : callbacks w o (modest w) (fun _ => True)).
  { exact (callbacks_weaken w o _ (modest w) E (fun _ => True) (fun _ H => H) (fun _ _ => I) Hc). }
  destruct (print_runs w o (modest w) (fun _ => True) _ p (modest_nil w) (modest_app w) I Hc' (scan_kept _ _ _ _ _ Hst Hc Ha1 Ha2 Ha3 Hcmp Hdep) h)
    as (r & t & Er & H).
  exists r, t. split; [exact Er|]. intros ev q Hin Hl.
  destruct H as [(x & _ & H)|(e & t1 & t2 & -> & _ & H & Hq & _)]; [eauto|]. apply in_app_or in Hin. destruct Hin as [Hin|Hin]; [eauto|].
  exfalso. unfold modest in Hq. rewrite Forall_forall in Hq. specialize (Hq _ Hin).
  destruct ev; destruct Hq; destruct Hl as [?|[?|[? ?]]]; discriminate.
Qed.

(** ** C13: whatever the outcome, in any world *)
Definition permitted (st : settings) (root : path) (pre : trace) (ev : event) : Prop :=
  forall q, looks_into ev q -> q = root \/
    exists p n a, q = child p n /\ In (EvOpen p) pre /\ In (EvLstat q a) pre /\ passes st a q = true.

Lemma permitted_mono st root a b ev : permitted st root b ev -> permitted st root (a ++ b) ev.
Proof.
  intros H q Hq. destruct (H q Hq) as [->|(p & n & k & -> & H1 & H2 & H3)]; [now left|right].
  exists p, n, k. repeat split; auto; apply in_or_app; now right.
Qed.

Lemma permitted_other st root pre ev : (forall q, ~ looks_into ev q) -> permitted st root pre ev.
Proof. intros H q Hq. destruct (H q Hq). Qed.

Lemma always_in (P : trace -> event -> Prop) pre t : (forall ev, In ev t -> forall t1, P t1 ev) -> always P pre t.
Proof. intros H t1 ev t2 ->. apply H. apply in_or_app. right. now left. Qed.

Lemma kids_permitted st p (Q : path -> res (option entry) -> trace -> Prop) hl mc n it r t :
  (forall c r t, Q c r t -> always (permitted st c) [] t) -> kids_run Q hl mc n it r t ->
  forall pre, (forall c, In c it -> exists m a, c = child p m /\ In (EvOpen p) pre /\ In (EvLstat c a) pre /\ passes st a c = true) ->
  always (permitted st p) pre t.
Proof.
  intros HQ H.
  assert (Hone : forall c r t pre, Q c r t ->
     (exists m a, c = child p m /\ In (EvOpen p) pre /\ In (EvLstat c a) pre /\ passes st a c = true) -> always (permitted st p) pre t).
  { intros c r0 t0 pre H0 (m & a & -> & H1 & H2 & H3). eapply always_weaken; [|exact (HQ _ _ _ H0)].
    intros t1 ev Hp q Hq. right. destruct (Hp q Hq) as [->|(p' & n' & a' & -> & G1 & G2 & G3)].
    - exists p, m, a. repeat split; auto; apply in_or_app; now left.
    - exists p', n', a'. repeat split; auto; apply in_or_app; now right. }
  assert (Hmore : forall c pre t0, (exists m a, c = child p m /\ In (EvOpen p) pre /\ In (EvLstat c a) pre /\ passes st a c = true) ->
     exists m a, c = child p m /\ In (EvOpen p) (pre ++ t0) /\ In (EvLstat c a) (pre ++ t0) /\ passes st a c = true).
  { intros c pre t0 (m & a & -> & H1 & H2 & H3). exists m, a. repeat split; auto; apply in_or_app; now left. }
  induction H as [n|n c it|n c it x t Hg H|n c it e t es rest t' Hg H Hk IH|n c it e t x t' Hg H Hk IH]; intros pre Hpre; try apply always_nil.
  - eapply Hone; [exact H|]. apply Hpre. now left.
  - apply always_app; [eapply Hone; [exact H|]; apply Hpre; now left|]. apply IH. intros c' Hc'. apply Hmore, Hpre. now right.
  - apply always_app; [eapply Hone; [exact H|]; apply Hpre; now left|]. apply IH. intros c' Hc'. apply Hmore, Hpre. now right.
Qed.

Lemma scan_permitted w st o (E : exn -> Prop) : callbacks w o (modest w) E ->
  agrees w (o_dir_matcher o) (s_dirs st) -> agrees w (o_file_matcher o) (s_files st) ->
  obeys w (fun q => handle (Z.to_nat (o_max_depth o)) o 0 q (path_filter o)) (fun p r t => always (permitted st p) [] t).
Proof.
  intros (Hc1 & Hc2 & Hc3 & _ & _ & Hc6) Ha1 Ha2.
  apply (handle_runs w o _ _ _ (fun _ => cb (modest w) E) (cbg_obeys _ _ _ _ Hc1 Ha1) (cbg_obeys _ _ _ _ Hc2 Ha2) (callback_obeys _ _ _ _ _ _ Hc3)
           (fun a => callback_obeys _ _ _ _ _ _ (Hc6 a))
           (fun d p r t => always (permitted st p) [] t)); try lia.
  - intros d p h a k _ _ _. apply always_cons; [apply permitted_other; intros q [E0|[E0|[y E0]]]; discriminate|].
    apply always_cons; [|apply always_nil]. intros q [E0|[E0|[y E0]]]; try discriminate. injection E0 as <- _. now left.
  - intros d p h a _ _ _. apply always_cons; [apply permitted_other; intros q [E0|[E0|[y E0]]]; discriminate|].
    apply always_cons; [|apply always_nil]. intros q [E0|[E0|[y E0]]]; try discriminate. injection E0 as <- _. now left.
  - intros d p h _ _ _. apply always_cons; [apply permitted_other; intros q [E0|[E0|[y E0]]]; discriminate|]. apply always_nil.
  - intros d p h _ _ _ _. apply always_cons; [apply permitted_other; intros q [E0|[E0|[y E0]]]; discriminate|].
    apply always_cons; [|apply always_nil]. intros q [E0|[E0|[y E0]]]; try discriminate. injection E0 as <-. now left.
  - intros d p h dl rb t ok _ _ _ _ Hb _.
    apply always_cons; [apply permitted_other; intros q [E0|[E0|[y E0]]]; discriminate|].
    apply always_cons; [intros q [E0|[E0|[y E0]]]; try discriminate; injection E0 as <-; now left|].
    set (pre := ([] ++ [EvLstat p (Some KDir)]) ++ [EvOpen p]). assert (Hpre : In (EvOpen p) pre) by (cbn; auto).
    clearbody pre. apply always_app; [|apply always_cons; [apply permitted_other; intros q [E0|[E0|[y E0]]]; discriminate|apply always_nil]].
    assert (Hq : forall (x : res Z) t0 pre0, (modest w t0 /\ (forall y, x = Throw y -> E y)) -> always (permitted st p) pre0 t0).
    { intros x t0 pre0 [Hq _]. apply always_modest with (w := w); [|exact Hq]. intros t1 ev Hu. apply permitted_other. intros q [E0|[E0|[y E0]]]; subst; destruct Hu. }
    assert (Hflt : forall l r t0 pre0, filter_run w (cbg w (s_dirs st)) (cbg w (s_files st)) l r t0 -> always (permitted st p) pre0 t0).
    { intros l r t0 pre0 Hf. apply always_in. intros ev Hin t1. apply permitted_other. intro q. destruct (cbg_filter _ _ _ _ _ Hf) as (Hno & _). now apply Hno. }
    assert (Hord : forall l r t0 pre0, order_run w o (fun _ => cb (modest w) E) l r t0 -> always (permitted st p) pre0 t0).
    { intros l r t0 pre0 Hs. apply always_modest with (w := w).
      - intros t1 ev Hu. apply permitted_other. intros q [E0|[E0|[y E0]]]; subst; destruct Hu.
      - exact (order_run_K w o (modest w) (modest w) (modest_app w) (modest_nil w) (fun _ H => H) E l r t0 Hs). }
    assert (Hkids : forall l t0 t' order ts r mc t'' ,
       filter_run w (cbg w (s_dirs st)) (cbg w (s_files st)) (map (child p) (dl_names dl)) (Ok l) t' ->
       Permutation l order -> kids_run (fun p r t => always (permitted st p) [] t) (0 <=? mc) mc 0 order r t'' ->
       always (permitted st p) (((pre ++ t0) ++ t') ++ ts) t'').
    { intros l t0 t' order ts r mc t'' Hf HP Hk. eapply kids_permitted; [|exact Hk|]; [auto|]. intros c Hc.
      apply (Permutation_in c (Permutation_sym HP)) in Hc.
      destruct (cbg_filter _ _ _ _ _ Hf) as (_ & _ & Hacc & _). destruct (Hacc l eq_refl c Hc) as (h0 & a & _ & Hi & Hp).
      apply (filter_run_sub _ _ _ _ _ _ Hf) in Hc. apply in_map_iff in Hc. destruct Hc as (m & <- & _).
      exists m, a. repeat split; auto; rewrite !in_app_iff; auto. }
    destruct Hb as [x t0 Hk0|mc t0 x t' Hk0 Hf|mc t0 l t' Hk0 Hf Hd0|mc t0 l t' x ts Hk0 Hf Hd0 Hs
      |mc t0 l t' order ts x t'' Hk0 Hf Hd0 Hs Hkr|mc t0 l t' order ts es rest t'' Hk0 Hf Hd0 Hs Hkr].
    + eapply Hq. exact Hk0.
    + apply always_app; [eapply Hq; exact Hk0|]. eapply Hflt. exact Hf.
    + apply always_app; [eapply Hq; exact Hk0|]. apply always_app; [eapply Hflt; exact Hf|].
      apply always_cons; [apply permitted_other; intros q [E0|[E0|[y E0]]]; discriminate|apply always_nil].
    + apply always_app; [eapply Hq; exact Hk0|]. apply always_app; [eapply Hflt; exact Hf|]. eapply Hord. exact Hs.
    + apply always_app; [eapply Hq; exact Hk0|]. apply always_app; [eapply Hflt; exact Hf|]. apply always_app; [eapply Hord; exact Hs|].
      eapply Hkids; [exact Hf|apply Hs|exact Hkr].
    + apply always_app; [eapply Hq; exact Hk0|]. apply always_app; [eapply Hflt; exact Hf|]. apply always_app; [eapply Hord; exact Hs|].
      eapply Hkids; [exact Hf|apply Hs|exact Hkr].
Qed.

Lemma modest_looks w t : modest w t -> forall ev q, In ev t -> ~ looks_into ev q.
Proof.
  intros Hq ev q Hin Hl. unfold modest in Hq. rewrite Forall_forall in Hq. specialize (Hq _ Hin).
  destruct ev; destruct Hq; destruct Hl as [?|[?|[? ?]]]; discriminate.
Qed.

Lemma C13_permitted o p w st h : callbacks w o (modest w) (fun _ => True) ->
  agrees w (o_dir_matcher o) (s_dirs st) -> agrees w (o_file_matcher o) (s_files st) ->
  exists r t, pretty_print o p w h = (r, rev t ++ h) /\
    forall t1 ev t2 q, t = t1 ++ ev :: t2 -> looks_into ev q -> q <> location w p ->
      exists p' n a, q = child p' n /\ In (EvOpen p') t1 /\ In (EvLstat q a) t1 /\ passes st a q = true.
Proof.
  intros Hc Ha1 Ha2.
  destruct (print_runs w o (modest w) (fun _ => True) _ p (modest_nil w) (modest_app w) I Hc (scan_permitted _ _ _ _ Hc Ha1 Ha2) h) as (r & t & Er & H).
  exists r, t. split; [exact Er|]. intros t1 ev t2 q Et Hl Hne.
  assert (HA : always (permitted st (location w p)) [] t).
  { destruct H as [(x & _ & H)|(e & u1 & u2 & -> & _ & H & Hq & _)]; [exact H|]. apply always_app; [exact H|].
    apply always_in. intros ev' Hin u. apply permitted_other. intro q'. now apply (modest_looks _ _ Hq). }
  destruct (HA t1 ev t2 Et q Hl) as [->|H']; [now destruct Hne|exact H'].
Qed.

(** ** C14 *)
Definition listed (w : world) (o : options) (d : Z) (r : res (option entry)) (t : trace) : Prop :=
  forall e k q es, r = Ok (Some e) -> at_depth k e (EDir q es) -> d + Z.of_nat k < o_max_depth o ->
    In (EvOpen q) t /\ exists h dl, w_open w h q = Some dl /\
      forall n, In n (dl_names dl) -> exists h', In (EvLstat (child q n) (w_lstat w h' (child q n))) t.

Lemma filter_run_lstat w (Cd Cf : path -> res bool -> trace -> Prop) l l' t : filter_run w Cd Cf l (Ok l') t ->
  forall c, In c l -> exists h, In (EvLstat c (w_lstat w h c)) t.
Proof.
  intro H. remember (Ok l') as r eqn:Er. revert l' Er.
  induction H as [|c l y t Hf|c l b t l0 t' Hf H IH|c l b t y t' Hf H IH]; intros l' Er; try discriminate; injection Er as <-.
  - intros c [].
  - intros c0 [<-|Hi].
    + destruct Hf as (h & a & u & -> & -> & _). exists h. now left.
    + destruct (IH _ eq_refl _ Hi) as (a & Ha). exists a. apply in_or_app. now right.
Qed.

Lemma scan_listed w o (K : trace -> Prop) (E : exn -> Prop) : callbacks w o K E ->
  obeys w (fun q => handle (Z.to_nat (o_max_depth o)) o 0 q (path_filter o)) (fun p r t => listed w o 0 r t).
Proof.
  intros Hc. destruct (callbacks_obey _ _ _ _ Hc) as (H1 & H2 & H3 & H6).
  apply (handle_runs w o _ _ _ (fun _ => cb _ _) H1 H2 H3 H6 (fun d p r t => listed w o d r t)); try lia.
  - intros d p h a k _ _ _ e j q es He Hat. injection He as <-. apply at_depth_file in Hat. discriminate.
  - intros d p h a _ _ _ e j q es He. discriminate.
  - intros d p h _ _ Hle e j q es He Hat Hlt. injection He as <-. exfalso. inversion Hat as [|k d0 es0 c x Hin Hat']; subst; [lia|].
    destruct Hin as [<-|[]]. inversion Hat'.
  - intros d p h _ _ _ _ e j q es He. discriminate.
  - intros d p h dl rb t ok _ _ Hlt Ho Hb _ e j q es He Hat Hj. destruct rb as [es0|x]; [|discriminate]. destruct ok; [|discriminate].
    injection He as <-. inversion Hat as [|k d0 es1 c x Hin Hat']; subst; cbn [app].
    + split; [right; now left|]. exists (EvLstat q (Some KDir) :: h), dl. split; [exact Ho|]. intros n Hn.
      inversion Hb as [| | | | |mc t0 l t' order ts es2 rest t'' _ Hf _ _ _ Ees Et]; subst.
      destruct (filter_run_lstat _ _ _ _ _ _ Hf (child q n) (in_map _ _ _ Hn)) as (a & Ha). exists a.
      right; right. rewrite !in_app_iff. auto.
    + destruct (body_run_entries _ _ _ _ _ _ _ _ _ _ _ Hb c Hin) as [->|(n & u & _ & H & Hi)]; [inversion Hat'|].
      destruct (H c k q es eq_refl Hat' ltac:(lia)) as (Hop & h0 & dl0 & Ho0 & Hl).
      split; [right; right; apply in_or_app; left; now apply Hi|]. exists h0, dl0. split; [exact Ho0|].
      intros m Hm. destruct (Hl m Hm) as (a & Ha). exists a. right; right. apply in_or_app; left; now apply Hi.
Qed.

Lemma C14_lemma o p w dk h out h' v : steady w dk -> callbacks w o (fun _ => True) (fun _ => True) -> sees w o v ->
  pretty_print o p w h = (Ok out, h') ->
  exists e h1 s t, scan o (location w p) w h = (Ok e, h1) /\ shows v true e s /\ out = text (o_tree_format o) (labelled v s) /\
    h' = rev t ++ h /\
    forall k q es, at_depth k e (EDir q es) -> Z.of_nat k < o_max_depth o ->
      In (EvOpen q) t /\ exists names, d_list dk q = Some names /\ forall n, In n names -> In (EvLstat (child q n) (d_kind dk (child q n))) t.
Proof.
  intros Hst Hc Hv Hp. destruct Hst as (Sk & _ & So & _).
  destruct (print_runs w o (fun _ => True) (fun _ => True) _ p I (fun _ _ _ _ => I) I Hc (scan_listed _ _ _ _ Hc) h) as (r & t & Er & H).
  rewrite Hp in Er. injection Er as <- ->. destruct H as [(x & ? & _)|(e & t1 & t2 & -> & Hs & HL & Hq & _)]; [discriminate|].
  destruct (print_displays _ _ _ _ _ _ _ Hv Hp) as (e' & h1 & Hs' & s & Hsh & Ho).
  rewrite Hs in Hs'. injection Hs' as <- <-. exists e, (rev t1 ++ h), s, (t1 ++ t2). repeat split; auto.
  - apply in_or_app. left. eapply HL; eauto.
  - destruct (HL e k q es eq_refl H ltac:(lia)) as (_ & h0 & dl & Ho0 & Hl). rewrite So in Ho0. unfold opt_bind in Ho0.
    destruct (d_list dk q) as [names|]; [|discriminate]. injection Ho0 as <-. exists names. split; [reflexivity|].
    intros n Hn. destruct (Hl n Hn) as (h2 & Ha). apply in_or_app. left. rewrite Sk in Ha. exact Ha.
Qed.

(** ** C19 *)
Definition io_cause (x : exn) (t : trace) : Prop :=
  (exists q, x = ExUncheckedIO ReadAttributes q /\ In (EvStat q None) t) \/
  (exists q, x = ExUncheckedIO ListFiles q /\ (In (EvOpenFail q) t \/ In (EvClose q false) t)) \/
  (exists q, x = ExDirectoryIterator q /\ In (EvIterFail q) t).

Lemma io_cause_incl x t t' : incl t t' -> io_cause x t -> io_cause x t'.
Proof.
  intros Hi [(q & -> & H)|[(q & -> & H)|(q & -> & H)]]; [left|right; left|right; right]; exists q; (split; [reflexivity|]); [now apply Hi| |now apply Hi].
  destruct H as [H|H]; apply Hi in H; auto.
Qed.

Definition raised (E : exn -> Prop) (r : res (option entry)) (t : trace) : Prop :=
  forall x, r = Throw x -> E x \/ io_cause x t.

Lemma kids_raised (E : exn -> Prop) (Q : path -> res (option entry) -> trace -> Prop) hl mc n it r t :
  (forall c r t, Q c r t -> raised E r t) -> kids_run Q hl mc n it r t -> forall x, r = Throw x -> E x \/ io_cause x t.
Proof.
  intros HQ H. induction H as [n|n c it|n c it x t Hg H|n c it e t es rest t' Hg H Hk IH|n c it e t x t' Hg H Hk IH]; intros y Ey;
    try discriminate; injection Ey as ->.
  - exact (HQ _ _ _ H y eq_refl).
  - destruct (IH y eq_refl) as [?|Hc]; [now left|right]. eapply io_cause_incl; [|exact Hc]. apply incl_appr, incl_refl.
Qed.

Lemma scan_raised w o (K : trace -> Prop) (E : exn -> Prop) : callbacks w o K E -> orderly w o \/ E ExIllegalArgument ->
  obeys w (fun q => handle (Z.to_nat (o_max_depth o)) o 0 q (path_filter o)) (fun p r t => raised E r t).
Proof.
  intros Hc Hcmp. destruct (callbacks_obey _ _ _ _ Hc) as (H1 & H2 & H3 & H6).
  apply (handle_runs w o _ _ _ (fun _ => cb _ _) H1 H2 H3 H6 (fun d p r t => raised E r t)); try lia.
  - intros d p h a k _ _ _ x Hx. discriminate.
  - intros d p h a _ _ _ x Hx. injection Hx as <-. right. left. exists p. split; [reflexivity|]. right. now left.
  - intros d p h _ _ _ x Hx. discriminate.
  - intros d p h _ _ _ _ x Hx. injection Hx as <-. right. right. left. exists p. split; [reflexivity|]. left. right. now left.
  - intros d p h dl rb t ok _ _ _ _ Hb _ x Hx. destruct rb as [es|y]; cbn in Hx.
    + destruct ok; [discriminate|]. injection Hx as <-. right. right. left. exists p. split; [reflexivity|]. right.
      cbn [app]. right. right. apply in_or_app. right. now left.
    + injection Hx as ->. assert (Hbody : E x \/ io_cause x t).
      { inversion Hb as [y t0 [_ Hk]|mc t0 y t' [Hk _] Hf|mc t0 l t' [Hk _] Hf Hd|mc t0 l t' y ts [Hk _] Hf Hd Hs
          |mc t0 l t' order ts y t'' [Hk _] Hf Hd Hs Hkids|]; subst.
        - left. now apply Hk.
        - left. eapply filter_run_E; eassumption.
        - right. right. right. exists p. split; [reflexivity|]. rewrite !in_app_iff. right. right. now left.
        - left. exact (order_run_E w o K E l x ts Hcmp Hs).
        - destruct (kids_raised E _ _ _ _ _ _ _ ltac:(intros c r u H; exact H) Hkids x eq_refl) as [?|Hio]; [now left|right].
          eapply io_cause_incl; [|exact Hio]. do 3 apply incl_appr. apply incl_refl. }
      destruct Hbody as [?|Hio]; [now left|right]. eapply io_cause_incl; [|exact Hio]. cbn [app]. do 2 apply incl_tl. apply incl_appl, incl_refl.
Qed.

Lemma scan_then_returns o p w h e h1 v : sees w o v -> p_names (location w p) <> [] -> scan o (location w p) w h = (Ok e, h1) ->
  exists out h', pretty_print o p w h = (Ok out, h').
Proof.
  intros (Hx & He & Hc) Hne Hs. apply scan_handle in Hs.
  assert (Hn : named e) by (pose proof (handle_shaped _ _ _ _ _ _ _ _ _ Hs) as Hsh; now apply (shaped_named_below _ _ _ _ Hsh)).
  destruct (render_tree_spec w o (line_renderer_create o) v (extension_answers _ _ _ Hx) He Hc e Hn) as (s & _ & Hy).
  destruct (Hy h1) as [h' E]. eexists _, h'. rewrite scan_unfold. unfold bind. rewrite Hs. exact E.
Qed.

Lemma C19_lemma o p w h v (E : exn -> Prop) : callbacks w o (fun _ => True) E -> orderly w o \/ E ExIllegalArgument ->
  sees w o v -> p_names (location w p) <> [] ->
  exists r t, pretty_print o p w h = (r, rev t ++ h) /\ forall x, r = Throw x -> E x \/ io_cause x t.
Proof.
  intros Hc Hcmp Hv Hne.
  pose proof (callbacks_weaken w o _ (fun _ => True) E (fun _ => True) (fun _ _ => I) (fun _ _ => I) Hc) as Hc'.
  destruct (print_runs w o (fun _ => True) (fun _ => True) _ p I (fun _ _ _ _ => I) I Hc' (scan_raised _ _ _ _ Hc Hcmp) h) as (r & t & Er & H).
  exists r, t. split; [exact Er|]. intros x ->. destruct H as [(y & Ey & H)|(e & t1 & t2 & -> & Hs & _)].
  - injection Ey as <-. now apply H.
  - destruct (scan_then_returns _ _ _ _ _ _ _ Hv Hne Hs) as (out & h' & E'). rewrite E' in Er. discriminate.
Qed.

(** ** C124 *)
Lemma filter_run_short w (Cd Cf : path -> res bool -> trace -> Prop) l l' t : filter_run w Cd Cf l (Ok l') t -> (length l' <= length l)%nat.
Proof.
  intro H. remember (Ok l') as r eqn:Er. revert l' Er.
  induction H as [|c l y t Hf|c l b t l0 t' Hf H IH|c l b t y t' Hf H IH]; intros l' Er; try discriminate; injection Er as <-; [reflexivity|].
  specialize (IH _ eq_refl). destruct b; cbn; lia.
Qed.

Definition large_opened (w : world) (t : trace) : Prop :=
  exists q h dl, In (EvOpen q) t /\ w_open w h q = Some dl /\ (32 <= length (dl_names dl))%nat.

Lemma large_incl w t t' : incl t t' -> large_opened w t -> large_opened w t'.
Proof. intros H (q & h & dl & H1 & H2). exists q, h, dl. split; [now apply H|exact H2]. Qed.

Definition refused (w : world) (o : options) (E : exn -> Prop) (r : res (option entry)) (t : trace) : Prop :=
  r = Throw ExIllegalArgument -> E ExIllegalArgument \/ (~ orderly w o /\ large_opened w t).

Lemma kids_refused w o (E : exn -> Prop) (Q : path -> res (option entry) -> trace -> Prop) hl mc n it r t :
  (forall c r t, Q c r t -> refused w o E r t) -> kids_run Q hl mc n it r t -> r = Throw ExIllegalArgument ->
  E ExIllegalArgument \/ (~ orderly w o /\ large_opened w t).
Proof.
  intros HQ H. induction H as [n|n c it|n c it x t Hg H|n c it e t es rest t' Hg H Hk IH|n c it e t x t' Hg H Hk IH]; intros Ey;
    try discriminate; injection Ey as ->.
  - exact (HQ _ _ _ H eq_refl).
  - destruct (IH eq_refl) as [?|(Hn & Hc)]; [now left|right]. split; [exact Hn|]. eapply large_incl; [|exact Hc]. apply incl_appr, incl_refl.
Qed.

Lemma scan_refused w o (K : trace -> Prop) (E : exn -> Prop) : callbacks w o K E ->
  obeys w (fun q => handle (Z.to_nat (o_max_depth o)) o 0 q (path_filter o)) (fun p r t => refused w o E r t).
Proof.
  intros Hc. destruct (callbacks_obey _ _ _ _ Hc) as (H1 & H2 & H3 & H6).
  apply (handle_runs w o _ _ _ (fun _ => cb _ _) H1 H2 H3 H6 (fun d p r t => refused w o E r t)); try lia; try (intros; intro; discriminate).
  intros d p h dl rb t ok _ _ _ Hop Hb _ Hx. destruct rb as [es|y]; cbn in Hx; [destruct ok; discriminate|]. injection Hx as ->.
  inversion Hb as [y t0 [_ Hk]|mc t0 y t' [Hk _] Hf|mc t0 l t' [Hk _] Hf Hd|mc t0 l t' y ts [Hk _] Hf Hd Hs
    |mc t0 l t' order ts y t'' [Hk _] Hf Hd Hs Hkids|]; subst.
  - left. now apply Hk.
  - left. eapply filter_run_E; eassumption.
  - destruct Hs as [(a & b & t1 & t2 & _ & _ & [_ H])|(_ & _ & L & Hn)]; [left; now apply H|right]. split.
    + intros (g & Hg & Ha). exact (Hn g Hg Ha).
    + exists p, (EvLstat p (Some KDir) :: h), dl. split; [cbn; auto|]. split; [exact Hop|]. apply filter_run_short in Hf. rewrite map_length in Hf. lia.
  - destruct (kids_refused w o E _ _ _ _ _ _ _ ltac:(intros c r u H; exact H) Hkids eq_refl) as [?|(Hn & Hio)]; [now left|right]. split; [exact Hn|].
    eapply large_incl; [|exact Hio]. cbn [app]. do 2 apply incl_tl. apply incl_appl. do 3 apply incl_appr. apply incl_refl.
Qed.

Lemma C124_lemma o p w h (E : exn -> Prop) : callbacks w o (fun _ => True) E ->
  exists r t, pretty_print o p w h = (r, rev t ++ h) /\
    (r = Throw ExIllegalArgument -> E ExIllegalArgument \/ (~ orderly w o /\ large_opened w t)).
Proof.
  intros Hc. pose proof (callbacks_weaken w o _ (fun _ => True) E (fun x => x = ExNullPointer \/ E x) (fun _ _ => I) (fun _ Hx => or_intror Hx) Hc) as Hc'.
  destruct (print_runs w o (fun _ => True) (fun x => x = ExNullPointer \/ E x) _ p I (fun _ _ _ _ => I) (or_introl eq_refl) Hc' (scan_refused _ _ _ _ Hc) h)
    as (r & t & Er & H).
  exists r, t. split; [exact Er|]. intros ->. destruct H as [(y & Ey & H)|(e & t1 & t2 & -> & _ & _ & _ & H)].
  - injection Ey as <-. now apply H.
  - destruct (H _ eq_refl) as [H'|H']; [discriminate|now left].
Qed.

(** ** C20 *)
Definition clean (t : trace) : Prop := forall ev q, In ev t -> ~ failed ev q.

Lemma clean_app t t' : clean t -> clean t' -> clean (t ++ t').
Proof. intros H H' ev q Hin. apply in_app_or in Hin. destruct Hin; auto. Qed.

Lemma clean_nil : clean [].
Proof. intros ev q []. Qed.

Lemma clean_one ev : (forall q, ~ failed ev q) -> clean [ev].
Proof. intros H ev' q [<-|[]]. apply H. Qed.

Ltac not_failed := intros ? [?|[?|[?|?]]]; discriminate.

Lemma clean_kids (Q : path -> res (option entry) -> trace -> Prop) hl mc n it r t :
  (forall c e t, Q c (Ok (Some e)) t -> clean t) -> kids_run Q hl mc n it r t -> forall es, r = Ok es -> clean t.
Proof.
  intros HQ H. induction H as [n|n c it|n c it x t Hg H|n c it e t es rest t' Hg H Hk IH|n c it e t x t' Hg H Hk IH]; intros y Ey;
    try discriminate; try apply clean_nil. apply clean_app; eauto.
Qed.

Lemma scan_clean w o (E : exn -> Prop) : callbacks w o clean E ->
  obeys w (fun q => handle (Z.to_nat (o_max_depth o)) o 0 q (path_filter o)) (fun p r t => forall e, r = Ok (Some e) -> clean t).
Proof.
  intros Hc. destruct (callbacks_obey _ _ _ _ Hc) as (H1 & H2 & H3 & H6).
  apply (handle_runs w o _ _ _ (fun _ => cb _ _) H1 H2 H3 H6 (fun d p r t => forall e, r = Ok (Some e) -> clean t)); try lia; try discriminate.
  - intros d p h a k _ _ _ e _. apply (clean_app [_] [_]); apply clean_one; not_failed.
  - intros d p h _ _ _ e _. apply clean_one; not_failed.
  - intros d p h dl rb t ok _ _ _ _ Hb _ e He. destruct rb as [es|y]; [|discriminate]. destruct ok; [|discriminate].
    apply (clean_app [_; _]); [apply (clean_app [_] [_]); apply clean_one; not_failed|].
    apply clean_app; [|apply clean_one; not_failed].
    inversion Hb as [| | | | |mc t0 l t' order ts es0 rest t'' [Hl _] Hf Hd (Hs & _) Hk Ees Et]; subst.
    apply clean_app; [exact Hl|]. apply clean_app.
    + revert Hf. apply (filter_run_K w clean clean clean_app clean_nil (fun t H => H)). intros h0 p0. apply clean_one; not_failed.
    + apply clean_app; [exact (compare_run_K clean clean clean_app clean_nil (fun t H => H) E ts Hs)|].
      eapply clean_kids; [|exact Hk|reflexivity]. intros c e0 u H. exact (H _ eq_refl).
Qed.

Lemma C20_lemma o p w h out h' : callbacks w o (fun t => forall ev q, In ev t -> ~ failed ev q) (fun _ => True) -> pretty_print o p w h = (Ok out, h') ->
  exists t, h' = rev t ++ h /\ forall ev q, In ev t -> ~ failed ev q.
Proof.
  intros Hc Hp. destruct (print_runs w o clean (fun _ => True) _ p clean_nil clean_app I Hc (scan_clean _ _ _ Hc) h) as (r & t & Er & H).
  rewrite Hp in Er. injection Er as <- ->. destruct H as [(x & ? & _)|(e & t1 & t2 & -> & Hs & HQ & Hq & _)]; [discriminate|].
  exists (t1 ++ t2). split; [reflexivity|]. apply clean_app; [now apply (HQ e)|exact Hq].
Qed.

(** ** C59 *)
Lemma C59_accesses o p w h (K : trace -> Prop) : o_max_depth o <= 0 -> w_lstat w h (location w p) = Some KDir ->
  K [] -> (forall t t', K t -> K t' -> K (t ++ t')) -> callback w (o_emoji o) K (fun _ => True) ->
  match o_line_extension o with Some f => callback w f K (fun _ => True) | None => True end ->
  exists r t, pretty_print o p w h = (r, rev t ++ EvLstat (location w p) (Some KDir) :: h) /\ K t.
Proof.
  intros Hm Hd Kn Ka He Hx. rewrite scan_unfold. unfold bind. rewrite (handle_cut _ _ _ _ Hm Hd).
  destruct (render_traced w o K (fun _ => True) Kn Ka I He Hx (EDir (location w p) [EMaxDepth 0]) (EvLstat (location w p) (Some KDir) :: h))
    as (r & t & Hr & HK & _). exists r, t. split; [exact Hr|exact HK].
Qed.
