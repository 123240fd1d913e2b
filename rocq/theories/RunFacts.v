(** * Traces of whole runs *)

From Verif Require Import SpecHist RenderFacts ScanFacts PathFacts TreeFacts TraceFacts PrintFacts ShownFacts.
Open Scope Z_scope.

(** ** A closed class of computations contains the renderer *)
Section RenderClosed.
  Context (P : forall A, M A -> Prop) (o : options) (lr : line_renderer).
  Hypothesis Pret : forall A (a : A), P A (ret a).
  Hypothesis Pnpe : forall A, P A (throw ExNullPointer).
  Hypothesis Pbind : forall A B (m : M A) (f : A -> M B), P A m -> (forall a, P B (f a)) -> P B (bind m f).
  Hypothesis Pemoji : forall p, P _ (lr_emoji lr p).
  Hypothesis Pext : forall p, P _ (compute_line_extension o p).

  Lemma closed_mapM A B (f : A -> M B) l : (forall a, P _ (f a)) -> P _ (mapM f l).
  Proof. intro H. induction l as [|a l IH]; cbn [mapM]; auto. Qed.

  Lemma closed_begin d dir dirs : P _ (render_directory_begin lr d dir dirs).
  Proof.
    unfold render_directory_begin, emoji_prefix, format_directory_begin. apply Pbind; [apply Pbind; auto|]. intro e.
    apply Pbind; [|auto]. apply Pbind; [|auto]. apply closed_mapM. intro x. unfold dir_label. destruct (get_file_name x); auto.
  Qed.

  Lemma closed_render e : forall d cp, P _ (render_entry o lr e d cp).
  Proof.
    induction e as [dir es IH|f k|dd|n] using entry_ind'; intros d cp; cbn [render_entry]; auto.
    - assert (Hfin : forall ev : option (option jstring), P _
        (line <- render_directory_begin lr d dir cp;
         ext <- match ev with Some x => ret x | None => compute_line_extension o dir end;
         (let line := line ++ or_empty ext in
          let line := match es with [] => line | _ => line ++ [c_nl] end in
          children <- render_children (fun c cd => render_entry o lr c cd (initial_compact_paths c)) d es;
          ret (line ++ children)))).
      { intro ev. apply Pbind; [apply closed_begin|]. intro line. apply Pbind; [destruct ev; auto|]. intro ext. cbn zeta.
        apply Pbind; [|auto]. clear -IH Pret Pbind. induction IH as [|c es Hc Hes IHes]; [apply Pret|].
        destruct es as [|c' es]; [apply Hc|]. simpl in *. apply Pbind; [apply Hc|]. intro. apply Pbind; [exact IHes|]. auto. }
      destruct es as [|c es]; [apply (Hfin None)|].
      destruct es as [|c' es]; [|destruct c; apply (Hfin None)].
      destruct c as [cd ces|f k|sd|n]; try apply (Hfin None).
      destruct (o_compact o && negb (depth_is_root d)); [|apply (Hfin None)].
      apply Pbind; [apply Pext|]. intros [x|]; [apply (Hfin (Some (Some x)))|].
      inversion IH as [|a b Hc _]; subst. apply Hc.
    - unfold render_file, render_file_line, emoji_prefix. apply Pbind; [|auto].
      apply Pbind; [apply Pbind; auto|]. intro. apply Pbind; [|auto]. unfold format_file. destruct (get_file_name f); auto.
  Qed.
End RenderClosed.

(** ** Runs with a trace in [K] and exceptions in [E] *)
Definition traced {A} (w : world) (K : trace -> Prop) (E : exn -> Prop) (m : M A) : Prop :=
  forall h, exists r t, runs w m h r t /\ K t /\ (forall x, r = Throw x -> E x).

Section Render.
  Context (w : world) (o : options) (K : trace -> Prop) (E : exn -> Prop).
  Hypothesis Knil : K [].
  Hypothesis Kapp : forall t t', K t -> K t' -> K (t ++ t').
  Hypothesis Enpe : E ExNullPointer.
  Hypothesis He : callback w (o_emoji o) K E.
  Hypothesis Hx : match o_line_extension o with Some f => callback w f K E | None => True end.

  Lemma traced_bind A B (m : M A) (f : A -> M B) : traced w K E m -> (forall a, traced w K E (f a)) -> traced w K E (bind m f).
  Proof.
    intros Hm Hf h. destruct (Hm h) as (r & t & Hr & HK & HE). destruct r as [a|x].
    - destruct (Hf a (rev t ++ h)) as (r' & t' & Hr' & HK' & HE'). exists r', (t ++ t').
      split; [eapply runs_bind_ok; eauto|]. auto.
    - exists (Throw x), t. split; [now apply runs_bind_throw|]. split; [exact HK|]. intros y Ey. injection Ey as ->. now apply HE.
  Qed.

  Lemma render_traced e : traced w K E (render_tree o (line_renderer_create o) e).
  Proof.
    unfold render_tree.
    apply (closed_render (fun A m => traced w K E m)).
    - intros A a h. exists (Ok a), []. repeat split; auto. discriminate.
    - intros A h. exists (Throw ExNullPointer), []. repeat split; auto. intros x Ex. now injection Ex as <-.
    - intros A B m f. apply traced_bind.
    - intros p h. apply He.
    - intros p h. unfold compute_line_extension. destruct (o_line_extension o) as [f|]; [apply Hx|].
      exists (Ok None), []. repeat split; auto. discriminate.
  Qed.
End Render.

(** A run is a scan, whose runs satisfy [Q], then rendering. *)
Lemma print_runs w o (K : trace -> Prop) (E : exn -> Prop) (Q : path -> res (option entry) -> trace -> Prop) p :
  K [] -> (forall t t', K t -> K t' -> K (t ++ t')) -> E ExNullPointer -> callbacks w o K E ->
  obeys w (fun q => handle (Z.to_nat (o_max_depth o)) o 0 q (path_filter o)) Q ->
  forall h, exists r t, pretty_print o p w h = (r, rev t ++ h) /\
    ((exists x, r = Throw x /\ Q (location w p) (Throw x) t) \/
     (exists e t1 t2, t = t1 ++ t2 /\ scan o (location w p) w h = (Ok e, rev t1 ++ h) /\
                      Q (location w p) (Ok (Some e)) t1 /\ K t2 /\ (forall x, r = Throw x -> E x))).
Proof.
  intros Kn Ka En Hc HQ h. destruct (HQ (location w p) h) as (r & t & Hr & HC). rewrite scan_unfold.
  destruct r as [[e|]|x].
  - destruct (render_traced w o K E Kn Ka En (proj1 (proj2 (proj2 (proj2 Hc)))) (proj1 (proj2 (proj2 (proj2 (proj2 Hc))))) e (rev t ++ h)) as (r' & t' & Hr' & HK & HE).
    exists r', (t ++ t'). split; [eapply runs_bind_ok; eauto|]. right. exists e, t, t'. repeat split; auto.
    apply scan_handle. exact Hr.
  - exfalso. eapply handle_not_none. exact Hr.
  - exists (Throw x), t. split; [now apply runs_bind_throw|]. left. eauto.
Qed.

(** ** Always *)
Lemma always_nil (P : trace -> event -> Prop) pre : always P pre [].
Proof. intros t1 ev t2 H. destruct t1; discriminate. Qed.

Lemma always_cons (P : trace -> event -> Prop) pre ev t : P pre ev -> always P (pre ++ [ev]) t -> always P pre (ev :: t).
Proof.
  intros H1 H2 t1 ev' t2 E. destruct t1 as [|a t1]; cbn in E; injection E as <- E.
  - now rewrite app_nil_r.
  - specialize (H2 t1 ev' t2 E). rewrite <- app_assoc in H2. exact H2.
Qed.

Lemma always_app (P : trace -> event -> Prop) pre t t' : always P pre t -> always P (pre ++ t) t' -> always P pre (t ++ t').
Proof.
  revert pre. induction t as [|ev t IH]; intros pre H1 H2; cbn [app].
  - now rewrite app_nil_r in H2.
  - apply always_cons.
    + specialize (H1 [] ev t eq_refl). now rewrite app_nil_r in H1.
    + apply IH.
      * intros t1 ev' t2 E. specialize (H1 (ev :: t1) ev' t2). rewrite <- app_assoc. apply H1. cbn. now rewrite E.
      * rewrite <- app_assoc. exact H2.
Qed.

Lemma always_weaken (P P' : trace -> event -> Prop) pre pre' t :
  (forall t1 ev, P (pre ++ t1) ev -> P' (pre' ++ t1) ev) -> always P pre t -> always P' pre' t.
Proof. intros H HA t1 ev t2 E. apply H. eapply HA; eauto. Qed.

Lemma always_modest (P : trace -> event -> Prop) w pre t : (forall t1 ev, asks_kind w ev -> P t1 ev) -> modest w t -> always P pre t.
Proof.
  intros H Hq t1 ev t2 ->. apply H. unfold modest in Hq. rewrite Forall_app in Hq. destruct Hq as [_ Hq]. inversion Hq; auto.
Qed.

Lemma modest_app w t t' : modest w t -> modest w t' -> modest w (t ++ t').
Proof. intros. now apply Forall_app. Qed.
Lemma modest_nil w : modest w [].
Proof. constructor. Qed.

Lemma callback_weaken {A B} w (f : A -> M B) (K K' : trace -> Prop) (E E' : exn -> Prop) :
  (forall t, K t -> K' t) -> (forall x, E x -> E' x) -> callback w f K E -> callback w f K' E'.
Proof. intros HK HE H a h. destruct (H a h) as (r & t & Hr & Hk & Hx). exists r, t. auto. Qed.

Lemma callbacks_weaken w o (K K' : trace -> Prop) (E E' : exn -> Prop) :
  (forall t, K t -> K' t) -> (forall x, E x -> E' x) -> callbacks w o K E -> callbacks w o K' E'.
Proof.
  intros HK HE (H1 & H2 & H3 & H4 & H5 & H6). split; [|split; [|split; [|split; [|split]]]]; try (eapply callback_weaken; eassumption).
  - destruct (o_line_extension o); [eapply callback_weaken; eassumption|exact I].
  - intro a. eapply callback_weaken; [exact HK|exact HE|apply H6].
Qed.

(** ** Callbacks of the scanner *)
Lemma callback_obeys A B w (f : A -> M B) K E : callback w f K E ->
  obeys w f (fun _ r t => K t /\ (forall x, r = Throw x -> E x)).
Proof. intros H a h. destruct (H a h) as (r & t & Hr & HK). exists r, t. auto. Qed.

Definition cb {B} (K : trace -> Prop) (E : exn -> Prop) : path -> res B -> trace -> Prop :=
  fun _ r t => K t /\ (forall x, r = Throw x -> E x).

Lemma callbacks_obey w o K E : callbacks w o K E ->
  obeys w (o_dir_matcher o) (cb K E) /\ obeys w (o_file_matcher o) (cb K E) /\ obeys w (o_child_limit o) (cb K E) /\
  forall a, obeys w (o_comparator o a) (cb K E).
Proof. intros (H1 & H2 & H3 & _ & _ & H6). split; [|split; [|split]]; try intro a; apply callback_obeys; auto. Qed.

(** Traces of [filter_run] and [kids_run], given closure properties. *)
Lemma filter_run_sub w (Cd Cf : path -> res bool -> trace -> Prop) l l' t : filter_run w Cd Cf l (Ok l') t -> incl l' l.
Proof.
  intro H. remember (Ok l') as r eqn:Er. revert l' Er.
  induction H as [|c l y t Hf|c l b t l0 t' Hf H IH|c l b t y t' Hf H IH]; intros l' Er; try discriminate; injection Er as <-.
  - intros x [].
  - specialize (IH _ eq_refl). destruct b; intros x Hx.
    + destruct Hx as [->|Hx]; [now left|right; auto].
    + right. auto.
Qed.

Section Closed.
  Context (w : world) (o : options) (Kc K : trace -> Prop) (E : exn -> Prop).
  Hypothesis Kapp : forall t t', K t -> K t' -> K (t ++ t').
  Hypothesis Knil : K [].
  Hypothesis Kcb : forall t, Kc t -> K t.
  Hypothesis Klstat : forall h p, K [EvLstat p (w_lstat w h p)].

  Lemma flt_run_K (E' : exn -> Prop) c r t : flt_run w (cb Kc E') (cb Kc E') c r t -> K t.
  Proof. intros (h & a & u & -> & -> & [[_ [H _]]|[_ [H _]]]); apply (Kapp [EvLstat c _] u); auto. Qed.

  Lemma filter_run_K (E' : exn -> Prop) l r t : filter_run w (cb Kc E') (cb Kc E') l r t -> K t.
  Proof. induction 1; auto; try (apply Kapp; auto); eapply flt_run_K; eauto. Qed.

  Lemma filter_run_E (E' : exn -> Prop) l x t : filter_run w (cb Kc E') (cb Kc E') l (Throw x) t -> E' x.
  Proof.
    intro H. remember (Throw x) as r eqn:Er. induction H as [|c l y t Hf|c l b t l' t' Hf H IH|c l b t y t' Hf H IH]; try discriminate; auto.
    injection Er as ->. destruct Hf as (h & a & u & _ & -> & [[_ [_ H]]|[_ [_ H]]]); auto.
  Qed.

  Lemma kids_run_K (Q : path -> res (option entry) -> trace -> Prop) hl mc n it r t :
    (forall c r t, In c it -> Q c r t -> K t) -> kids_run Q hl mc n it r t -> K t.
  Proof.
    intros HQ H. induction H as [n|n c it|n c it x t Hg H|n c it e t es rest t' Hg H Hk IH|n c it e t x t' Hg H Hk IH]; auto.
    - eapply HQ; [now left|exact H].
    - apply Kapp; [eapply HQ; [now left|exact H]|]. apply IH. intros c' r' t0 Hin. apply HQ. now right.
    - apply Kapp; [eapply HQ; [now left|exact H]|]. apply IH. intros c' r' t0 Hin. apply HQ. now right.
  Qed.

  Lemma kids_run_E (Q : path -> res (option entry) -> trace -> Prop) hl mc n it x t :
    (forall p x t, Q p (Throw x) t -> E x) -> kids_run Q hl mc n it (Throw x) t -> E x.
  Proof.
    intros HQ H. remember (Throw x) as r eqn:Er. induction H; try discriminate; auto; injection Er as ->; eauto.
  Qed.

  Lemma compare_run_K (E' : exn -> Prop) t : compare_run (fun _ => cb Kc E') t -> K t.
  Proof. induction 1 as [|a b z t t' [H _] _ IH]; auto. Qed.

  Lemma order_run_K (E' : exn -> Prop) l r t : order_run w o (fun _ => cb Kc E') l r t -> K t.
  Proof.
    destruct r as [l'|x]; cbn.
    - intros (H & _). eapply compare_run_K; eassumption.
    - intros [(a & b & t1 & t2 & -> & H1 & [H2 _])|(H & _)]; [apply Kapp; auto|]; eapply compare_run_K; eassumption.
  Qed.

  Lemma order_run_E (E' : exn -> Prop) l x t : orderly w o \/ E' ExIllegalArgument ->
    order_run w o (fun _ => cb Kc E') l (Throw x) t -> E' x.
  Proof.
    intro Hf. cbn. intros [(a & b & t1 & t2 & _ & _ & [_ H])|(_ & -> & _ & H)]; [now apply H|]. destruct Hf as [(g & Hg & Ha)|He]; [|exact He]. destruct (H g Hg Ha).
  Qed.

  Lemma body_run_K (E' : exn -> Prop) (Q : path -> res (option entry) -> trace -> Prop) p dl r t :
    K [EvIterFail p] ->
    (forall n r t, In n (dl_names dl) -> Q (child p n) r t -> K t) ->
    body_run w o (cb Kc E') (cb Kc E') (cb Kc E') (fun _ => cb Kc E') Q p dl r t -> K t.
  Proof.
    intros Kiter HQ H.
    assert (Hkid : forall Cd Cf l t0 order, filter_run w Cd Cf (map (child p) (dl_names dl)) (Ok l) t0 -> Permutation l order ->
              forall c r t, In c order -> Q c r t -> K t).
    { intros Cd Cf l t0 order Hf HP c r0 t1 Hin. apply (Permutation_in c (Permutation_sym HP)) in Hin.
      apply (filter_run_sub _ _ _ _ _ _ Hf) in Hin. apply in_map_iff in Hin. destruct Hin as (n & <- & Hn). now apply HQ. }
    destruct H as [x t [Hk _]|mc t x t' [Hk _] Hf|mc t l t' [Hk _] Hf Hd|mc t l t' x ts [Hk _] Hf Hd Hs
      |mc t l t' order ts x t'' [Hk _] Hf Hd Hs Hkids|mc t l t' order ts es rest t'' [Hk _] Hf Hd Hs Hkids]; auto;
      apply Kapp; auto; try (apply Kapp; auto); try (apply Kapp; auto);
      solve [eapply filter_run_K; eassumption | eapply order_run_K; eassumption
        | eapply kids_run_K; [|eassumption]; eapply Hkid; [eassumption|apply Hs]].
  Qed.

  Lemma body_run_E (Q : path -> res (option entry) -> trace -> Prop) p dl x t :
    (forall p x t, Q p (Throw x) t -> E x) -> orderly w o \/ E ExIllegalArgument -> E (ExDirectoryIterator p) ->
    body_run w o (cb Kc E) (cb Kc E) (cb Kc E) (fun _ => cb Kc E) Q p dl (Throw x) t -> E x.
  Proof.
    intros HQ Hcmp Hit H. inversion H as [y t0 [_ Hk]|mc t0 y t' [Hk _] Hf|mc t0 l t' [Hk _] Hf Hd|mc t0 l t' y ts [Hk _] Hf Hd Hs
      |mc t0 l t' order ts y t'' [Hk _] Hf Hd Hs Hkids|]; subst; auto;
      solve [eapply filter_run_E; eassumption | eapply order_run_E; eassumption | eapply kids_run_E; eassumption].
  Qed.
End Closed.

(** ** C15 *)
Lemma balanced_app t t' : balanced t -> balanced t' -> balanced (t ++ t').
Proof.
  intros H H'. induction H as [|ev t Ho Hc H IH|p ok t1 t2 H1 IH1 H2 IH2]; cbn [app]; auto.
  - now constructor.
  - rewrite <- app_assoc. cbn [app]. now constructor.
Qed.

Lemma balanced_wrap p ok t : balanced t -> balanced (EvOpen p :: t ++ [EvClose p ok]).
Proof. intro H. apply (bal_pair p ok t []); [exact H|constructor]. Qed.

Lemma scan_balanced w o E : callbacks w o balanced E ->
  obeys w (fun q => handle (Z.to_nat (o_max_depth o)) o 0 q (path_filter o)) (fun _ _ t => balanced t).
Proof.
  intro Hc. destruct (callbacks_obey _ _ _ _ Hc) as (H1 & H2 & H3 & H6).
  apply (handle_runs w o _ _ _ (fun _ => cb _ _) H1 H2 H3 H6 (fun _ _ _ t => balanced t)); try lia.
  - intros. do 2 (constructor; try discriminate). constructor.
  - intros. do 2 (constructor; try discriminate). constructor.
  - intros. constructor; try discriminate. constructor.
  - intros. do 2 (constructor; try discriminate). constructor.
  - intros d p h dl rb t ok _ _ _ _ Hb _. cbn [app]. constructor; try discriminate. apply balanced_wrap.
    refine (body_run_K w o balanced balanced balanced_app bal_nil (fun t H => H) _ _ _ _ _ _ _ _ _ Hb).
    + intros. constructor; try constructor; discriminate.
    + constructor; try constructor; discriminate.
    + auto.
Qed.

Lemma C15_lemma o p w h E : callbacks w o balanced E ->
  exists t, snd (pretty_print o p w h) = rev t ++ h /\ balanced t.
Proof.
  intro Hc. assert (Hc' : callbacks w o balanced (fun _ => True)).
  { eapply callbacks_weaken; [| |exact Hc]; auto. }
  destruct (print_runs w o balanced (fun _ => True) _ p bal_nil balanced_app I Hc' (scan_balanced _ _ _ Hc) h) as (r & t & Er & H).
  exists t. rewrite Er. split; [reflexivity|]. destruct H as [(x & _ & H)|(e & t1 & t2 & -> & _ & H1 & H2 & _)]; [exact H|].
  now apply balanced_app.
Qed.

(** ** C12 *)
Definition opens_below (X : event -> Prop) (o : options) (d : Z) (p : path) (t : trace) : Prop :=
  forall ev q, In ev t -> opening ev q -> X ev \/
  exists ns, q = mkPath (p_abs p) (p_names p ++ ns) /\ d + Z.of_nat (length ns) < o_max_depth o.

Lemma path_eta p : mkPath (p_abs p) (p_names p ++ []) = p.
Proof. rewrite app_nil_r. now destruct p. Qed.

Lemma opens_app X o d p t t' : opens_below X o d p t -> opens_below X o d p t' -> opens_below X o d p (t ++ t').
Proof. intros H H' ev q Hin. apply in_app_or in Hin. destruct Hin; eauto. Qed.

Lemma opens_nil X o d p : opens_below X o d p [].
Proof. intros ev q []. Qed.

Lemma opens_other X o d p ev : (forall q, ~ opening ev q) -> opens_below X o d p [ev].
Proof. intros H ev' q [<-|[]] Hop. destruct (H _ Hop). Qed.

Lemma opens_start X o d p ev : d < o_max_depth o -> (forall q, opening ev q -> q = p) -> opens_below X o d p [ev].
Proof. intros Hd H ev' q [<-|[]] Hop. rewrite (H _ Hop). right. exists []. rewrite path_eta. cbn. split; [reflexivity|lia]. Qed.

Ltac not_opening := apply opens_other; intros ? [?|?]; discriminate.

Lemma scan_depth w o (X : event -> Prop) (E : exn -> Prop) : callbacks w o (fun t => forall ev, In ev t -> X ev) E ->
  (forall q, E (ExUncheckedIO ReadAttributes q) /\ E (ExUncheckedIO ListFiles q)) -> (forall q, E (ExDirectoryIterator q)) -> orderly w o \/ E ExIllegalArgument ->
  obeys w (fun q => handle (Z.to_nat (o_max_depth o)) o 0 q (path_filter o))
    (fun p r t => opens_below X o 0 p t /\ forall x, r = Throw x -> E x).
Proof.
  intros Hc Eio Eit Ecmp. destruct (callbacks_obey _ _ _ _ Hc) as (H1 & H2 & H3 & H6).
  apply (handle_runs w o _ _ _ (fun _ => cb _ _) H1 H2 H3 H6 (fun d p r t => opens_below X o d p t /\ forall x, r = Throw x -> E x)); try lia.
  - intros d p h a k _ _ _. split; [|discriminate]. apply (opens_app _ _ _ _ [_] [_]); not_opening.
  - intros d p h a _ _ _. split; [|intros x Hx; injection Hx as <-; apply Eio]. apply (opens_app _ _ _ _ [_] [_]); not_opening.
  - intros d p h _ _ _. split; [|discriminate]. not_opening.
  - intros d p h _ _ Hlt _. split; [|intros x Hx; injection Hx as <-; apply Eio].
    apply (opens_app _ _ _ _ [_] [_]); [not_opening|]. apply opens_start; [exact Hlt|]. intros q [Hq|Hq]; [discriminate|]. now injection Hq.
  - intros d p h dl rb t ok _ _ Hlt _ Hb _. split.
    + apply opens_app; [apply (opens_app _ _ _ _ [_] [_]); [not_opening|]; apply opens_start; [exact Hlt|]; intros q [Hq|Hq]; [now injection Hq|discriminate]|].
      apply opens_app; [|not_opening].
      refine (body_run_K w o (fun t => forall ev, In ev t -> X ev) (opens_below X o d p) (opens_app _ _ _ _) (opens_nil _ _ _ _) _ _ _ _ _ _ _ _ _ _ Hb).
      * intros u Hu ev q Hin _. left. auto.
      * intros; not_opening.
      * not_opening.
      * intros n r' u _ [Hu _] ev q Hin Hop. destruct (Hu ev q Hin Hop) as [Hx|(ns & -> & Hl)]; [now left|right].
        exists (n :: ns). cbn [child p_abs p_names length]. rewrite <- app_assoc. split; [reflexivity|lia].
    + intros x Hx. destruct rb as [es|y]; cbn in Hx.
      * destruct ok; [discriminate|]. injection Hx as <-. apply Eio.
      * injection Hx as ->. eapply (body_run_E w o (fun t => forall ev, In ev t -> X ev) E); [|exact Ecmp|apply Eit|exact Hb]. intros q y u [_ Hy]. now apply Hy.
Qed.

Lemma C12_lemma o p w h (X : event -> Prop) (E : exn -> Prop) :
  callbacks w o (fun t => forall ev, In ev t -> X ev) E ->
  exists r t, pretty_print o p w h = (r, rev t ++ h) /\
    (forall x, r = Throw x -> (exists q, x = ExUncheckedIO ReadAttributes q \/ x = ExUncheckedIO ListFiles q) \/ (exists q, x = ExDirectoryIterator q) \/ x = ExNullPointer \/ x = ExIllegalArgument \/ E x) /\
    forall ev q, In ev t -> opening ev q -> X ev \/
      exists ns, q = mkPath true (p_names (location w p) ++ ns) /\ Z.of_nat (length ns) < o_max_depth o.
Proof.
  intros Hc.
  set (E' := fun x => (exists q, x = ExUncheckedIO ReadAttributes q \/ x = ExUncheckedIO ListFiles q) \/ (exists q, x = ExDirectoryIterator q) \/ x = ExNullPointer \/ x = ExIllegalArgument \/ E x).
  assert (Hc' : callbacks w o (fun t => forall ev, In ev t -> X ev) E').
  { eapply callbacks_weaken; [|intros x Hx; right; right; right; right; exact Hx|exact Hc]. auto. }
  assert (HQ : obeys w (fun q => handle (Z.to_nat (o_max_depth o)) o 0 q (path_filter o))
    (fun p r t => opens_below X o 0 p t /\ forall x, r = Throw x -> E' x)).
  { apply scan_depth; auto; unfold E'; [intro q; split; left; exists q; auto|eauto 7..]. }
  destruct (print_runs w o (fun t => forall ev, In ev t -> X ev) E' _ p ltac:(intros ev []) ltac:(intros t t' A B ev Hin; apply in_app_or in Hin; destruct Hin; auto)
              ltac:(unfold E'; auto) Hc' HQ h) as (r & t & Er & H).
  exists r, t. split; [exact Er|]. pose proof (location_abs w p) as Habs.
  destruct H as [(x & -> & Hop & Hx)|(e & t1 & t2 & -> & _ & (Hop & _) & Hq & Hx)].
  - split; [intros y Hy; injection Hy as ->; now apply Hx|]. intros ev q Hin Ho. destruct (Hop ev q Hin Ho) as [?|(ns & -> & Hl)]; [now left|right].
    rewrite Habs. exists ns. split; [reflexivity|lia].
  - split; [exact Hx|]. intros ev q Hin Ho. apply in_app_or in Hin. destruct Hin as [Hin|Hin]; [|left; auto].
    destruct (Hop ev q Hin Ho) as [?|(ns & -> & Hl)]; [now left|right]. rewrite Habs. exists ns. split; [reflexivity|lia].
Qed.

Lemma C12_theorem o p w h (K : trace -> Prop) (E : exn -> Prop) :
  callbacks w o K E -> ~ E ExFuel ->
  exists r t, pretty_print o p w h = (r, rev t ++ h) /\ r <> Throw ExFuel /\
    forall ev q, In ev t -> opening ev q ->
      (exists ns, q = mkPath true (p_names (location w p) ++ ns) /\ Z.of_nat (length ns) < o_max_depth o) \/
      (exists u, K u /\ In ev u).
Proof.
  intros Hc HE. destruct (C12_lemma o p w h (fun ev => exists u, K u /\ In ev u) E) as (r & t & Er & Hx & Hop).
  { eapply callbacks_weaken; [| |exact Hc]; [|auto]. intros t Ht ev Hin. eauto. }
  exists r, t. split; [exact Er|]. split.
  - intros ->. destruct (Hx _ eq_refl) as [(q & [?|?])|[(q & ?)|[?|[?|?]]]]; try discriminate. now apply HE.
  - intros ev q Hin Ho. destruct (Hop ev q Hin Ho); auto.
Qed.
