(** * Streams open at the same time: proofs *)

From Verif Require Import SpecHist SpecOpen RenderFacts ScanFacts PathFacts TreeFacts TraceFacts PrintFacts ShownFacts RunFacts HistFacts.
Open Scope Z_scope.

(** ** Open streams of balanced traces *)
Lemma without_top p l : without p (p :: l) = l.
Proof. cbn. now rewrite (proj2 (path_eqb_eq p p) eq_refl). Qed.

Lemma open_app l t t' : open_after l (t ++ t') = open_after (open_after l t) t'.
Proof. revert l. induction t as [|ev t IH]; intro l; [reflexivity|]. destruct ev; cbn; apply IH. Qed.

Lemma open_balanced t : balanced t -> forall l, open_after l t = l.
Proof.
  induction 1 as [|ev t Ho Hc H IH|p ok t t' H IH H' IH']; intro l; [reflexivity| |].
  - destruct ev; cbn; auto; [destruct (Ho p eq_refl)|destruct (Hc p ok eq_refl)].
  - cbn [open_after]. rewrite open_app, IH. cbn [open_after]. now rewrite without_top.
Qed.

(** ** Every moment of a trace *)
Definition moments (P : list path -> Prop) (t : trace) : Prop := forall t1 t2, t = t1 ++ t2 -> forall l, exists l', open_after l t1 = l' ++ l /\ P l'.

Lemma moments_nil (P : list path -> Prop) : P [] -> moments P [].
Proof. intros H t1 t2 E l. symmetry in E. apply app_eq_nil in E. destruct E as [-> ->]. exists []. auto. Qed.

Lemma app_split {A} (t t' t1 t2 : list A) : t ++ t' = t1 ++ t2 ->
  (exists u, t = t1 ++ u /\ t2 = u ++ t') \/ (exists u, t1 = t ++ u /\ t' = u ++ t2).
Proof.
  revert t1. induction t as [|a t IH]; intros t1 E.
  - right. exists t1. auto.
  - destruct t1 as [|b t1].
    + left. exists (a :: t). auto.
    + injection E as <- E. destruct (IH _ E) as [(u & -> & ->)|(u & -> & ->)]; [left|right]; exists u; auto.
Qed.

Definition calmly (P : list path -> Prop) (t : trace) : Prop := balanced t /\ moments P t.

Lemma calmly_app P t t' : calmly P t -> calmly P t' -> calmly P (t ++ t').
Proof.
  intros [B M] [B' M']. split; [now apply balanced_app|]. intros t1 t2 E l. destruct (app_split _ _ _ _ E) as [(u & -> & ->)|(u & -> & ->)].
  - eapply M. reflexivity.
  - rewrite open_app, (open_balanced _ B). eapply M'. reflexivity.
Qed.

Lemma calmly_nil (P : list path -> Prop) : P [] -> calmly P [].
Proof. intro H. split; [constructor|now apply moments_nil]. Qed.

Lemma calmly_one (P : list path -> Prop) ev : P [] -> (forall p, ev <> EvOpen p) -> (forall p ok, ev <> EvClose p ok) -> calmly P [ev].
Proof.
  intros H Ho Hc. split; [constructor; auto; constructor|]. intros t1 t2 E l. exists []. split; [|exact H].
  destruct t1 as [|a t1]; [reflexivity|]. injection E as <- E. symmetry in E. apply app_eq_nil in E. destruct E as [-> ->].
  destruct ev; try reflexivity; [destruct (Ho p eq_refl)|destruct (Hc p ok eq_refl)].
Qed.

Lemma calmly_weaken (P P' : list path -> Prop) t : (forall l, P l -> P' l) -> calmly P t -> calmly P' t.
Proof. intros H [B M]. split; [exact B|]. intros t1 t2 E l. destruct (M t1 t2 E l) as (l' & E' & Hl). eauto. Qed.

Lemma calmly_wrap (P P' : list path -> Prop) p ok t : P' [] -> (forall l, P l -> P' (l ++ [p])) ->
  calmly P t -> calmly P' (EvOpen p :: t ++ [EvClose p ok]).
Proof.
  intros H0 H [B M]. split; [now apply balanced_wrap|]. intros t1 t2 E l.
  destruct t1 as [|a t1]; [exists []; auto|]. injection E as <- E. cbn [open_after].
  destruct (app_split _ _ _ _ E) as [(u & -> & ->)|(u & -> & E')].
  - destruct (M _ _ eq_refl (p :: l)) as (l' & E' & Hl). exists (l' ++ [p]). rewrite <- app_assoc. auto.
  - rewrite open_app, (open_balanced _ B). destruct u as [|b u].
    + exists [p]. split; [reflexivity|]. apply (H []). destruct (M [] t eq_refl []) as (l' & E2 & Hl). cbn in E2. rewrite app_nil_r in E2. now subst.
    + injection E' as <- E'. symmetry in E'. apply app_eq_nil in E'. destruct E' as [-> ->]. exists []. cbn [open_after]. rewrite without_top. auto.
Qed.

Lemma at_most_calmly c t : at_most_open c t -> calmly (fun l => (length l <= c)%nat) t.
Proof.
  intros [B H]. split; [exact B|]. intros t1 t2 E l. specialize (H t1 t2 E).
  assert (X : exists l', forall l0, open_after l0 t1 = l' ++ l0).
  { clear H. revert t1 t2 E. induction B as [|ev t Ho Hc B IH|p ok t t' B IH B' IH']; intros t1 t2 E.
    - symmetry in E. apply app_eq_nil in E. destruct E as [-> ->]. exists []. auto.
    - destruct t1 as [|a t1]; [exists []; auto|]. injection E as <- E. destruct (IH _ _ E) as (l' & Hl). exists l'. intro l0.
      destruct ev; cbn; auto; [destruct (Ho p eq_refl)|destruct (Hc p ok eq_refl)].
    - destruct t1 as [|a t1]; [exists []; auto|]. injection E as <- E.
      destruct (app_split _ _ _ _ E) as [(u & -> & ->)|(u & -> & E')].
      + destruct (IH _ _ eq_refl) as (l' & Hl). exists (l' ++ [p]). intro l0. cbn. rewrite Hl, <- app_assoc. reflexivity.
      + destruct u as [|b u].
        * exists [p]. intro l0. cbn. now rewrite open_app, (open_balanced _ B).
        * injection E' as <- E'. destruct (IH' _ _ E') as (l' & Hl). exists l'. intro l0. cbn. rewrite open_app, (open_balanced _ B). cbn [open_after].
          rewrite without_top. apply Hl. }
  destruct X as (l' & Hl). exists l'. rewrite Hl in H. rewrite app_nil_r in H. auto.
Qed.

(** ** Nested directories *)
Lemma nested_snoc p n l : nested (child p n) l -> l <> [] -> nested p (l ++ [p]).
Proof.
  induction 1 as [| |q m l H IH]; intro Hl; [now destruct Hl| |].
  - cbn. constructor. constructor.
  - cbn in *. constructor. apply IH. discriminate.
Qed.

(** At most [c] streams of a callback, and below them those of nested directories. *)
Definition held (c : nat) (o : options) (d : Z) (p : path) (l : list path) : Prop :=
  exists l1 l2, l = l1 ++ l2 /\ (length l1 <= c)%nat /\ nested p l2 /\ (l2 = [] \/ Z.of_nat (length l2) <= o_max_depth o - d).

Lemma held_nil c o d p : held c o d p [].
Proof. exists [], []. repeat split; [cbn; lia|constructor|now left]. Qed.

Lemma scan_held w o c E : callbacks w o (at_most_open c) E ->
  obeys w (fun q => handle (Z.to_nat (o_max_depth o)) o 0 q (path_filter o)) (fun p _ t => calmly (held c o 0 p) t).
Proof.
  intro Hc. destruct (callbacks_obey _ _ _ _ Hc) as (H1 & H2 & H3 & H6).
  apply (handle_runs w o _ _ _ (fun _ => cb _ _) H1 H2 H3 H6 (fun d p _ t => calmly (held c o d p) t)); try lia.
  - intros. apply (calmly_app _ [_] [_]); apply calmly_one; try discriminate; apply held_nil.
  - intros. apply (calmly_app _ [_] [_]); apply calmly_one; try discriminate; apply held_nil.
  - intros. apply calmly_one; try discriminate; apply held_nil.
  - intros. apply (calmly_app _ [_] [_]); apply calmly_one; try discriminate; apply held_nil.
  - intros d p h dl rb t ok _ _ Hlt _ Hb _. apply (calmly_app _ [_] (EvOpen p :: t ++ [EvClose p ok])); [apply calmly_one; try discriminate; apply held_nil|].
    apply (calmly_wrap (fun l => exists l1 l2, l = l1 ++ l2 /\ (length l1 <= c)%nat /\
      (l2 = [] \/ exists n, nested (child p n) l2 /\ Z.of_nat (length l2) <= o_max_depth o - (d + 1)))); [apply held_nil| |].
    { intros l (l1 & l2 & -> & Hl1 & Hl2). exists l1, (l2 ++ [p]). rewrite app_assoc. split; [reflexivity|]. split; [exact Hl1|].
      destruct Hl2 as [->|(n & Hn & Hl)].
      - split; [constructor|]. right. cbn. lia.
      - split.
        + destruct l2 as [|q l2]; [constructor|]. eapply nested_snoc; [exact Hn|discriminate].
        + right. rewrite app_length. cbn. lia. }
    assert (N : exists l1 l2 : list path, [] = l1 ++ l2 /\ (length l1 <= c)%nat /\
      (l2 = [] \/ (exists n, nested (child p n) l2 /\ Z.of_nat (length l2) <= o_max_depth o - (d + 1)))).
    { exists [], []. cbn. repeat split; [lia|now left]. }
    refine (body_run_K w o (at_most_open c) (calmly _) (calmly_app _) (calmly_nil _ N) _ _ _ _ _ _ _ _ _ _ Hb).
    + intros u Hu. apply (calmly_weaken (fun l => (length l <= c)%nat)); [|now apply at_most_calmly].
      intros l Hl. exists l, []. rewrite app_nil_r. auto.
    + intros. apply calmly_one; try discriminate. exact N.
    + apply calmly_one; try discriminate. exact N.
    + intros n r u _. apply calmly_weaken. intros l (l1 & l2 & -> & Hl1 & Hn & Hl2). exists l1, l2. repeat split; auto.
      destruct Hl2 as [->|Hl2]; [now left|]. right. eauto.
Qed.

Lemma C128_lemma : forall o p w h c,
  callbacks w o (at_most_open c) (fun _ => True) ->
  exists t, snd (pretty_print o p w h) = rev t ++ h /\
    forall t1 t2, t = t1 ++ t2 -> exists l1 l2, open_after [] t1 = l1 ++ l2 /\ (length l1 <= c)%nat /\
      nested (location w p) l2 /\ Z.of_nat (length l2) <= Z.max 0 (o_max_depth o).
Proof.
  intros o p w h c Hc.
  assert (K0 : at_most_open c []).
  { split; [constructor|]. intros t1 t2 E. symmetry in E. apply app_eq_nil in E. destruct E as [-> ->]. cbn. lia. }
  assert (Ka : forall t t', at_most_open c t -> at_most_open c t' -> at_most_open c (t ++ t')).
  { intros t t' [B H] [B' H']. split; [now apply balanced_app|]. intros t1 t2 E. destruct (app_split _ _ _ _ E) as [(u & -> & ->)|(u & -> & ->)]; [eauto|].
    rewrite open_app, (open_balanced _ B). eauto. }
  destruct (print_runs w o (at_most_open c) (fun _ => True) _ p K0 Ka I Hc (scan_held _ _ _ _ Hc) h) as (r & t & Er & H).
  exists t. rewrite Er. split; [reflexivity|].
  assert (HC : calmly (held c o 0 (location w p)) t).
  { destruct H as [(x & _ & H)|(e & t1 & t2 & -> & _ & H1 & H2 & _)]; [exact H|]. apply calmly_app; [exact H1|].
    apply (calmly_weaken (fun l => (length l <= c)%nat)); [|now apply at_most_calmly].
    intros l Hl. exists l, []. rewrite app_nil_r. repeat split; [exact Hl|constructor|now left]. }
  destruct HC as [_ HM]. intros t1 t2 E. destruct (HM t1 t2 E []) as (l' & -> & l1 & l2 & -> & Hl1 & Hn & Hl2).
  exists l1, l2. rewrite app_nil_r. repeat split; auto. destruct Hl2 as [->|Hl2]; cbn; lia.
Qed.

Lemma C128_opening_lemma : forall o p w h,
  callbacks w o (at_most_open 0) (fun _ => True) ->
  exists t, snd (pretty_print o p w h) = rev t ++ h /\
    forall t1 q t2, t = t1 ++ EvOpen q :: t2 -> nested (location w p) (q :: open_after [] t1).
Proof.
  intros o p w h Hc. destruct (C128_lemma o p w h 0 Hc) as (t & Et & H). exists t. split; [exact Et|].
  intros t1 q t2 ->. destruct (H (t1 ++ [EvOpen q]) t2) as (l1 & l2 & E & H1 & H2 & _); [now rewrite <- app_assoc|].
  rewrite open_app in E. cbn in E. destruct l1; [|cbn in H1; lia]. cbn in E. now rewrite E.
Qed.

(** ** Worlds with a limited number of handles *)
Section Handles.
  Context (c : nat) (w : world) (o : options).
  Let w' := with_handles c w.
  Definition ops (h : hist) : list path := open_after [] (rev h).
  Arguments ops : simpl never.

  Lemma ops_ev ev h : (forall p, ev <> EvOpen p) -> (forall p ok, ev <> EvClose p ok) -> ops (ev :: h) = ops h.
  Proof. intros Ho Hc. unfold ops. cbn [rev]. rewrite open_app. destruct ev; try reflexivity; [destruct (Ho p eq_refl)|destruct (Hc p ok eq_refl)]. Qed.

  Lemma ops_open p h : ops (EvOpen p :: h) = p :: ops h.
  Proof. unfold ops. cbn [rev]. now rewrite open_app. Qed.

  Lemma ops_close p ok h : ops (EvClose p ok :: h) = without p (ops h).
  Proof. unfold ops. cbn [rev]. now rewrite open_app. Qed.

  (** With [k] handles left, [m] does not notice the limit, and closes what it opens. *)
  Definition unaware (k : Z) (A : Type) (m : M A) : Prop :=
    forall h, Z.of_nat (length (ops h)) + k <= Z.of_nat c -> m w' h = m w h /\ ops (snd (m w h)) = ops h.

  Lemma un_ret k A (a : A) : unaware k A (ret a).
  Proof. intros h _. auto. Qed.
  Lemma un_throw k A e : unaware k A (throw e).
  Proof. intros h _. auto. Qed.
  Lemma un_bind k A B (m : M A) (f : A -> M B) : unaware k A m -> (forall a, unaware k B (f a)) -> unaware k B (bind m f).
  Proof.
    intros Hm Hf h Hh. destruct (Hm h Hh) as [E1 E2]. unfold bind. rewrite E1. destruct (m w h) as [[a|x] h1]; cbn [snd] in *; [|auto].
    destruct (Hf a h1) as [E3 E4]; [now rewrite E2|]. split; [exact E3|]. now rewrite E4.
  Qed.
  Lemma un_filterM k A (f : A -> M bool) l : (forall a, unaware k bool (f a)) -> unaware k _ (filterM f l).
  Proof.
    intro Hf. induction l as [|a l IH]; cbn [filterM]; [apply un_ret|].
    apply un_bind; [apply Hf|]. intro b. apply un_bind; [exact IH|]. intro. apply un_ret.
  Qed.

  Lemma un_callback A B (f : A -> M B) E k a : callback w f balanced E -> same_in w' w f -> unaware k B (f a).
  Proof.
    intros Hc Hs h _. split; [apply Hs|]. destruct (Hc a h) as (r & t & Hr & Hb & _). rewrite Hr. cbn. unfold ops.
    now rewrite rev_app_distr, rev_involutive, open_app, (open_balanced _ Hb).
  Qed.

  Hypothesis Hc : callbacks w o balanced (fun _ => True).
  Hypothesis Hs : same_callbacks w' w o.

  Lemma un_lstat k p : unaware k _ (pm_is_directory p).
  Proof. intros h _. unfold pm_is_directory, has_kind, bind, lstat, ret. cbn. split; [reflexivity|]. now apply ops_ev. Qed.

  Lemma un_file k p : unaware k _ (handle_file p).
  Proof.
    intros h _. unfold handle_file, bind, stat, ret, throw. cbn. destruct (w_stat w h p); cbn; split; try reflexivity; now apply ops_ev.
  Qed.

  Lemma un_path_filter k p : unaware k _ (path_filter o p).
  Proof.
    destruct Hc as (C1 & C2 & _). destruct Hs as (S1 & S2 & _). apply un_bind; [apply un_lstat|].
    intros [|]; [exact (un_callback _ _ _ _ k p C1 S1)|exact (un_callback _ _ _ _ k p C2 S2)].
  Qed.

  Lemma un_sorted k l : unaware k _ (sorted (o_comparator o) l).
  Proof.
    destruct Hc as (_ & _ & _ & _ & _ & C6). destruct Hs as (_ & _ & _ & _ & _ & S6).
    unfold sorted. generalize (tim_sort l). intro s. induction s as [l'| | |a b k' IH]; cbn [run_sorting]; [apply un_ret|intros h _; auto..|].
    apply un_bind; [exact (un_callback _ _ _ _ k b (C6 a) (S6 a))|exact IH].
  Qed.

  Lemma un_children k hc hl mc : (forall p, unaware k _ (hc p)) -> forall it n acc, unaware k _ (children_loop hc hl mc n acc it).
  Proof.
    intros H it. induction it as [|x it IH]; intros n acc; [apply un_ret|]. cbn [children_loop].
    destruct (hl && (mc <? n + 1)); [apply un_ret|]. apply un_bind; [apply H|]. intros [e|]; apply IH.
  Qed.

  Lemma un_handle fuel : forall d p, unaware (o_max_depth o - d) _ (handle fuel o d p (path_filter o)).
  Proof.
    induction fuel as [|fuel IH]; intros d p; cbn [handle]; (apply un_bind; [apply un_lstat|]); intros [|]; try apply un_file;
      destruct (Z.leb_spec (o_max_depth o) d) as [Hd|Hd]; try apply un_throw;
      try (apply un_bind; [unfold new_max_depth_entry; destruct (d <? 0); [apply un_throw|apply un_ret]|intro; apply un_ret]).
    intros h Hh.
    assert (Eo : open_dir p w' h = open_dir p w h).
    { unfold open_dir, w', with_handles. cbn [w_open]. destruct (Nat.leb_spec c (length (open_after [] (rev h)))) as [L|L]; [|reflexivity].
      fold (ops h) in L. lia. }
    unfold bind at 1 3 5. rewrite Eo. unfold open_dir. destruct (w_open w h p) as [dl|].
    2:{ cbn. split; [reflexivity|]. now apply ops_ev. }
    assert (U : unaware (o_max_depth o - (d + 1)) _ (handle_directory_children o (fun x => handle fuel o (d + 1) x (path_filter o)) p dl (path_filter o))).
    { unfold handle_directory_children. destruct Hc as (_ & _ & C3 & _). destruct Hs as (_ & _ & S3 & _).
      apply un_bind; [exact (un_callback _ _ _ _ _ p C3 S3)|]. intro mc. apply un_bind.
      { apply un_bind; [apply un_filterM; intro; apply un_path_filter|]. intro l. destruct (dl_fail dl); [|apply un_ret].
        apply un_bind; [|intro; apply un_throw]. intros h0 _. split; [reflexivity|]. now apply ops_ev. }
      intro l. apply un_bind; [apply un_sorted|]. intro it. apply un_bind; [apply un_children; intro; apply IH|]. intros [es rest]. apply un_ret. }
    destruct (U (EvOpen p :: h)) as [E1 E2].
    { rewrite ops_open. cbn [length]. lia. }
    unfold bind, with_close. rewrite E1. rewrite ops_open in E2.
    destruct (handle_directory_children _ _ _ _ _ w (EvOpen p :: h)) as [[es|x] h2]; cbn [fst snd] in *.
    - cbn. destruct (w_close_ok w h2 p); cbn; (split; [reflexivity|]); rewrite ops_close, E2; apply without_top.
    - cbn. split; [reflexivity|]. rewrite ops_close, E2. apply without_top.
  Qed.
End Handles.

Lemma C128_enough_lemma : forall o p w h c,
  callbacks w o balanced (fun _ => True) -> same_callbacks (with_handles c w) w o ->
  Z.of_nat (length (open_after [] (rev h))) + o_max_depth o <= Z.of_nat c ->
  pretty_print o p (with_handles c w) h = pretty_print o p w h.
Proof.
  intros o p w h c Hc Hs Hn. rewrite !scan_unfold. change (location (with_handles c w) p) with (location w p).
  unfold bind. destruct (un_handle c w o Hc Hs (Z.to_nat (o_max_depth o)) 0 (location w p) h) as [E _]; [unfold ops; lia|].
  rewrite E. destruct (handle _ _ _ _ _ w h) as [[[e|]|x] h1]; try reflexivity.
  destruct Hc as (_ & _ & _ & C4 & C5 & _). destruct Hs as (_ & _ & _ & S4 & S5 & _).
  assert (U : forall h1, render_tree o (line_renderer_create o) e (with_handles c w) h1 = render_tree o (line_renderer_create o) e w h1).
  { unfold render_tree. apply (closed_render (fun A m => forall h, m (with_handles c w) h = m w h)); try reflexivity.
    - intros A B m f Hm Hf h0. unfold bind. rewrite Hm. destruct (m w h0) as [[a|y] h2]; auto.
    - intros q h0. apply S4.
    - intros q h0. unfold compute_line_extension. destruct (o_line_extension o); [apply S5|reflexivity]. }
  apply U.
Qed.

(** ** One handle for each level *)
Lemma bind_inv {A B} (m : M A) (f : A -> M B) w h b h' : bind m f w h = (Ok b, h') -> exists a h1, m w h = (Ok a, h1) /\ f a w h1 = (Ok b, h').
Proof. unfold bind. destruct (m w h) as [[a|x] h1]; [eauto|discriminate]. Qed.

Section Levels.
  Context (c : nat) (w : world) (o : options).
  Let w' := with_handles c w.
  Hypothesis Hc : callbacks w' o balanced (fun _ => True).

  (** [m] leaves open what was open. *)
  Definition still (A : Type) (m : M A) : Prop := forall h, ops (snd (m w' h)) = ops h.

  Lemma st_bind A B (m : M A) (f : A -> M B) : still A m -> (forall a, still B (f a)) -> still B (bind m f).
  Proof.
    intros Hm Hf h. specialize (Hm h). unfold bind. destruct (m w' h) as [[a|x] h1]; cbn [snd] in *; [|exact Hm]. now rewrite Hf.
  Qed.
  Lemma st_ret A (a : A) : still A (ret a).
  Proof. intro h. reflexivity. Qed.
  Lemma st_filterM A (f : A -> M bool) l : (forall a, still bool (f a)) -> still _ (filterM f l).
  Proof.
    intro Hf. induction l as [|a l IH]; cbn [filterM]; [apply st_ret|].
    apply st_bind; [apply Hf|]. intro b. apply st_bind; [exact IH|]. intro. apply st_ret.
  Qed.
  Lemma st_callback A B (f : A -> M B) E a : callback w' f balanced E -> still B (f a).
  Proof.
    intros Hf h. destruct (Hf a h) as (r & t & Hr & Hb & _). rewrite Hr. cbn [snd]. unfold ops.
    now rewrite rev_app_distr, rev_involutive, open_app, (open_balanced _ Hb).
  Qed.
  Lemma st_lstat p : still _ (pm_is_directory p).
  Proof. intro h. unfold pm_is_directory, has_kind, bind, lstat, ret. cbn [snd]. now apply ops_ev. Qed.
  Lemma st_path_filter p : still _ (path_filter o p).
  Proof.
    destruct Hc as (C1 & C2 & _). apply st_bind; [apply st_lstat|].
    intros [|]; [exact (st_callback _ _ _ _ p C1)|exact (st_callback _ _ _ _ p C2)].
  Qed.
  Lemma st_sorted l : still _ (sorted (o_comparator o) l).
  Proof.
    destruct Hc as (_ & _ & _ & _ & _ & C6). unfold sorted. generalize (tim_sort l). intro s.
    induction s as [l'| | |a b k' IH]; cbn [run_sorting]; [apply st_ret|intro; reflexivity..|].
    apply st_bind; [exact (st_callback _ _ _ _ b (C6 a))|exact IH].
  Qed.

  (** The directories of [e] that were opened while [l] and their parents were open. *)
  Definition fits (d : Z) (l : list path) (e : entry) : Prop :=
    forall k q es, at_depth k e (EDir q es) -> d + Z.of_nat k < o_max_depth o -> (length l + k < c)%nat.

  Lemma fits_children (hc : path -> M (option entry)) hl mc d l :
    (forall p h e h', hc p w' h = (Ok e, h') -> ops h = l -> ops h' = l /\ forall e', e = Some e' -> fits d l e') ->
    forall it n acc h es rest h', children_loop hc hl mc n acc it w' h = (Ok (es, rest), h') -> ops h = l -> Forall (fits d l) acc ->
      ops h' = l /\ Forall (fits d l) es.
  Proof.
    intro H. induction it as [|x it IH]; intros n acc h es rest h' E Hl Ha; cbn [children_loop] in E.
    - injection E as <- _ <-. auto.
    - destruct (hl && (mc <? n + 1)); [injection E as <- _ <-; auto|].
      apply bind_inv in E. destruct E as (e & h1 & E1 & E2). destruct (H _ _ _ _ E1 Hl) as [Hl1 Hf].
      destruct e as [e|]; eapply IH; try exact E2; auto. apply Forall_app. split; [exact Ha|]. constructor; auto.
  Qed.

  Lemma fits_handle fuel : forall d p h e h', handle fuel o d p (path_filter o) w' h = (Ok e, h') ->
    ops h' = ops h /\ forall e', e = Some e' -> fits d (ops h) e'.
  Proof.
    induction fuel as [|fuel IH]; intros d p h e h' E; cbn [handle] in E; apply bind_inv in E; destruct E as (b & h1 & E1 & E);
      pose proof (st_lstat p h) as L1; rewrite E1 in L1; cbn [snd] in L1; rewrite <- L1; clear E1 L1; destruct b.
    - destruct (Z.leb_spec (o_max_depth o) d) as [Hd|Hd]; [|discriminate]. unfold new_max_depth_entry in E. destruct (d <? 0); [discriminate|].
      cbn in E. injection E as <- <-. split; [reflexivity|]. intros e' Ee. injection Ee as <-. intros k q es Hk Hlt. lia.
    - unfold handle_file in E. apply bind_inv in E. destruct E as (r & h2 & E1 & E). unfold stat in E1. injection E1 as <- <-.
      destruct (w_stat w h1 p); [|discriminate].
      injection E as <- <-. split; [now apply ops_ev|]. intros e' Ee. injection Ee as <-.
      intros k' q es Hk. inversion Hk.
    - destruct (Z.leb_spec (o_max_depth o) d) as [Hd|Hd].
      { unfold new_max_depth_entry in E. destruct (d <? 0); [discriminate|].
        cbn in E. injection E as <- <-. split; [reflexivity|]. intros e' Ee. injection Ee as <-. intros k q es Hk Hlt. lia. }
      apply bind_inv in E. destruct E as (dl & h2 & E1 & E). unfold open_dir in E1.
      destruct (w_open w' h1 p) as [dl'|] eqn:Eo; injection E1 as <- <-; [|discriminate].
      cbn [w' with_handles w_open] in Eo. fold (ops h1) in Eo. destruct (Nat.leb_spec c (length (ops h1))) as [Lc|Lc]; [discriminate|].
      apply bind_inv in E. destruct E as (es & h3 & E1 & E). injection E as <- <-. unfold with_close in E1.
      destruct (handle_directory_children _ _ _ _ _ w' (EvOpen p :: h1)) as [[es'|x] h4] eqn:Eb; cbn in E1; [|discriminate].
      destruct (w_close_ok w h4 p); [|discriminate]. injection E1 as -> <-. rewrite ops_close.
      assert (X : ops h4 = p :: ops h1 /\ Forall (fits (d + 1) (p :: ops h1)) es).
      { unfold handle_directory_children in Eb. destruct Hc as (_ & _ & C3 & _).
        apply bind_inv in Eb. destruct Eb as (mc & h5 & E1 & Eb). pose proof (st_callback _ _ _ _ p C3 (EvOpen p :: h1)) as L1. rewrite E1 in L1. cbn [snd] in L1.
        apply bind_inv in Eb. destruct Eb as (l & h6 & E2 & Eb). unfold stream_paths in E2. apply bind_inv in E2. destruct E2 as (l' & h7 & E2 & E3).
        pose proof (st_filterM _ _ (map (resolve_name p) (dl_names dl')) (fun a => st_path_filter a) h5) as L2. rewrite E2 in L2. cbn [snd] in L2.
        destruct (dl_fail dl'); [discriminate|]. injection E3 as -> <-.
        apply bind_inv in Eb. destruct Eb as (it & h8 & E3 & Eb). pose proof (st_sorted l h7) as L3. rewrite E3 in L3. cbn [snd] in L3.
        apply bind_inv in Eb. destruct Eb as ([es1 rest] & h9 & E4 & Eb). injection Eb as <- <-.
        eapply (fits_children _ _ _ (d + 1) (p :: ops h1)) in E4.
        - destruct E4 as [E4 F]. split; [exact E4|]. apply Forall_app. split; [exact F|]. destruct rest; constructor; [|constructor].
          intros k q es Hk. inversion Hk.
        - intros q h0 e0 h0' E0 <-. now apply IH in E0.
        - now rewrite L3, L2, L1, ops_open.
        - constructor. }
      destruct X as [X1 X2]. split; [rewrite X1; apply without_top|]. intros e' Ee. injection Ee as <-. intros k q es0 Hk Hlt.
      inversion Hk as [|k0 d0 es1 x y Hin Hat]; subst; [lia|]. rewrite Forall_forall in X2. specialize (X2 _ Hin _ _ _ Hat ltac:(lia)). cbn in X2. lia.
    - unfold handle_file in E. apply bind_inv in E. destruct E as (r & h2 & E1 & E). unfold stat in E1. injection E1 as <- <-.
      destruct (w_stat w h1 p); [|discriminate]. injection E as <- <-. split; [now apply ops_ev|]. intros e' Ee. injection Ee as <-.
      intros k' q es Hk. inversion Hk.
  Qed.
End Levels.

Lemma C128_levels_lemma : forall o p w h c out h' v,
  callbacks (with_handles c w) o balanced (fun _ => True) -> sees (with_handles c w) o v ->
  pretty_print o p (with_handles c w) h = (Ok out, h') ->
  exists e h1 s, scan o (location w p) (with_handles c w) h = (Ok e, h1) /\ shows v true e s /\ out = text (o_tree_format o) (labelled v s) /\
    forall k q es, at_depth k e (EDir q es) -> Z.of_nat k < o_max_depth o -> (length (open_after [] (rev h)) + k < c)%nat.
Proof.
  intros o p w h c out h' v Hc Hs H. destruct (print_displays _ _ _ _ _ _ _ Hs H) as (e & h1 & E & s & Hsh & Ho).
  exists e, h1, s. repeat split; auto. apply (scan_handle o p (with_handles c w)) in E. apply (fits_handle c w o Hc) in E. destruct E as [_ F]. intros k q es Hk Hlt.
  exact (F e eq_refl k q es Hk Hlt).
Qed.
