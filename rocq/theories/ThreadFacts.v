(** * Facts about threads *)

From Verif Require Import SpecThreads RunFacts TraceFacts SeenFacts OpenFacts.
From Coq Require Import Lia.
Open Scope nat_scope.

(** ** Every call is a program *)
Definition cut {A} (m : M A) : Type := {t : prog A | means t m}.

Fixpoint pbind {A B} (t : prog A) (f : A -> prog B) : prog B :=
  match t with
  | Done (Ok a) => f a
  | Done (Throw e) => Done (Throw e)
  | Do a k => Do a (fun x => pbind (k x) f)
  end.

Lemma run_pbind A B (t : prog A) (f : A -> prog B) w : forall h,
  run (pbind t f) w h = match run t w h with (Ok a, h') => run (f a) w h' | (Throw e, h') => (Throw e, h') end.
Proof. induction t as [[a|e]|a k IH]; intro h; cbn [pbind run]; try reflexivity. apply IH. Qed.

Fixpoint pfinally {A} (t : prog A) (f : res A -> prog A) : prog A :=
  match t with
  | Done r => f r
  | Do a k => Do a (fun x => pfinally (k x) f)
  end.

Lemma run_pfinally A (t : prog A) (f : res A -> prog A) w : forall h,
  run (pfinally t f) w h = let (r, h') := run t w h in run (f r) w h'.
Proof. induction t as [r|a k IH]; intro h; cbn [pfinally run]; [reflexivity|]. apply IH. Qed.

Lemma cut_ret A (a : A) : cut (ret a).
Proof. exists (Done (Ok a)). intros w h. reflexivity. Defined.
Lemma cut_throw A e : cut (@throw A e).
Proof. exists (Done (Throw e)). intros w h. reflexivity. Defined.
Lemma cut_bind A B (m : M A) (f : A -> M B) : cut m -> (forall a, cut (f a)) -> cut (bind m f).
Proof.
  intros [t Ht] Hf. exists (pbind t (fun a => proj1_sig (Hf a))). intros w h. rewrite run_pbind, Ht. unfold bind.
  destruct (m w h) as [[a|e] h']; [|reflexivity]. destruct (Hf a) as [u Hu]. apply Hu.
Defined.
Lemma cut_lstat p : cut (lstat p).
Proof. exists (Do (ALstat p) (fun x => Done (Ok x))). intros w h. reflexivity. Defined.
Lemma cut_stat p : cut (stat p).
Proof. exists (Do (AStat p) (fun x => Done (Ok x))). intros w h. reflexivity. Defined.
Lemma cut_length p : cut (file_length p).
Proof. exists (Do (ALength p) (fun x => Done (Ok x))). intros w h. reflexivity. Defined.
Lemma cut_open p : cut (open_dir p).
Proof. exists (Do (AOpen p) (fun x => Done (Ok x))). intros w h. unfold open_dir. cbn. now destruct (w_open w h p). Defined.
Lemma cut_iter_fail p : cut (iter_fail p).
Proof. exists (Do (AIterFail p) (fun x => Done (Ok x))). intros w h. reflexivity. Defined.
Lemma cut_jvm : cut get_jvm.
Proof. exists (Do AJvm (fun x => Done (Ok x))). intros w h. reflexivity. Defined.

Lemma cut_with_close A p e (m : M A) : cut m -> cut (with_close p e m).
Proof.
  intros [t Ht].
  exists (pfinally t (fun r => Do (AClose p) (fun ok : bool => Done (match r with Ok a => if ok then Ok a else Throw e | Throw x => Throw x end)))).
  intros w h. rewrite run_pfinally, Ht. unfold with_close, close_dir. destruct (m w h) as [[a|x] h']; cbn; [|reflexivity].
  now destruct (w_close_ok w h' p).
Defined.

Lemma cut_filterM A (f : A -> M bool) l : (forall a, cut (f a)) -> cut (filterM f l).
Proof.
  intro H. induction l as [|a l IH]; cbn [filterM]; [apply cut_ret|].
  apply cut_bind; [apply H|]. intro b. apply cut_bind; [exact IH|]. intro. apply cut_ret.
Defined.

Lemma cut_mapM A B (f : A -> M B) l : (forall a, cut (f a)) -> cut (mapM f l).
Proof.
  intro H. induction l as [|a l IH]; cbn [mapM]; [apply cut_ret|].
  apply cut_bind; [apply H|]. intro b. apply cut_bind; [exact IH|]. intro. apply cut_ret.
Defined.

Inductive all_of {A} (P : A -> Type) : list A -> Type :=
| all_nil : all_of P []
| all_cons x l : P x -> all_of P l -> all_of P (x :: l).

Section EntryRect.
  Context (P : entry -> Type) (Hd : forall d es, all_of P es -> P (EDir d es)) (Hf : forall f k, P (EFile f k))
          (Hs : forall d, P (ESkipped d)) (Hm : forall n, P (EMaxDepth n)).
  Fixpoint entry_rect' (e : entry) : P e :=
    match e with
    | EDir d es => Hd d es ((fix go (l : list entry) : all_of P l :=
        match l with [] => all_nil P | x :: l' => all_cons P x l' (entry_rect' x) (go l') end) es)
    | EFile f k => Hf f k
    | ESkipped d => Hs d
    | EMaxDepth n => Hm n
    end.
End EntryRect.

Section Cut.
  Context (o : options).
  Hypothesis Hlimit : forall p, cut (o_child_limit o p).
  Hypothesis Horder : forall p q, cut (o_comparator o p q).
  Hypothesis Hemoji : forall p, cut (o_emoji o p).
  Hypothesis Hdirs : forall p, cut (o_dir_matcher o p).
  Hypothesis Hfiles : forall p, cut (o_file_matcher o p).
  Hypothesis Hext : forall p, cut (compute_line_extension o p).

  Lemma cut_is_directory p : cut (pm_is_directory p).
  Proof. unfold pm_is_directory, has_kind. apply cut_bind; [apply cut_lstat|]. intro. apply cut_ret. Defined.

  Lemma cut_filter p : cut (path_filter o p).
  Proof. unfold path_filter, pm_if_then_else. apply cut_bind; [apply cut_is_directory|]. intros []; auto. Defined.

  Lemma cut_sorted l : cut (sorted (o_comparator o) l).
  Proof.
    unfold sorted. generalize (tim_sort l). intro s. induction s as [l'| | |a b k IH]; cbn [run_sorting];
      [apply cut_ret|apply cut_throw|apply cut_throw|]. apply cut_bind; [apply Horder|exact IH].
  Defined.

  Lemma cut_children hc b m : (forall c, cut (hc c)) -> forall it n acc, cut (children_loop hc b m n acc it).
  Proof.
    intros Hc it. induction it as [|c it IH]; intros n acc; cbn [children_loop]; [apply cut_ret|]. cbn zeta.
    destruct (b && (m <? n + 1)%Z); [apply cut_ret|]. apply cut_bind; [apply Hc|]. intros [e|]; apply IH.
  Defined.

  Lemma cut_handle fuel : forall d p, cut (handle fuel o d p (path_filter o)).
  Proof.
    induction fuel as [|fuel IH]; intros d p; cbn [handle]; (apply cut_bind; [apply cut_is_directory|]); intros [].
    2,4: unfold handle_file; (apply cut_bind; [apply cut_stat|]); intros [k|]; [apply cut_ret|apply cut_throw].
    - destruct (o_max_depth o <=? d)%Z; [|apply cut_throw]. apply cut_bind; [|intro; apply cut_ret].
      unfold new_max_depth_entry. destruct (d <? 0)%Z; [apply cut_throw|apply cut_ret].
    - destruct (o_max_depth o <=? d)%Z.
      { apply cut_bind; [|intro; apply cut_ret]. unfold new_max_depth_entry. destruct (d <? 0)%Z; [apply cut_throw|apply cut_ret]. }
      apply cut_bind; [apply cut_open|]. intros [dl|]; [|apply cut_throw]. apply cut_bind; [|intro; apply cut_ret].
      apply cut_with_close. unfold handle_directory_children. apply cut_bind; [apply Hlimit|]. intro limit. cbn zeta.
      apply cut_bind.
      { unfold stream_paths. apply cut_bind; [apply cut_filterM; apply cut_filter|]. intro l.
        destruct (dl_fail dl); [|apply cut_ret]. apply cut_bind; [apply cut_iter_fail|]. intro. apply cut_throw. }
      intro unsorted. apply cut_bind; [apply cut_sorted|]. intro it. apply cut_bind; [apply cut_children; intro; apply IH|].
      intros [es rest]. apply cut_ret.
  Defined.

  Lemma cut_begin d dir dirs : cut (render_directory_begin (line_renderer_create o) d dir dirs).
  Proof.
    unfold render_directory_begin, emoji_prefix, format_directory_begin.
    apply cut_bind; [apply cut_bind; [apply Hemoji|intro; apply cut_ret]|]. intro e.
    apply cut_bind; [|intro; apply cut_ret]. apply cut_bind; [|intro; apply cut_ret]. apply cut_mapM. intro x. unfold dir_label.
    destruct (get_file_name x); [apply cut_ret|apply cut_throw].
  Defined.

  Lemma cut_render e : forall d cp, cut (render_entry o (line_renderer_create o) e d cp).
  Proof.
    induction e as [dir es IH|f k|dd|n] using entry_rect'; intros d cp; cbn [render_entry]; [| |apply cut_ret|apply cut_ret].
    - assert (Hfin : forall ev : option (option jstring), cut
        (line <- render_directory_begin (line_renderer_create o) d dir cp;
         ext <- match ev with Some x => ret x | None => compute_line_extension o dir end;
         (let line := line ++ or_empty ext in
          let line := match es with [] => line | _ => line ++ [c_nl] end in
          children <- render_children (fun c cd => render_entry o (line_renderer_create o) c cd (initial_compact_paths c)) d es;
          ret (line ++ children)))).
      { intro ev. apply cut_bind; [apply cut_begin|]. intro line. apply cut_bind; [destruct ev; [apply cut_ret|apply Hext]|]. intro ext. cbn zeta.
        apply cut_bind; [|intro; apply cut_ret]. clear -IH. induction IH as [|c es Hc Hes IHes]; [apply cut_ret|].
        destruct es as [|c' es]; [apply Hc|]. simpl in *. apply cut_bind; [apply Hc|]. intro. apply cut_bind; [exact IHes|]. intro. apply cut_ret. }
      destruct es as [|c es]; [apply (Hfin None)|].
      destruct es as [|c' es]; [|destruct c; apply (Hfin None)].
      destruct c as [cd ces|f k|sd|n]; try apply (Hfin None).
      destruct (o_compact o && negb (depth_is_root d)); [|apply (Hfin None)].
      apply cut_bind; [apply Hext|]. intros [x|]; [apply (Hfin (Some (Some x)))|].
      inversion IH as [|a b Hc _]; subst. apply Hc.
    - unfold render_file, render_file_line, emoji_prefix. apply cut_bind; [|intro; apply cut_bind; [apply Hext|intro; apply cut_ret]].
      apply cut_bind; [apply cut_bind; [apply Hemoji|intro; apply cut_ret]|]. intro. apply cut_bind; [|intro; apply cut_ret].
      unfold format_file. destruct (get_file_name f); [apply cut_ret|apply cut_throw].
  Defined.

  Lemma cut_print p : cut (pretty_print o p).
  Proof.
    unfold pretty_print, pretty_print_with, scan, clean_path, render_tree.
    apply cut_bind; [apply cut_jvm|]. intro j. apply cut_bind; [|intro e; apply cut_render].
    apply cut_bind; [apply cut_bind; [apply cut_jvm|intro; apply cut_ret]|]. intro root.
    apply cut_bind; [apply cut_handle|]. intros [e|]; [apply cut_ret|apply cut_throw].
  Defined.
End Cut.

Lemma programs_exist o limit order emoji dirs files ext p :
  given_programs o limit order emoji dirs files ext -> exists t, means t (pretty_print o p).
Proof.
  intro H. destruct (cut_print o) with (p := p) as [t Ht]; [| | | | | |now exists t].
  - intro q. exists (limit q). apply H.
  - intros q q'. exists (order q q'). now apply (H q).
  - intro q. exists (emoji q). apply H.
  - intro q. exists (dirs q). apply H.
  - intro q. exists (files q). apply H.
  - intro q. unfold compute_line_extension. destruct (o_line_extension o) as [f|] eqn:E; [|apply cut_ret].
    exists (ext q). specialize (H q). rewrite E in H. apply H.
Qed.

(** ** A thread runs in the world of its moments *)
Lemma own_cons i j e g : events_of i ((j, e) :: g) = if Nat.eqb j i then e :: events_of i g else events_of i g.
Proof. unfold events_of. cbn. now destruct (Nat.eqb j i). Qed.

Lemma own_app i g g' : events_of i (g ++ g') = events_of i g ++ events_of i g'.
Proof. unfold events_of. now rewrite filter_app, map_app. Qed.

Lemma own_pairs i j l : events_of i (map (pair j) l) = if Nat.eqb j i then l else [].
Proof. induction l as [|e l IH]; cbn [map]; [now destruct (Nat.eqb j i)|]. rewrite own_cons, IH. now destruct (Nat.eqb j i). Qed.

Lemma respond_moments mo w h a : respond (at_moments mo w) h a = respond w (mo (length h)) a.
Proof. now destruct a. Qed.

Definition silent (a : action) : Prop := match a with AJvm => True | _ => False end.
Lemma event_one a x : (exists e, event_of a x = [e]) \/ (a = AJvm).
Proof. destruct a; cbn; eauto. destruct x; eauto. Qed.

Definition agrees_below (n : nat) (m1 m2 : nat -> hist) : Prop := forall k, k < n -> m1 k = m2 k.

Definition threads_inv (w : world) (h0 : hist) (i : nat) (t cur : prog jstring) (g : list (nat * event)) : Prop :=
  exists mo, moments_of i g h0 mo /\
    forall mo', agrees_below (length (events_of i g) + length h0) mo' mo ->
      run t (at_moments mo' w) h0 = run cur (at_moments mo' w) (events_of i g ++ h0).

Lemma moments_other i j e g h0 mo : j <> i -> moments_of i g h0 mo -> moments_of i ((j, e) :: g) h0 mo.
Proof.
  intros Hj H g2 ev g1 E. destruct g2 as [|x g2]; cbn in E; injection E as E1 E2; [congruence|]. subst. now apply (H g2 ev g1).
Qed.

Lemma inv_step w h0 i t ts1 a k ts2 g cur :
  nth_error (ts1 ++ Do a k :: ts2) i = Some cur -> threads_inv w h0 i t cur g ->
  exists cur', nth_error (ts1 ++ k (respond w (map snd g ++ h0) a) :: ts2) i = Some cur' /\
    threads_inv w h0 i t cur' (map (pair (length ts1)) (event_of a (respond w (map snd g ++ h0) a)) ++ g).
Proof.
  intros Hi (mo & Hmo & Hrun). set (x := respond w (map snd g ++ h0) a).
  destruct (Nat.eq_dec (length ts1) i) as [<-|Hne].
  - rewrite nth_error_app2, Nat.sub_diag in Hi by lia. injection Hi as <-.
    exists (k x). split; [rewrite nth_error_app2, Nat.sub_diag by lia; reflexivity|].
    destruct (event_one a x) as [[e He]|Hs].
    + rewrite He. cbn [map app]. set (n := length (events_of (length ts1) g) + length h0).
      exists (fun m => if Nat.eqb m n then map snd g ++ h0 else mo m). split.
      * intros g2 ev g1 E. destruct g2 as [|y g2]; cbn in E.
        -- injection E as _ <-. fold n. now rewrite Nat.eqb_refl.
        -- injection E as <- ->. replace (Nat.eqb _ n) with false; [now apply (Hmo g2 ev g1)|]. symmetry. apply Nat.eqb_neq. unfold n.
           rewrite own_app, own_cons, Nat.eqb_refl, app_length. cbn. lia.
      * intros mo' Hag. rewrite own_cons, Nat.eqb_refl in *. cbn [length] in Hag. rewrite Hrun.
        2:{ intros m Hm. rewrite Hag by (fold n in Hm |- *; lia). replace (Nat.eqb m n) with false; [reflexivity|]. symmetry. apply Nat.eqb_neq.
            fold n in Hm. lia. }
        cbn [run]. cbn zeta. rewrite respond_moments, app_length. fold n. rewrite (Hag n) by (unfold n; lia). rewrite Nat.eqb_refl.
        fold x. rewrite He. reflexivity.
    + subst a. cbn in *. exists mo. split; [exact Hmo|]. intros mo' Hag. now rewrite Hrun.
  - exists cur. split.
    { destruct (Nat.lt_ge_cases i (length ts1)) as [Hlt|Hge].
      - rewrite nth_error_app1 in Hi |- * by lia. exact Hi.
      - rewrite nth_error_app2 in Hi |- * by lia. destruct (i - length ts1) as [|m] eqn:E; [lia|exact Hi]. }
    assert (Ho : events_of i (map (pair (length ts1)) (event_of a x) ++ g) = events_of i g).
    { rewrite own_app, own_pairs. now replace (Nat.eqb (length ts1) i) with false by (symmetry; now apply Nat.eqb_neq). }
    exists mo. rewrite Ho. split; [|exact Hrun]. clear Ho Hrun. induction (event_of a x) as [|e l IH]; [exact Hmo|].
    cbn. now apply moments_other.
Qed.

Lemma execution_inv w h0 ts s : execution w h0 (ts, []) s -> forall i t, nth_error ts i = Some t ->
  exists cur, nth_error (fst s) i = Some cur /\ threads_inv w h0 i t cur (snd s).
Proof.
  induction 1 as [|s1 s2 Hx IH Hs]; intros i t Hi.
  - exists t. split; [exact Hi|]. exists (fun _ => []). split.
    + intros g2 ev g1 E. destruct g2; discriminate.
    + intros mo' _. reflexivity.
  - destruct (IH i t Hi) as (cur & Hcur & Hinv). destruct Hs as [ts1 a k ts2 g]. cbn [fst snd] in *.
    eapply inv_step; eauto.
Qed.

Lemma thread_world w h0 ts ts' g i o p t r :
  execution w h0 (ts, []) (ts', g) -> nth_error ts i = Some t -> means t (pretty_print o p) -> nth_error ts' i = Some (Done r) ->
  exists moment, moments_of i g h0 moment /\ pretty_print o p (at_moments moment w) h0 = (r, events_of i g ++ h0).
Proof.
  intros Hx Hi Hm Hr. destruct (execution_inv w h0 ts _ Hx i t Hi) as (cur & Hcur & mo & Hmo & Hrun).
  cbn [fst snd] in *. rewrite Hr in Hcur. injection Hcur as <-. exists mo. split; [exact Hmo|].
  rewrite <- (Hm _ h0), Hrun; [reflexivity|]. now intros n _.
Qed.

(** ** Unchanging worlds *)
Lemma run_same w w' (A : Type) (t : prog A) : (forall h a, respond w' h a = respond w h a) -> forall h, run t w' h = run t w h.
Proof. intro H. induction t as [r|a k IH]; intro h; cbn [run]; [reflexivity|]. cbn zeta. now rewrite H, IH. Qed.

Lemma thread_alone w h0 ts ts' g i o p t r :
  unchanging w -> execution w h0 (ts, []) (ts', g) -> nth_error ts i = Some t -> means t (pretty_print o p) ->
  nth_error ts' i = Some (Done r) -> pretty_print o p w h0 = (r, events_of i g ++ h0).
Proof.
  intros Hw Hx Hi Hm Hr. destruct (thread_world w h0 ts ts' g i o p t r Hx Hi Hm Hr) as (mo & _ & E).
  rewrite <- E, <- !(Hm _ h0). symmetry. apply run_same. intros h a. rewrite respond_moments.
  destruct a; cbn; try reflexivity; destruct (Hw (mo (length h)) h p0) as (E1 & E2 & E3 & E4 & E5); assumption.
Qed.

(** ** Executions end *)
Definition after {A} (u t : prog A) : Prop := match t with Done _ => False | Do a k => exists x, u = k x end.

Lemma after_wf A (t : prog A) : Acc after t.
Proof. induction t as [r|a k IH]; constructor; intros u Hu; [destruct Hu|]. destruct Hu as [x ->]. apply IH. Qed.

Definition one_after {A} (us ts : list (prog A)) : Prop := exists ts1 t u ts2, ts = ts1 ++ t :: ts2 /\ us = ts1 ++ u :: ts2 /\ after u t.

Lemma one_after_wf A (ts : list (prog A)) : Acc one_after ts.
Proof.
  induction ts as [|t ts IH].
  - constructor. intros us (ts1 & t & u & ts2 & E & _). destruct ts1; discriminate.
  - revert ts IH. induction (after_wf A t) as [t _ IHt]. intros ts Hts. induction Hts as [ts Hts IHts].
    constructor. intros us (ts1 & t' & u & ts2 & E & -> & Hu). destruct ts1 as [|t1 ts1]; cbn in E; injection E as E1 E2; subst.
    + cbn. apply IHt; [exact Hu|]. now constructor.
    + cbn. apply IHts. exists ts1, t', u, ts2. auto.
Qed.

Lemma step_wf w h0 s : Acc (fun s2 s1 => step w h0 s1 s2) s.
Proof.
  destruct s as [ts g]. revert g. induction (one_after_wf jstring ts) as [ts _ IH]. intro g. constructor. intros s2 Hs.
  inversion Hs as [ts1 a k ts2 g' x E1 E2]. subst. apply IH. exists ts1, (Do a k), (k x), ts2. split; [reflexivity|]. split; [reflexivity|].
  now exists x.
Qed.

Lemma no_infinite w h0 (f : nat -> state) : ~ forall n, step w h0 (f n) (f (S n)).
Proof.
  intro H. assert (Hn : forall s, Acc (fun s2 s1 => step w h0 s1 s2) s -> forall n, s = f n -> False).
  { induction 1 as [s _ IH]. intros n ->. apply (IH (f (S n)) (H n) (S n) eq_refl). }
  exact (Hn (f 0) (step_wf w h0 (f 0)) 0 eq_refl).
Qed.

Lemma progress w h0 ts g : (forall t, In t ts -> exists r, t = Done r) \/ exists s, step w h0 (ts, g) s.
Proof.
  assert (H : (forall t, In t ts -> exists r, t = Done r) \/ exists ts1 a k ts2, ts = ts1 ++ Do a k :: ts2).
  { induction ts as [|t ts IH]; [left; contradiction|]. destruct t as [r|a k]; [|right; now exists [], a, k, ts].
    destruct IH as [IH|(ts1 & a & k & ts2 & ->)]; [left|right; now exists (Done r :: ts1), a, k, ts2].
    intros t [<-|Ht]; [now exists r|auto]. }
  destruct H as [H|(ts1 & a & k & ts2 & ->)]; [now left|right]. eexists. apply step_thread.
Qed.

Lemma execution_app w h0 s1 s2 s3 : execution w h0 s1 s2 -> execution w h0 s2 s3 -> execution w h0 s1 s3.
Proof. intros H1 H2. induction H2 as [|s s' _ IH Hs]; [exact H1|]. eapply execution_step; eauto. Qed.

Lemma ends w h0 s : exists ts g, execution w h0 s (ts, g) /\ forall t, In t ts -> exists r, t = Done r.
Proof.
  induction (step_wf w h0 s) as [s _ IH]. destruct s as [ts g]. destruct (progress w h0 ts g) as [H|[s Hs]].
  - exists ts, g. split; [apply execution_none|exact H].
  - destruct (IH s Hs) as (ts' & g' & Hx & Hd). exists ts', g'. split; [|exact Hd].
    eapply execution_app; [|exact Hx]. eapply execution_step; [apply execution_none|exact Hs].
Qed.

(** ** Streams *)
Lemma unclosed_app h h' : unclosed (h ++ h') = (unclosed h + unclosed h')%Z.
Proof. induction h as [|ev h IH]; [reflexivity|]. destruct ev; cbn [unclosed app]; lia. Qed.

Lemma without_length q l : length l <= S (length (without q l)).
Proof. induction l as [|x l IH]; cbn; [lia|]. destruct (path_eqb q x); cbn; lia. Qed.

Lemma unclosed_open t : forall l, (unclosed t + Z.of_nat (length l) <= Z.of_nat (length (open_after l t)))%Z.
Proof.
  induction t as [|ev t IH]; intro l; [cbn; lia|]. destruct ev as [q a|q a|q n|q|q|q|q ok|tag q]; cbn [unclosed open_after]; try apply IH.
  - specialize (IH (q :: l)). cbn [length] in IH. lia.
  - specialize (IH (without q l)). pose proof (without_length q l). lia.
Qed.

Lemma unclosed_rev t : unclosed (rev t) = unclosed t.
Proof.
  induction t as [|ev t IH]; [reflexivity|]. cbn [rev]. rewrite unclosed_app, IH. destruct ev; cbn [unclosed]; lia.
Qed.

Lemma execution_grows w h0 s s' : execution w h0 s s' -> exists g, snd s' = g ++ snd s.
Proof.
  induction 1 as [|s1 s2 _ [g IH] Hs]; [now exists []|]. destruct Hs as [ts1 a k ts2 g']. cbn [snd] in *. rewrite IH.
  eexists. now rewrite app_assoc.
Qed.

Lemma execution_length w h0 s s' : execution w h0 s s' -> length (fst s') = length (fst s).
Proof.
  induction 1 as [|s1 s2 _ IH Hs]; [reflexivity|]. rewrite <- IH. destruct Hs as [ts1 a k ts2 g']. cbn [fst]. now rewrite !app_length.
Qed.

Lemma thread_trace w h0 ts ts' g i o p t :
  execution w h0 (ts, []) (ts', g) -> nth_error ts i = Some t -> means t (pretty_print o p) ->
  exists mo r u, pretty_print o p (at_moments mo w) h0 = (r, u ++ events_of i g ++ h0).
Proof.
  intros Hx Hi Hm. destruct (ends w h0 (ts', g)) as (ts2 & g2 & Hx2 & Hd).
  destruct (execution_grows _ _ _ _ Hx2) as [g3 E]. cbn [snd] in E. subst g2.
  pose proof (execution_app _ _ _ _ _ Hx Hx2) as Hx3.
  destruct (nth_error ts2 i) as [t2|] eqn:E2.
  2:{ apply nth_error_None in E2. apply execution_length in Hx3. cbn [fst] in Hx3. assert (i < length ts) by (apply nth_error_Some; congruence). lia. }
  destruct (Hd t2 (nth_error_In _ _ E2)) as [r ->].
  destruct (thread_world w h0 ts ts2 (g3 ++ g) i o p t r Hx3 Hi Hm E2) as (mo & _ & Hp).
  exists mo, r, (events_of i g3). now rewrite Hp, own_app, <- app_assoc.
Qed.

Lemma rev_suffix {A} (t : list A) u v h : rev t ++ h = u ++ v ++ h -> t = rev v ++ rev u.
Proof. rewrite app_assoc. intro E. apply app_inv_tail in E. apply (f_equal (@rev A)) in E. now rewrite rev_involutive, rev_app_distr in E. Qed.

Lemma thread_streams w h0 ts ts' g i o p t c :
  (forall moment, callbacks (at_moments moment w) o (at_most_open c) (fun _ => True)) ->
  execution w h0 (ts, []) (ts', g) -> nth_error ts i = Some t -> means t (pretty_print o p) ->
  exists l1 l2, open_after [] (rev (events_of i g)) = l1 ++ l2 /\ length l1 <= c /\ nested (location w p) l2 /\
    (Z.of_nat (length l2) <= Z.max 0 (o_max_depth o))%Z.
Proof.
  intros Hc Hx Hi Hm. destruct (thread_trace w h0 ts ts' g i o p t Hx Hi Hm) as (mo & r & u & Hp).
  destruct (C128_lemma o p (at_moments mo w) h0 c (Hc mo)) as (tr & Ht & Hall). rewrite Hp in Ht. cbn [snd] in Ht. symmetry in Ht. apply rev_suffix in Ht.
  destruct (Hall (rev (events_of i g)) (rev u) Ht) as (l1 & l2 & E & H1 & H2 & H3). exists l1, l2. repeat split; assumption.
Qed.

Lemma thread_closed w h0 ts ts' g i o p t r :
  (forall moment, callbacks (at_moments moment w) o balanced (fun _ => True)) ->
  execution w h0 (ts, []) (ts', g) -> nth_error ts i = Some t -> means t (pretty_print o p) -> nth_error ts' i = Some (Done r) ->
  balanced (rev (events_of i g)).
Proof.
  intros Hc Hx Hi Hm Hr. destruct (thread_world w h0 ts ts' g i o p t r Hx Hi Hm Hr) as (mo & _ & Hp).
  destruct (C15_lemma o p (at_moments mo w) h0 (fun _ => True) (Hc _)) as (tr & Ht & Hb). rewrite Hp in Ht. cbn [snd] in Ht.
  apply app_inv_tail in Ht. rewrite Ht, rev_involutive. exact Hb.
Qed.

Definition sum_unclosed (g : list (nat * event)) (n m : nat) : Z := fold_right (fun i z => (unclosed (events_of i g) + z)%Z) 0%Z (seq n m).

Lemma sum_unclosed_cons j e g m : forall n, n <= j < n + m -> sum_unclosed ((j, e) :: g) n m = (unclosed [e] + sum_unclosed g n m)%Z.
Proof.
  unfold sum_unclosed. induction m as [|m IH]; intros n Hj; [lia|]. cbn [seq fold_right]. rewrite own_cons.
  destruct (Nat.eqb_spec j n) as [->|Hne].
  - change (e :: events_of n g) with ([e] ++ events_of n g). rewrite unclosed_app.
    assert (Ho : forall k, n < k -> fold_right (fun i z => (unclosed (events_of i ((n, e) :: g)) + z)%Z) 0%Z (seq k m) =
                          fold_right (fun i z => (unclosed (events_of i g) + z)%Z) 0%Z (seq k m)).
    { clear. induction m as [|m IH]; intros k Hk; [reflexivity|]. cbn [seq fold_right]. rewrite own_cons.
      destruct (Nat.eqb_spec n k); [lia|]. rewrite IH by lia. reflexivity. }
    rewrite Ho by lia. lia.
  - rewrite IH by lia. lia.
Qed.

Lemma sum_unclosed_all g m : Forall (fun e => fst e < m) g -> unclosed (map snd g) = sum_unclosed g 0 m.
Proof.
  induction 1 as [|[j e] g Hj _ IH].
  - unfold sum_unclosed. cbn. induction (seq 0 m) as [|x l IHl]; [reflexivity|]. cbn [fold_right]. rewrite <- IHl. reflexivity.
  - cbn [map snd]. rewrite (sum_unclosed_cons j e g m 0) by (cbn in Hj; lia). change (e :: map snd g) with ([e] ++ map snd g).
    now rewrite unclosed_app, IH.
Qed.

Lemma execution_ids w h0 ts s : execution w h0 (ts, []) s -> Forall (fun e => fst e < length ts) (snd s).
Proof.
  intro Hx. pose proof (execution_length _ _ _ _ Hx) as Hl. cbn [fst] in Hl. rewrite <- Hl. clear Hl.
  induction Hx as [|s1 s2 _ IH Hs]; [constructor|]. destruct Hs as [ts1 a k ts2 g]. cbn [fst snd] in *.
  rewrite app_length in *. cbn [length] in *. apply Forall_app. split; [|exact IH]. apply Forall_forall. intros [j e] Hin.
  apply in_map_iff in Hin. destruct Hin as (e' & E & _). injection E as <- _. cbn. lia.
Qed.

Lemma streams_total w h0 jobs ts ts' g :
  (forall job, In job jobs -> forall moment, callbacks (at_moments moment w) (fst job) (at_most_open 0) (fun _ => True)) ->
  Forall2 prints ts jobs -> execution w h0 (ts, []) (ts', g) -> (unclosed (map snd g) <= total_depth jobs)%Z.
Proof.
  intros Hc Hf Hx. rewrite (sum_unclosed_all g (length ts)) by exact (execution_ids _ _ _ _ Hx).
  assert (Hi : forall i t job, nth_error ts i = Some t -> nth_error jobs i = Some job -> prints t job ->
               (unclosed (events_of i g) <= Z.max 0 (o_max_depth (fst job)))%Z).
  { intros i t job Ht Hjob Hp. destruct (thread_streams w h0 ts ts' g i _ _ t 0 (Hc job (nth_error_In _ _ Hjob)) Hx Ht Hp)
      as (l1 & l2 & E & H1 & _ & H3). pose proof (unclosed_open (rev (events_of i g)) []) as Hh. rewrite unclosed_rev, E, app_length in Hh. cbn in Hh. lia. }
  clear Hc Hx. assert (G : forall n, (forall i t job, nth_error ts i = Some t -> nth_error jobs i = Some job -> prints t job ->
    (unclosed (events_of (n + i) g) <= Z.max 0 (o_max_depth (fst job)))%Z) -> (sum_unclosed g n (length ts) <= total_depth jobs)%Z); [|apply (G 0 Hi)].
  clear Hi. induction Hf as [|t job ts jobs Hp _ IH]; intros n Hi; [reflexivity|].
  unfold sum_unclosed, total_depth in *. cbn [length seq fold_right].
  specialize (IH (S n)). specialize (Hi 0 t job eq_refl eq_refl Hp) as H0. rewrite Nat.add_0_r in H0.
  assert (H1 := IH (fun i t' job' A B C => eq_ind (n + S i) (fun m => (unclosed (events_of m g) <= _)%Z) (Hi (S i) t' job' A B C) (S n + i) ltac:(lia))).
  lia.
Qed.

(** ** What is displayed *)
Lemma thread_seen w h0 ts ts' g i o p t out v :
  (forall moment, honest_callbacks (at_moments moment w) o /\ sees (at_moments moment w) o v) ->
  execution w h0 (ts, []) (ts', g) -> nth_error ts i = Some t -> means t (pretty_print o p) -> nth_error ts' i = Some (Done (Ok out)) ->
  exists moment e s, moments_of i g h0 moment /\ shows v true e s /\ out = text (o_tree_format o) (labelled v s) /\
    truthful_from (at_moments moment w) h0 (rev (events_of i g)) /\ entry_path e = Some (location w p) /\
    forall k x, at_depth k e x -> seen_entry (at_moments moment w) o h0 (rev (events_of i g)) (Z.of_nat k) x.
Proof.
  intros Hc Hx Hi Hm Hr. destruct (thread_world w h0 ts ts' g i o p t _ Hx Hi Hm Hr) as (mo & Hmo & Hp).
  destruct (C94_lemma o p (at_moments mo w) h0 out _ v (proj1 (Hc _)) (proj2 (Hc _)) Hp) as (e & s & tr & H1 & H2 & H3 & H4 & H5 & H6).
  apply app_inv_tail in H3. exists mo, e, s. rewrite H3, rev_involutive. repeat split; assumption.
Qed.
