(** * The lines that are left: lemmas for C177 *)

From Verif Require Import SpecFewer RenderFacts LayoutFacts OutlineFacts BoundFacts ScanFacts ScanPrintFacts PrintFacts MetaFacts SpecMoved MovedFacts.

Lemma cut_shows v : v_compact v = false -> forall e top s m d n, (m - d = Z.of_nat n)%Z -> shows v top e s -> shows v top (cut m d e) (cut_lines n s).
Proof.
  intro Hv. induction e as [r es IH|f k|r|x] using entry_ind'; intros top s m d n Hn H.
  - inversion H as [| | |? ? ? ks Ht HF|? ds es' ks Hc Hch HF]; subst; [|congruence]. cbn [cut]. destruct n as [|n].
    + destruct (Z.leb_spec m d); [|lia]. cbn [cut_lines]. constructor; [now right|]. repeat constructor.
    + destruct (Z.leb_spec m d); [lia|]. cbn [cut_lines]. constructor; [now right|].
      clear -HF IH Hn. induction HF as [|a b l l' Hab HF IHF]; cbn [map]; constructor; inversion IH; subst; auto.
      apply H1; [lia|exact Hab].
  - destruct n; inversion H; subst; try constructor; match goal with H : chain_of _ _ _ _ |- _ => inversion H end.
  - destruct n; inversion H; subst; try constructor; match goal with H : chain_of _ _ _ _ |- _ => inversion H end.
  - destruct n; inversion H; subst; try constructor; match goal with H : chain_of _ _ _ _ |- _ => inversion H end.
Qed.

Lemma within_under n b l : filter (within (S n)) (map (under b) l) = map (under b) (filter (within n) l).
Proof.
  induction l as [|r l IH]; [reflexivity|]. cbn [map filter]. change (within (S n) (under b r)) with (within n r).
  destruct (within n r); cbn [map]; now rewrite IH.
Qed.

Lemma below_cons k k' ks : rows_below (k :: k' :: ks) = map (under false) (rows k) ++ rows_below (k' :: ks).
Proof. reflexivity. Qed.

Lemma below_none ks : filter (within 0) (rows_below ks) = [].
Proof.
  assert (H : forall l, (forall r : row, In r l -> fst r <> []) -> filter (within 0) l = []).
  { induction l as [|r l IH]; [reflexivity|]. intro H. cbn [filter]. unfold within at 1. destruct (fst r) eqn:E; [destruct (H r); auto; now left|].
    cbn [length Nat.leb]. apply IH. intros x Hx. apply H. now right. }
  apply H. intro r. apply rows_below_flags_nonempty.
Qed.

Lemma cut_rows v s : forall n, filter (within n) (rows (labelled v (cut_lines n s))) = filter (within n) (rows (labelled v s)).
Proof.
  induction s as [c ks IH|f k|] using shown_ind'; intro n; [|destruct n; reflexivity|destruct n; reflexivity].
  destruct n as [|n]; cbn [cut_lines labelled]; rewrite !rows_eq; cbn [filter];
    match goal with |- context [within ?k ([], ?l)] => change (within k ([], l)) with true end; cbv iota; f_equal.
  - now rewrite !below_none.
  - rewrite map_map. induction IH as [|k ks Hk IH IHl]; [reflexivity|]. destruct ks as [|k' ks].
    + cbn [map rows_below]. rewrite !within_under. now rewrite Hk.
    + cbn [map] in *. rewrite !below_cons, !filter_app, !within_under, Hk. f_equal. exact IHl.
Qed.

Lemma cut_dots v s : forall n r, In r (rows (labelled v (cut_lines n s))) -> (n < length (fst r))%nat ->
  exists flags label, In (flags, label) (rows (labelled v s)) /\ length flags = n /\ r = (flags ++ [true], js "...").
Proof.
  induction s as [c ks IH|f k|] using shown_ind'; intros n r Hin Hlen.
  2,3: destruct n; cbn in Hin; destruct Hin as [<-|[]]; cbn in Hlen; lia.
  destruct n as [|n]; cbn [cut_lines labelled] in *; rewrite rows_eq in *; destruct Hin as [<-|Hin]; try (cbn in Hlen; lia).
  - cbn in Hin. destruct Hin as [<-|[]]. eexists [], _. split; [now left|]. split; reflexivity.
  - rewrite map_map in Hin. cut (exists flags label, In (flags, label) (rows_below (map (labelled v) ks)) /\ length flags = S n /\ r = (flags ++ [true], js "...")).
    { intros (fl & la & H & H'). exists fl, la. split; [now right|exact H']. }
    assert (Hone : forall k b, (forall n r, In r (rows (labelled v (cut_lines n k))) -> (n < length (fst r))%nat ->
        exists flags label, In (flags, label) (rows (labelled v k)) /\ length flags = n /\ r = (flags ++ [true], js "...")) ->
      In r (map (under b) (rows (labelled v (cut_lines n k)))) ->
      exists flags label, In (flags, label) (map (under b) (rows (labelled v k))) /\ length flags = S n /\ r = (flags ++ [true], js "...")).
    { intros k b Hk H. apply in_map_iff in H. destruct H as (r' & <- & H). cbn [under fst length] in Hlen.
      destruct (Hk n r' H) as (fl & la & H1 & H2 & ->); [lia|]. exists (b :: fl), la. split; [|split; [cbn; lia|reflexivity]].
      apply in_map_iff. exists (fl, la). auto. }
    induction IH as [|k ks Hk IH IHl]; [destruct Hin|]. destruct ks as [|k' ks].
    + apply (Hone k true); auto.
    + cbn [map] in Hin, IHl |- *. rewrite below_cons in Hin |- *. apply in_app_or in Hin. destruct Hin as [Hin|Hin].
      * destruct (Hone k false Hk Hin) as (fl & la & H & H'). exists fl, la. split; [apply in_or_app; now left|exact H'].
      * destruct (IHl Hin) as (fl & la & H & H'). exists fl, la. split; [apply in_or_app; now right|exact H'].
Qed.

Lemma C177_lemma : forall o p w h out h' v dk st (m : nat),
  steady w dk -> distinct_names dk -> uses w o st -> sees w o v -> configured_order (s_cmp st) -> v_compact v = false -> (Z.of_nat m <= s_depth st)%Z ->
  pretty_print o p w h = (Ok out, h') ->
  exists e s, tree_at st dk 0 (location w p) e /\ shows v true e s /\ out = text (o_tree_format o) (labelled v s) /\
    (forall h1, exists h1', pretty_print (with_max_depth (Z.of_nat m) o) p w h1 = (Ok (text (o_tree_format o) (labelled v (cut_lines m s))), h1')) /\
    filter (within m) (rows (labelled v (cut_lines m s))) = filter (within m) (rows (labelled v s)) /\
    (forall r, In r (rows (labelled v (cut_lines m s))) -> within m r = false ->
      exists flags label, In (flags, label) (rows (labelled v s)) /\ length flags = m /\ r = (flags ++ [true], js "...")).
Proof.
  intros o p w h out h' v dk st m Hw Hd Hu Hs Hc Hv Hm H.
  destruct (C87_lemma _ _ _ _ _ _ _ _ _ (Z.of_nat m) Hw Hd Hu Hs Hc Hm H) as (e & s & s' & Ht & Hsh & Ho & Hsh' & Hr).
  exists e, s. split; [exact Ht|]. split; [exact Hsh|]. split; [exact Ho|].
  pose proof (cut_shows v Hv e true s (Z.of_nat m) 0 m (Z.sub_0_r _) Hsh) as Hs2. rewrite <- (shows_fun _ _ _ _ _ Hsh' Hs2).
  split; [exact Hr|]. rewrite (shows_fun _ _ _ _ _ Hsh' Hs2). split; [apply cut_rows|].
  intros r Hin Hwi. apply cut_dots; auto. unfold within in Hwi. apply Nat.leb_gt in Hwi. exact Hwi.
Qed.

(** ** Lines that are left by filters and limits *)

Lemma lines_dt l ks : lines_of (DT l ks) = (0%nat, l) :: flat_map (fun k => map deeper (lines_of k)) ks.
Proof. unfold lines_of. rewrite rows_eq. cbn [map fst snd length]. f_equal. exact (below_levels ks). Qed.

Section Thin.
  Context (new : jstring -> Prop).

  Lemma thinned_refl l : thinned new l l.
  Proof. induction l; constructor; auto. Qed.
  Lemma thinned_nil l : thinned new [] l.
  Proof. induction l; constructor; auto. Qed.
  Lemma thinned_app a' a b' b : thinned new a' a -> thinned new b' b -> thinned new (a' ++ b') (a ++ b).
  Proof. intros Ha Hb. induction Ha; cbn; try constructor; auto. Qed.
  Lemma thinned_deeper a' a : thinned new a' a -> thinned new (map deeper a') (map deeper a).
  Proof. induction 1; cbn; try constructor; auto. Qed.
  Lemma thinned_node l ks' ks : thinned new (flat_map (fun k => map deeper (lines_of k)) ks') (flat_map (fun k => map deeper (lines_of k)) ks) ->
    thinned new (lines_of (DT l ks')) (lines_of (DT l ks)).
  Proof. intro H. rewrite !lines_dt. now constructor. Qed.
End Thin.

Lemma plain_dir v top d es s : v_compact v = false -> shows v top (EDir d es) s -> exists ks, s = SDir [d] ks /\ Forall2 (shows v false) es ks.
Proof. intros Hv H. inversion H; subst; [eauto|congruence]. Qed.

Lemma select_thins v fd ff : v_compact v = false -> forall e top s s', shows v top e s -> shows v top (select fd ff e) s' ->
  thinned (fun _ => False) (lines_of (labelled v s')) (lines_of (labelled v s)).
Proof.
  intro Hv. induction e as [r es IH|f k|r|x] using entry_ind'; intros top s s' H H'.
  2,3,4: cbn [select] in H'; rewrite (shows_fun _ _ _ _ _ H H'); apply thinned_refl.
  cbn [select] in H'. destruct (plain_dir _ _ _ _ _ Hv H) as (ks & -> & HF). destruct (plain_dir _ _ _ _ _ Hv H') as (ks' & -> & HF').
  cbn [labelled]. apply thinned_node. clear H H'. revert ks' HF'. induction HF as [|a b l l' Hab HF IHF]; intros ks' HF'; cbn [map filter] in HF'.
  - inversion HF'; subst. constructor.
  - inversion IH as [|? ? IHa IHl]; subst. destruct (kept fd ff (select fd ff a)); cbn [map flat_map].
    + inversion HF' as [|? b' ? ks0 Hab' HF0]; subst. cbn [map flat_map]. apply thinned_app; [|now apply IHF]. apply thinned_deeper. eapply IHa; eauto.
    + change (flat_map (fun k => map deeper (lines_of k)) (map (labelled v) ks')) with ([] ++ flat_map (fun k => map deeper (lines_of k)) (map (labelled v) ks')).
      apply thinned_app; [apply thinned_nil|now apply IHF].
Qed.

Definition is_dots (t : jstring) : Prop := t = js "...".

Lemma prune_kids v : forall es ks m ks', Forall2 (shows v false) es ks ->
  Forall (fun e => forall top s s', shows v top e s -> shows v top (m e) s' -> thinned is_dots (lines_of (labelled v s')) (lines_of (labelled v s))) es ->
  forall n, Forall2 (shows v false) (firstn n (map m es)) ks' ->
  thinned is_dots (flat_map (fun k => map deeper (lines_of k)) (map (labelled v) ks')) (flat_map (fun k => map deeper (lines_of k)) (map (labelled v) ks)).
Proof.
  intros es ks m ks' HF. revert ks'. induction HF as [|a b l l' Hab HF IHF]; intros ks' IH n HF'.
  - rewrite firstn_nil in HF'. inversion HF'; subst. constructor.
  - destruct n as [|n]; cbn [map firstn] in HF'.
    + inversion HF'; subst. apply thinned_nil.
    + inversion HF' as [|? b' ? ks0 Hab' HF0]; subst. inversion IH as [|? ? IHa IHl]; subst. cbn [map flat_map].
      apply thinned_app; [|eapply IHF; eauto]. apply thinned_deeper. eapply IHa; eauto.
Qed.

Lemma prune_thins v f : v_compact v = false -> forall e top s s', shows v top e s -> shows v top (prune f e) s' ->
  thinned is_dots (lines_of (labelled v s')) (lines_of (labelled v s)).
Proof.
  intro Hv. induction e as [r es IH|g k|r|x] using entry_ind'; intros top s s' H H'.
  2,3,4: cbn [prune] in H'; rewrite (shows_fun _ _ _ _ _ H H'); apply thinned_refl.
  assert (Hgen : shows v top (EDir r ((if (f r <? 0)%Z then map (prune f) es else firstn (Z.to_nat (f r)) (map (prune f) es)) ++
                     if ((0 <=? f r) && (f r <? Z.of_nat (length es)))%Z then [ESkipped r] else [])) s' ->
    thinned is_dots (lines_of (labelled v s')) (lines_of (labelled v s))).
  { clear H'. intro H'. destruct (plain_dir _ _ _ _ _ Hv H) as (ks & -> & HF). destruct (plain_dir _ _ _ _ _ Hv H') as (ks' & -> & HF').
    cbn [labelled]. apply thinned_node. apply Forall2_app_inv_l in HF'. destruct HF' as (ks1 & ks2 & HF1 & HF2 & ->).
    rewrite map_app, flat_map_app. rewrite <- (app_nil_r (flat_map _ (map (labelled v) ks))). apply thinned_app.
    - assert (HF1' : exists n, Forall2 (shows v false) (firstn n (map (prune f) es)) ks1).
      { destruct (f r <? 0)%Z; [|eauto]. exists (length (map (prune f) es)). now rewrite firstn_all. }
      destruct HF1' as [n HF1']. eapply prune_kids; eauto.
    - destruct (_ && _); inversion HF2 as [|? b ? l Hb Hl]; subst; [|constructor]. inversion Hl; subst. inversion Hb; subst;
        [|match goal with H : chain_of _ _ _ _ |- _ => inversion H end].
      cbn. constructor; [reflexivity|constructor]. }
  cbn [prune] in H'. destruct es as [|[d es'|g k|d|n] [|e2 es2]]; try exact (Hgen H').
  rewrite (shows_fun _ _ _ _ _ H H'). apply thinned_refl.
Qed.

Lemma C178_filters_lemma : forall o p w h out h' v dk st md mf fd ff,
  steady w dk -> distinct_names dk -> uses w o st -> sees w o v -> configured_order (s_cmp st) -> (forall q, (s_limit st q < 0)%Z) -> v_compact v = false ->
  answers w md fd -> answers w mf ff ->
  (forall q, fd q = true -> s_dirs st q = true) -> (forall q, ff q = true -> s_files st q = true) ->
  pretty_print o p w h = (Ok out, h') ->
  exists e s s', tree_at st dk 0 (location w p) e /\ shows v true e s /\ out = text (o_tree_format o) (labelled v s) /\
    shows v true (select fd ff e) s' /\
    (forall h1, exists h1', pretty_print (filter_directories md (filter_files mf o)) p w h1 = (Ok (text (o_tree_format o) (labelled v s')), h1')) /\
    thinned (fun _ => False) (lines_of (labelled v s')) (lines_of (labelled v s)).
Proof.
  intros o p w h out h' v dk st md mf fd ff Hw Hd Hu Hs Hc Hl Hv Hmd Hmf Hfd Hff H.
  destruct (C89_lemma _ _ _ _ _ _ _ _ _ md mf fd ff Hw Hd Hu Hs Hc Hl Hmd Hmf Hfd Hff H) as (e & s & s' & Ht & Hsh & Ho & Hsh' & Hr).
  exists e, s, s'. split; [exact Ht|]. split; [exact Hsh|]. split; [exact Ho|]. split; [exact Hsh'|]. split; [exact Hr|]. eapply select_thins; eauto.
Qed.

Lemma C178_limits_lemma : forall o p w h out h' v dk st fn f,
  steady w dk -> distinct_names dk -> uses w o st -> sees w o v -> configured_order (s_cmp st) -> v_compact v = false ->
  answers w fn f -> as_strict f (s_limit st) ->
  pretty_print o p w h = (Ok out, h') ->
  exists e s s', tree_at st dk 0 (location w p) e /\ shows v true e s /\ out = text (o_tree_format o) (labelled v s) /\
    shows v true (prune f e) s' /\
    (forall h1, exists h1', pretty_print (with_child_limit_fn fn o) p w h1 = (Ok (text (o_tree_format o) (labelled v s')), h1')) /\
    thinned (fun label => label = js "...") (lines_of (labelled v s')) (lines_of (labelled v s)).
Proof.
  intros o p w h out h' v dk st fn f Hw Hd Hu Hs Hc Hv Hf Hst H.
  destruct (C88_lemma _ _ _ _ _ _ _ _ _ fn f Hw Hd Hu Hs Hc Hf Hst H) as (e & s & s' & Ht & Hsh & Ho & Hsh' & Hr).
  exists e, s, s'. split; [exact Ht|]. split; [exact Hsh|]. split; [exact Ho|]. split; [exact Hsh'|]. split; [exact Hr|]. eapply prune_thins; eauto.
Qed.
