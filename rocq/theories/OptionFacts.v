(** * Facts about options objects and printers *)

From Verif Require Import SpecOptions PrintFacts.
From Coq Require Import Lia PeanoNat.
Close Scope Z_scope.

Section Lower.
Context (lower : jstring -> jstring).

(** ** One object *)

Lemma set_option_ok s o : (exists o', set_option lower s o = Ok o') <-> ~ rejected lower s.
Proof.
  destruct s as [n|[f|]|[f|]| |[e|]|b|d|[c|]|[m|]|[m|]|x]; cbn [set_option require rejected]; try solve [split; [intros _ H; exact H|eauto]];
    try solve [split; [intros [? H]; discriminate|intro H; destruct (H I)]].
  destruct (emoji_create_default lower) as [e|e]; split.
  - intros _ H. now apply (H e).
  - eauto.
  - intros [? H]. discriminate.
  - intro H. destruct H. intros e'. discriminate.
Qed.

Lemma rejected_dec s : {rejected lower s} + {~ rejected lower s}.
Proof.
  destruct s as [n|[f|]|[f|]| |[e|]|b|d|[c|]|[m|]|[m|]|x]; unfold rejected; auto.
  destruct (emoji_create_default lower) as [e|e].
  - right. intro H. now apply (H e).
  - left. intro. discriminate.
Qed.

Lemma last_given_given A (gives : setter -> A -> Prop) init l s v : gives s v -> last_given gives init (l ++ [s]) v.
Proof. intro H. left. exists l, s, []. split; [reflexivity|]. split; [exact H|]. intros ? ? []. Qed.

Lemma last_given_kept A (gives : setter -> A -> Prop) init l s v :
  (forall v', ~ gives s v') -> last_given gives init l v -> last_given gives init (l ++ [s]) v.
Proof.
  intros Hs [(b & s0 & a & -> & Hg & Ha)|[-> Hl]].
  - left. exists b, s0, (a ++ [s]). split; [now rewrite <- app_assoc|]. split; [exact Hg|].
    intros s' v' [Hin|[<-|[]]]%in_app_or; [now apply Ha|apply Hs].
  - right. split; [reflexivity|]. intros s' v' [Hin|[<-|[]]]%in_app_or; [now apply Hl|apply Hs].
Qed.

Ltac none := intro; unfold gives_limit, gives_format, gives_emojis, gives_compact, gives_depth, gives_order, gives_dir_filter,
  gives_file_filter, gives_extension; let H := fresh in intro H;
  repeat match goal with H : _ \/ _ |- _ => destruct H | H : _ /\ _ |- _ => destruct H | H : exists _, _ |- _ => destruct H end; discriminate.

Lemma holds_set l s o o' : holds lower l o -> set_option lower s o = Ok o' -> holds lower (l ++ [s]) o'.
Proof.
  intros (H1 & H2 & H3 & H4 & H5 & H6 & H7 & H8 & H9) E.
  destruct s as [n|[f|]|[f|]| |[e|]|b|d|[c|]|[m|]|[m|]|x]; cbn [set_option require] in E; try discriminate;
    try (destruct (emoji_create_default lower) as [e|e] eqn:Ee; [|discriminate]);
    injection E as <-; (repeat (split; [first [apply last_given_kept; [none|assumption] | apply last_given_given]|]));
    try (apply last_given_kept; [none|assumption]); try (apply last_given_given).
  - right. exists n. split; reflexivity.
  - now left.
  - reflexivity.
  - now right.
  - now left.
  - reflexivity.
  - reflexivity.
  - exists c. split; reflexivity.
  - reflexivity.
  - reflexivity.
  - reflexivity.
Qed.

Lemma holds_default : holds lower [] default_options.
Proof. repeat split; right; (split; [reflexivity|intros ? ? []]). Qed.

Lemma set_all_spec body : forall o l, holds lower l o -> forall done, executed lower body done ->
  exists o', set_all lower body o = (o', snd (set_all lower body o)) /\ holds lower (l ++ done) o' /\
    (snd (set_all lower body o) = None <-> done = body).
Proof.
  induction body as [|s body IH]; intros o l Ho done (rest & E & Hok & Hr).
  - destruct done; [|discriminate]. exists o. rewrite app_nil_r. now split.
  - cbn [set_all]. destruct done as [|s' done].
    + cbn in E. subst rest. destruct (set_option lower s o) as [o'|e] eqn:Es.
      { destruct (proj1 (set_option_ok s o)); eauto. }
      exists o. rewrite app_nil_r. split; [reflexivity|]. split; [exact Ho|]. split; [discriminate|discriminate].
    + injection E as <- E. destruct (proj2 (set_option_ok s o)) as [o' Es]; [apply Hok; now left|]. rewrite Es.
      destruct (IH o' (l ++ [s])) with (done := done) as (o2 & E2 & H2 & H3).
      * eapply holds_set; eauto.
      * exists rest. split; [exact E|]. split; [|exact Hr]. intros x Hx. apply Hok. now right.
      * exists o2. split; [exact E2|]. rewrite <- app_assoc in H2. split; [exact H2|]. rewrite H3. split; [now intros ->|]. now injection 1.
Qed.

Lemma executed_exists body : exists done, executed lower body done.
Proof.
  induction body as [|s body (done & rest & E & Hok & Hr)].
  - exists [], []. split; [reflexivity|]. split; [intros ? []|exact I].
  - destruct (rejected_dec s) as [Hs|Hs].
    + exists [], (s :: body). split; [reflexivity|]. split; [intros ? []|exact Hs].
    + exists (s :: done), rest. split; [cbn; congruence|]. split; [|exact Hr]. intros x [<-|Hx]; auto.
Qed.

Lemma executed_det body d1 d2 : executed lower body d1 -> executed lower body d2 -> d1 = d2.
Proof.
  revert d1 d2. induction body as [|s body IH]; intros d1 d2 (r1 & E1 & O1 & R1) (r2 & E2 & O2 & R2).
  - destruct d1, d2; try discriminate. reflexivity.
  - destruct d1 as [|s1 d1], d2 as [|s2 d2]; cbn in *.
    + reflexivity.
    + subst r1. injection E2 as <- E2. now destruct (O2 s (or_introl eq_refl)).
    + subst r2. injection E1 as <- E1. now destruct (O1 s (or_introl eq_refl)).
    + injection E1 as <- E1. injection E2 as <- E2. f_equal. apply IH.
      * exists r1. auto.
      * exists r2. auto.
Qed.

(** C49 for one object *)
Lemma C49_chain l : (forall s, In s l -> ~ rejected lower s) ->
  exists o, set_all lower l default_options = (o, None) /\ holds lower l o.
Proof.
  intro Hl. destruct (set_all_spec l default_options [] holds_default l) as (o & E & H & Hn).
  - exists []. split; [now rewrite app_nil_r|]. now split.
  - exists o. rewrite (proj2 Hn eq_refl) in E. auto.
Qed.

Lemma C49_rejected s o : rejected lower s <-> exists e, set_option lower s o = Throw e.
Proof.
  destruct (set_option lower s o) as [o'|e] eqn:E.
  - split; [|intros [? ?]; discriminate]. intro H. destruct (proj1 (set_option_ok s o)); eauto.
  - split; [eauto|]. intros _. destruct (rejected_dec s) as [H|H]; [exact H|]. destruct (proj2 (set_option_ok s o) H). congruence.
Qed.

(** ** Several objects *)

Lemma put_out A (l : list A) i a : length l <= i -> put l i a = l.
Proof. intro H. unfold put. now rewrite skipn_all2. Qed.
Lemma put_length A (l : list A) i a : length (put l i a) = length l.
Proof.
  unfold put. destruct (skipn i l) as [|x after] eqn:E; [reflexivity|].
  rewrite <- (firstn_skipn i l) at 2. rewrite E, !app_length. reflexivity.
Qed.
Lemma put_same A (l : list A) i a : i < length l -> nth_error (put l i a) i = Some a.
Proof.
  intro H. unfold put. destruct (skipn i l) as [|x after] eqn:E.
  - apply (f_equal (@length _)) in E. rewrite skipn_length in E. cbn in E. lia.
  - rewrite nth_error_app2; rewrite firstn_length_le; try lia. now rewrite Nat.sub_diag.
Qed.
Lemma put_other A (l : list A) i j a : i <> j -> nth_error (put l i a) j = nth_error l j.
Proof.
  revert i j. induction l as [|x l IH]; intros [|i] [|j] H; try reflexivity; try congruence.
  - unfold put. cbn. now destruct (skipn i l).
  - specialize (IH i j). unfold put in *. cbn. destruct (skipn i l); [reflexivity|]. apply IH. congruence.
Qed.

Definition after (l : list call) : client := client_run lower (rev l).

Lemma after_cons x l : after (x :: l) = client_exec lower (after l) x.
Proof. unfold after, client_run. cbn [rev]. now rewrite fold_left_app. Qed.

Definition sound (l : list call) : Prop :=
  let c := after l in
  length (cl_objects c) = objects_made l /\ length (cl_builders c) = builders_made l /\
  (forall b i, refers lower l b i -> nth_error (cl_builders c) b = Some i /\ i < objects_made l) /\
  (forall b, b < builders_made l -> exists i, refers lower l b i) /\
  (forall i t, receives lower l i t -> exists o, nth_error (cl_objects c) i = Some o /\ holds lower t o) /\
  (forall i, i < objects_made l -> exists t, receives lower l i t).

Lemma made_mono l x : objects_made l <= objects_made (x :: l) /\ builders_made l <= builders_made (x :: l).
Proof. destruct x; cbn; lia. Qed.

Lemma executed_all body o : snd (set_all lower body o) = None <-> executed lower body body.
Proof.
  revert o. induction body as [|s body IH]; intro o.
  - split; [|reflexivity]. intros _. exists []. split; [reflexivity|]. split; [intros ? []|exact I].
  - cbn [set_all]. destruct (set_option lower s o) as [o'|e] eqn:E.
    + rewrite IH. split; intros (rest & Er & Hok & Hr).
      * exists rest. split; [cbn; congruence|]. split; [|exact Hr]. intros x [<-|Hx]; [|now apply Hok]. apply (set_option_ok s o). eauto.
      * exists rest. injection Er as Er. split; [exact Er|]. split; [|exact Hr]. intros x Hx. apply Hok. now right.
    + split; [discriminate|]. intros (rest & _ & Hok & _). destruct (proj2 (set_option_ok s o) (Hok s (or_introl eq_refl))). congruence.
Qed.

Lemma repoints_dec x b : (exists j, repoints lower x b j) \/ (forall j, ~ repoints lower x b j).
Proof.
  destruct x as [|i0 s| |b0 [i0|]|b0 body r|b0];
    try solve [right; intros j [E|(? & E & ?)]; discriminate].
  - destruct (Nat.eq_dec b0 b) as [->|Hb]; [left; exists i0; now left|]. right. intros j [E|(? & E & ?)]; [congruence|discriminate].
  - destruct r as [|i0|]; try solve [right; intros j [E|(? & E & ?)]; discriminate].
    destruct (Nat.eq_dec b0 b) as [->|Hb]; [|right; intros j [E|(? & E & ?)]; [discriminate|congruence]].
    destruct (snd (set_all lower body default_options)) as [e|] eqn:E.
    + right. intros j [F|(body' & F & H)]; [discriminate|]. injection F as <- <-. apply (executed_all body default_options) in H. congruence.
    + left. exists i0. right. exists body. split; [reflexivity|]. now apply (executed_all body default_options).
Qed.

Lemma repoints_det x b i j : repoints lower x b i -> repoints lower x b j -> i = j.
Proof. intros [->|(? & -> & _)] [E|(? & E & _)]; congruence. Qed.

Lemma exec_objects_length c x : length (cl_objects (client_exec lower c x)) =
  length (cl_objects c) + match x with NewOptions | NewBuilder => 1 | _ => 0 end.
Proof.
  destruct c as [os bs ps], x as [|i0 s| |b0 [i0|]|b0 body r|b0]; cbn; rewrite ?app_length; try (cbn; lia).
  - destruct (nth_error os i0) as [o|]; [|cbn; lia]. destruct (set_option lower s o); cbn; rewrite ?put_length; lia.
  - destruct (nth_error bs b0) as [i|]; [|cbn; lia]. destruct (nth_error os i) as [o|]; [|cbn; lia].
    destruct (set_all lower body o). cbn. rewrite put_length. lia.
  - destruct (nth_error bs b0) as [i|]; [|cbn; lia]. destruct (nth_error os i) as [o|]; cbn; lia.
Qed.

Lemma exec_builders_length c x : length (cl_builders (client_exec lower c x)) =
  length (cl_builders c) + match x with NewBuilder => 1 | _ => 0 end.
Proof.
  destruct c as [os bs ps], x as [|i0 s| |b0 [i0|]|b0 body r|b0]; cbn; rewrite ?app_length, ?put_length; try (cbn; lia).
  - destruct (nth_error os i0) as [o|]; [|cbn; lia]. destruct (set_option lower s o); cbn; lia.
  - destruct (nth_error bs b0) as [i|]; [|cbn; lia]. destruct (nth_error os i) as [o|]; [|cbn; lia].
    destruct (set_all lower body o) as [? [?|]]; destruct r; cbn; rewrite ?put_length; lia.
  - destruct (nth_error bs b0) as [i|]; [|cbn; lia]. destruct (nth_error os i) as [o|]; cbn; lia.
Qed.

Lemma exec_builder_kept c x b i : (forall b i, nth_error (cl_builders c) b = Some i -> i < length (cl_objects c)) ->
  nth_error (cl_builders c) b = Some i -> (forall j, ~ repoints lower x b j) ->
  nth_error (cl_builders (client_exec lower c x)) b = Some i.
Proof.
  intros Hr Hb Hx. destruct c as [os bs ps], x as [|i0 s| |b0 [i0|]|b0 body r|b0]; cbn in *; try exact Hb.
  - destruct (nth_error os i0) as [o|]; [|exact Hb]. destruct (set_option lower s o); exact Hb.
  - rewrite nth_error_app1; [exact Hb|]. apply nth_error_Some. congruence.
  - rewrite put_other; [exact Hb|]. intros ->. apply (Hx i0). now left.
  - destruct (nth_error bs b0) as [i1|] eqn:E1; [|exact Hb]. destruct (nth_error os i1) as [o|] eqn:E2; [|exact Hb].
    destruct (set_all lower body o) as [o' [e|]] eqn:Es; [exact Hb|]. destruct r as [|j|]; try exact Hb. cbn.
    rewrite put_other; [exact Hb|]. intros ->. apply (Hx j). right. exists body. split; [reflexivity|]. apply (executed_all body o).
    now rewrite Es.
  - destruct (nth_error bs b0) as [i1|]; [|exact Hb]. destruct (nth_error os i1); exact Hb.
Qed.

Lemma exec_builder_repointed c x b i : (forall b i, nth_error (cl_builders c) b = Some i -> i < length (cl_objects c)) ->
  b < length (cl_builders c) -> repoints lower x b i ->
  nth_error (cl_builders (client_exec lower c x)) b = Some i.
Proof.
  intros Hr Hb [->|(body & -> & Hx)]; destruct c as [os bs ps]; cbn in *.
  - now apply put_same.
  - destruct (nth_error bs b) as [i1|] eqn:E1; [|apply nth_error_None in E1; lia].
    destruct (nth_error os i1) as [o|] eqn:E2; [|apply nth_error_None in E2; specialize (Hr _ _ E1); lia].
    apply (executed_all body o) in Hx. destruct (set_all lower body o) as [o' t]. cbn in Hx. subst t. cbn. now apply put_same.
Qed.

Lemma exec_object_kept c x i o : nth_error (cl_objects c) i = Some o ->
  (forall s, x <> Set_ i s) -> (forall b body r, x = Customize b body r -> nth_error (cl_builders c) b <> Some i) ->
  nth_error (cl_objects (client_exec lower c x)) i = Some o.
Proof.
  intros Hi H1 H2. assert (Hl : i < length (cl_objects c)) by (apply nth_error_Some; congruence).
  destruct c as [os bs ps], x as [|i0 s| |b0 [i0|]|b0 body r|b0]; cbn in *; try exact Hi; try (now rewrite nth_error_app1).
  - destruct (nth_error os i0) as [o0|]; [|exact Hi]. destruct (set_option lower s o0); [|exact Hi]. cbn.
    rewrite put_other; [exact Hi|]. intros ->. now apply (H1 s).
  - destruct (nth_error bs b0) as [i1|] eqn:E1; [|exact Hi]. destruct (nth_error os i1) as [o1|] eqn:E2; [|exact Hi].
    destruct (set_all lower body o1) as [o' t]. cbn. rewrite put_other; [exact Hi|]. intros ->. now apply (H2 b0 body r).
  - destruct (nth_error bs b0) as [i1|]; [|exact Hi]. destruct (nth_error os i1); exact Hi.
Qed.

Lemma exec_possible_made l x : objects_made (x :: l) = objects_made l + match x with NewOptions | NewBuilder => 1 | _ => 0 end /\
  builders_made (x :: l) = builders_made l + match x with NewBuilder => 1 | _ => 0 end.
Proof. destruct x; cbn; lia. Qed.

Lemma sound_all l : all_possible l -> sound l.
Proof.
  induction l as [|x l IH]; intro Hp.
  - split; [reflexivity|]. split; [reflexivity|].
    split; [intros b i H; inversion H|]. split; [cbn; lia|]. split; [intros i t H; inversion H|cbn; lia].
  - inversion Hp as [|? ? Hpl Hx]; subst. destruct (IH Hpl) as (Ho & Hb & Hr & Hr' & Hv & Hv'). clear IH.
    destruct (exec_possible_made l x) as [Eo Eb].
    assert (Hin : forall b i, nth_error (cl_builders (after l)) b = Some i -> i < length (cl_objects (after l))).
    { intros b i E. destruct (Hr' b) as [j Hj]; [rewrite <- Hb; apply nth_error_Some; congruence|].
      destruct (Hr b j Hj) as [E' Hlt]. rewrite E in E'. injection E' as <-. now rewrite Ho. }
    split; [|split; [|split; [|split; [|split]]]].
    + rewrite after_cons, exec_objects_length, Eo, Ho. reflexivity.
    + rewrite after_cons, exec_builders_length, Eb, Hb. reflexivity.
    + intros b i H. rewrite after_cons. inversion H as [l'|l' x' b' i' Hlt Hre|l' x' b' i' Hre Hno]; subst.
      * rewrite <- Hb, <- Ho. destruct (after l) as [os bs ps]. cbn. split.
        { rewrite nth_error_app2 by lia. now rewrite Nat.sub_diag. }
        cbn in Ho. lia.
      * split; [apply exec_builder_repointed; auto; lia|]. rewrite Eo. destruct Hre as [->|(body & -> & _)]; cbn in Hx; destruct Hx as [_ Hx];
          specialize (Hx i eq_refl); lia.
      * destruct (Hr b i Hre) as [E Hlt]. split; [now apply exec_builder_kept|]. lia.
    + intros b Hlt. rewrite Eb in Hlt. destruct (Nat.lt_ge_cases b (builders_made l)) as [Hlt'|Hge].
      * destruct (repoints_dec x b) as [[j Hj]|Hno].
        { exists j. now apply refers_repointed. }
        destruct (Hr' b Hlt') as [i Hi]. exists i. now apply refers_kept.
      * destruct x; try lia. assert (b = builders_made l) by lia. subst b. exists (objects_made l). apply refers_new.
    + intros i t H. rewrite after_cons.
      inversion H as [l'|l'|l' i' t' s Hre Hok|l' i' t' s Hre Hok|l' b body r i' t' done Hre Href Hex|l' x' i' t' Hre H1 H2]; subst.
      * rewrite <- Ho. destruct (after l) as [os bs ps]. cbn. exists default_options. split; [|apply holds_default].
        rewrite nth_error_app2 by lia. now rewrite Nat.sub_diag.
      * rewrite <- Ho. destruct (after l) as [os bs ps]. cbn. exists default_options. split; [|apply holds_default].
        rewrite nth_error_app2 by lia. now rewrite Nat.sub_diag.
      * destruct (Hv i t' Hre) as (o & E & H1). destruct (proj2 (set_option_ok s o) Hok) as [o' E'].
        exists o'. split; [|eapply holds_set; eauto].
        assert (Hlt : i < length (cl_objects (after l))) by (apply nth_error_Some; congruence).
        destruct (after l) as [os bs ps]. cbn in *. rewrite E, E'. now apply put_same.
      * destruct (Hv i t Hre) as (o & E & H1). exists o. split; [|exact H1].
        destruct (proj1 (C49_rejected s o) Hok) as [e E']. destruct (after l) as [os bs ps]. cbn in *. now rewrite E, E'.
      * destruct (Hv i t' Hre) as (o & E & H1). destruct (set_all_spec body o t' H1 done Hex) as (o' & E' & H2 & _).
        exists o'. split; [|exact H2]. destruct (Hr b i Href) as [E2 Hlt].
        destruct (after l) as [os bs ps]. cbn in *. rewrite E2, E, E'. cbn. apply put_same. lia.
      * destruct (Hv i t Hre) as (o & E & H3). exists o. split; [|exact H3]. apply exec_object_kept; auto.
        intros b body r -> E'. cbn in Hx. destruct Hx as [Hbx _]. destruct (Hr' b Hbx) as [j Hj].
        destruct (Hr b j Hj) as [E2 _]. rewrite E' in E2. injection E2 as <-. now apply (H2 b body r).
    + intros i Hlt. rewrite Eo in Hlt. destruct (Nat.lt_ge_cases i (objects_made l)) as [Hlt'|Hge].
      * destruct (Hv' i Hlt') as [t Ht].
        destruct x as [|i0 s| |b0 i0|b0 body r|b0];
          try solve [exists t; apply receives_kept; [exact Ht|intros s0 E0; discriminate|intros ? ? ? E0; discriminate]].
        { destruct (Nat.eq_dec i0 i) as [->|Hne].
          - destruct (rejected_dec s) as [Hs|Hs]; [exists t; now apply receives_rejected|exists (t ++ [s]); now apply receives_set].
          - exists t. apply receives_kept; [exact Ht| |intros; discriminate]. intros s0 E0. congruence. }
        { cbn in Hx. destruct Hx as [Hbx _]. destruct (Hr' b0 Hbx) as [j Hj]. destruct (Nat.eq_dec j i) as [->|Hne].
          - destruct (executed_exists body) as [done Hd]. exists (t ++ done). eapply receives_customize; eauto.
          - exists t. apply receives_kept; [exact Ht|intros; discriminate|]. intros b body' r' E0 Hb'. injection E0 as <- <- <-.
            destruct (Hr b0 j Hj) as [E1 _]. destruct (Hr b0 i Hb') as [E2 _]. congruence. }
      * destruct x; try lia; assert (i = objects_made l) by lia; subst i; exists []; [apply receives_options|apply receives_builder].
Qed.

(** C49 for the objects of a client. *)
Lemma C49_objects_lemma calls i : all_possible (rev calls) -> i < objects_made (rev calls) ->
  exists t o, receives lower (rev calls) i t /\ nth_error (cl_objects (client_run lower calls)) i = Some o /\ holds lower t o.
Proof.
  intros Hp Hi. destruct (sound_all (rev calls) Hp) as (_ & _ & _ & _ & Hv & Hv'). destruct (Hv' i Hi) as [t Ht].
  destruct (Hv i t Ht) as (o & E & H). unfold after in E. rewrite rev_involutive in E. eauto.
Qed.

Lemma C49_holds_det l o1 o2 : holds lower l o1 -> holds lower l o2 -> o1 = o2.
Proof.
  assert (D : forall A (gives : setter -> A -> Prop) init v1 v2, (forall s a b, gives s a -> gives s b -> a = b) ->
    last_given gives init l v1 -> last_given gives init l v2 -> v1 = v2).
  { intros A gives init v1 v2 Hdet H1 H2.
    assert (K : forall (b1 : list setter) s1 a1 b2 s2 a2, b1 ++ s1 :: a1 = b2 ++ s2 :: a2 -> s1 = s2 \/ In s1 a2 \/ In s2 a1).
    { clear. induction b1 as [|x b1 IH]; intros s1 a1 [|y b2] s2 a2 E; cbn in E; injection E as Ex E.
      - now left.
      - right. right. subst. apply in_or_app. right. now left.
      - right. left. subst. apply in_or_app. right. now left.
      - exact (IH _ _ _ _ _ E). }
    destruct H1 as [(b1 & s1 & a1 & E1 & G1 & N1)|[-> N1]], H2 as [(b2 & s2 & a2 & E2 & G2 & N2)|[-> N2]].
    - destruct (K b1 s1 a1 b2 s2 a2) as [<-|[Hin|Hin]]; [congruence| | |].
      + eauto.
      + now destruct (N2 s1 v1 Hin).
      + now destruct (N1 s2 v2 Hin).
    - destruct (N2 s1 v1); [|exact G1]. rewrite E1. apply in_or_app. right. now left.
    - destruct (N1 s2 v2); [|exact G2]. rewrite E2. apply in_or_app. right. now left.
    - reflexivity. }
  intros (A1 & A2 & A3 & A4 & A5 & A6 & A7 & A8 & A9) (B1 & B2 & B3 & B4 & B5 & B6 & B7 & B8 & B9).
  destruct o1, o2; cbn in *. f_equal; (eapply D; [|eassumption|eassumption]);
    unfold gives_limit, gives_format, gives_emojis, gives_compact, gives_depth, gives_order, gives_dir_filter,
      gives_file_filter, gives_extension; intros s a b Ha Hb;
    repeat match goal with H : _ \/ _ |- _ => destruct H | H : _ /\ _ |- _ => destruct H | H : exists _, _ |- _ => destruct H end;
    subst; try congruence; match goal with H : _ _ = _ _ |- _ => injection H as -> end; reflexivity.
Qed.

(** ** C74: what a printer reads *)

Lemma render_options_used o o' lr : o_compact o = o_compact o' -> o_line_extension o = o_line_extension o' ->
  forall e d cp w h, render_entry o lr e d cp w h = render_entry o' lr e d cp w h.
Proof.
  intros Hc Hx.
  assert (X : forall p, compute_line_extension o p = compute_line_extension o' p) by (intro p; unfold compute_line_extension; now rewrite Hx).
  induction e as [dir es IH|f k|p|z] using RenderFacts.entry_ind'; intros d cp w h; try reflexivity.
  - assert (C : forall w h, render_children (fun c cd => render_entry o lr c cd (initial_compact_paths c)) d es w h =
                render_children (fun c cd => render_entry o' lr c cd (initial_compact_paths c)) d es w h).
    { clear -IH. induction es as [|c l IHl]; intros w h; [reflexivity|]. specialize (IHl (Forall_inv_tail IH)). apply Forall_inv in IH.
      destruct l as [|c' l]; [apply IH|].
      cbn [render_children]. apply bind_ext; [apply IH|]. intros s h'. apply bind_ext; [|reflexivity]. apply IHl. }
    assert (F : forall evaluated w h,
      (line <- render_directory_begin lr d dir cp;
       ext <- match evaluated with Some x => ret x | None => compute_line_extension o dir end;
       let line := line ++ or_empty ext in
       let line := match es with [] => line | _ => line ++ [c_nl] end in
       children <- render_children (fun c cd => render_entry o lr c cd (initial_compact_paths c)) d es;
       ret (line ++ children)) w h =
      (line <- render_directory_begin lr d dir cp;
       ext <- match evaluated with Some x => ret x | None => compute_line_extension o' dir end;
       let line := line ++ or_empty ext in
       let line := match es with [] => line | _ => line ++ [c_nl] end in
       children <- render_children (fun c cd => render_entry o' lr c cd (initial_compact_paths c)) d es;
       ret (line ++ children)) w h).
    { clear -C X. intros ev w h. apply bind_ext; [reflexivity|]. intros line h1. rewrite X. apply bind_ext; [reflexivity|].
      intros x h2. cbv zeta. apply bind_ext; [apply C|]. reflexivity. }
    cbn [render_entry]. destruct es as [|[cd ces|f k|p|z] [|e2 l]]; try (apply (F None)).
    rewrite <- Hc. destruct (o_compact o && negb (depth_is_root d)); [|apply (F None)].
    rewrite <- X. apply bind_ext; [reflexivity|]. intros [x|] h1.
    + apply (F (Some (Some x))).
    + apply (Forall_inv IH).
  - cbn [render_entry]. unfold render_file. apply bind_ext; [reflexivity|]. intros line h1. now rewrite X.
Qed.

Lemma pretty_print_split o tf e p w h :
  pretty_print_with o (mkLineRenderer tf e) p w h = pretty_print (with_tree_format tf (with_emojis e o)) p w h.
Proof.
  unfold pretty_print, pretty_print_with. apply bind_ext; [reflexivity|]. intros j h1.
  apply bind_ext; [apply scan_ext; reflexivity|]. intros t h2. unfold render_tree. apply render_options_used; reflexivity.
Qed.

Lemma exec_printer_kept c x k v : nth_error (cl_printers c) k = Some v -> nth_error (cl_printers (client_exec lower c x)) k = Some v.
Proof.
  intro H. destruct c as [os bs ps], x as [|i0 s| |b0 [i0|]|b0 body r|b0]; cbn in *; try exact H.
  - destruct (nth_error os i0) as [o|]; [|exact H]. destruct (set_option lower s o); exact H.
  - destruct (nth_error bs b0) as [i|]; [|exact H]. destruct (nth_error os i) as [o|]; [|exact H].
    destruct (set_all lower body o). exact H.
  - destruct (nth_error bs b0) as [i|]; [|exact H]. destruct (nth_error os i) as [o|]; [|exact H]. cbn.
    rewrite nth_error_app1; [exact H|]. apply nth_error_Some. congruence.
Qed.

Lemma run_printer_kept later k v : forall c, nth_error (cl_printers c) k = Some v ->
  nth_error (cl_printers (fold_left (client_exec lower) later c)) k = Some v.
Proof. induction later as [|x l IH]; intros c H; [exact H|]. apply IH. now apply exec_printer_kept. Qed.

Lemma run_objects_length later : forall c, length (cl_objects c) <= length (cl_objects (fold_left (client_exec lower) later c)).
Proof. induction later as [|x l IH]; intro c; [cbn; lia|]. cbn. specialize (IH (client_exec lower c x)). rewrite exec_objects_length in IH. lia. Qed.

Lemma all_possible_app l1 l2 : all_possible (l1 ++ l2) -> all_possible l2.
Proof. induction l1 as [|x l1 IH]; [auto|]. intro H. inversion H; auto. Qed.

(** The number of printers built so far. *)
Lemma printers_length l : all_possible l -> length (cl_printers (after l)) = printers_made l.
Proof.
  induction l as [|x l IH]; intro Hp; [reflexivity|]. inversion Hp as [|? ? Hpl Hx]; subst. specialize (IH Hpl). rewrite after_cons.
  destruct (sound_all l Hpl) as (Ho & Hb & Hr & Hr' & _). destruct (after l) as [os bs ps].
  destruct x as [|i0 s| |b0 [i0|]|b0 body r|b0]; cbn in *; try exact IH.
  - destruct (nth_error os i0) as [o|]; [|exact IH]. destruct (set_option lower s o); exact IH.
  - destruct (nth_error bs b0) as [i|]; [|exact IH]. destruct (nth_error os i) as [o|]; [|exact IH].
    destruct (set_all lower body o). exact IH.
  - destruct (Hr' b0 Hx) as [i Hi]. destruct (Hr b0 i Hi) as [E Hlt]. rewrite E.
    destruct (nth_error os i) as [o|] eqn:Eo; [|apply nth_error_None in Eo; lia]. cbn. rewrite app_length. cbn. lia.
Qed.

Lemma C74_lemma calls b later : all_possible (rev (calls ++ Build b :: later)) ->
  exists i t1 t2 o1 o2,
    refers lower (rev calls) b i /\ receives lower (rev calls) i t1 /\ holds lower t1 o1 /\
    receives lower (rev (calls ++ Build b :: later)) i t2 /\ holds lower t2 o2 /\
    forall p w h, client_print (client_run lower (calls ++ Build b :: later)) (printers_made (rev calls)) p w h =
      pretty_print (with_tree_format (o_tree_format o1) (with_emojis (o_emoji o1) o2)) p w h.
Proof.
  intro Hp. pose proof Hp as Hall. rewrite rev_app_distr in Hp. cbn [rev] in Hp. rewrite <- app_assoc in Hp. apply all_possible_app in Hp.
  cbn in Hp. inversion Hp as [|? ? Hc Hb]; subst. cbn in Hb.
  destruct (sound_all _ Hc) as (Ho & _ & Hr & Hr' & Hv & Hv'). destruct (Hr' b Hb) as [i Hi]. destruct (Hr b i Hi) as [Eb Hlt].
  destruct (Hv' i Hlt) as [t1 Ht1]. destruct (Hv i t1 Ht1) as (o1 & Eo & H1).
  destruct (sound_all _ Hall) as (Ho2 & _ & _ & _ & Hv2 & Hv2').
  assert (Hlt2 : i < objects_made (rev (calls ++ Build b :: later))).
  { rewrite rev_app_distr. cbn [rev]. rewrite <- app_assoc. cbn.
    assert (M : forall l1 l2, objects_made l2 <= objects_made (l1 ++ l2)).
    { induction l1 as [|x l1 IH]; intro l2; [cbn; lia|]. specialize (IH l2). cbn. destruct x; lia. }
    specialize (M (rev later) (Build b :: rev calls)). cbn in M. lia. }
  destruct (Hv2' i Hlt2) as [t2 Ht2]. destruct (Hv2 i t2 Ht2) as (o2 & Eo2 & H2).
  exists i, t1, t2, o1, o2. split; [exact Hi|]. split; [exact Ht1|]. split; [exact H1|]. split; [exact Ht2|]. split; [exact H2|].
  intros p w h. pose proof (printers_length _ Hc) as Hk. unfold after in *. rewrite rev_involutive in *. unfold client_print.
  rewrite <- Hk.
  assert (E : nth_error (cl_printers (client_run lower (calls ++ Build b :: later))) (length (cl_printers (client_run lower calls))) =
              Some (i, line_renderer_create o1)).
  { unfold client_run in *. rewrite fold_left_app. cbn [fold_left]. apply run_printer_kept.
    destruct (fold_left (client_exec lower) calls client_start) as [os bs ps]. cbn in *. rewrite Eb, Eo. cbn.
    rewrite nth_error_app2 by lia. now rewrite Nat.sub_diag. }
  rewrite E, Eo2. apply pretty_print_split.
Qed.

End Lower.
