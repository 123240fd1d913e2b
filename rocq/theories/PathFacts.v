(** * Proofs about path normalisation *)

From Verif Require Import SpecPath SortFacts.
Open Scope list_scope.

Lemma jeqb_refl a : jeqb a a = true.
Proof. now apply jeqb_eq. Qed.

Lemma jeqb_spec a b : reflect (a = b) (jeqb a b).
Proof. destruct (jeqb a b) eqn:E; constructor; [now apply jeqb_eq|]. intro H. apply jeqb_eq in H. congruence. Qed.

Lemma names_eqb_eq a b : names_eqb a b = true <-> a = b.
Proof.
  revert b. induction a as [|x a IH]; intros [|y b]; simpl; split; intro H; try discriminate; auto.
  - apply andb_prop in H. destruct H as [H1 H2]. apply jeqb_eq in H1. apply IH in H2. congruence.
  - injection H as -> ->. rewrite jeqb_refl. simpl. now apply IH.
Qed.

Lemma path_eqb_eq a b : path_eqb a b = true <-> a = b.
Proof.
  destruct a as [aa an], b as [ba bn]. unfold path_eqb. simpl. split; intro H.
  - apply andb_prop in H. destruct H as [H1 H2]. apply Bool.eqb_prop in H1. apply names_eqb_eq in H2. congruence.
  - injection H as -> ->. rewrite Bool.eqb_reflx. simpl. now apply names_eqb_eq.
Qed.

Lemma dot_not_dotdot : n_dot <> n_dotdot.
Proof. discriminate. Qed.

(** The stack of [norm_names]. *)
Definition nstack (abs : bool) (l : list jstring) : list jstring := fold_left (norm_step abs) l [].

Lemma norm_names_stack abs l : norm_names abs l = rev (nstack abs l).
Proof. reflexivity. Qed.

Lemma nstack_app abs l1 l2 : nstack abs (l1 ++ l2) = fold_left (norm_step abs) l2 (nstack abs l1).
Proof. apply fold_left_app. Qed.

(** Names that are neither "." nor "..". *)
Definition plain (n : jstring) : Prop := n <> n_dot /\ n <> n_dotdot.

Lemma norm_step_plain abs st n : plain n -> norm_step abs st n = n :: st.
Proof.
  intros [H1 H2]. unfold norm_step. destruct (jeqb_spec n n_dot); [contradiction|].
  destruct (jeqb_spec n n_dotdot); [contradiction|reflexivity].
Qed.

Lemma norm_step_dot abs st : norm_step abs st n_dot = st.
Proof. reflexivity. Qed.

Lemma norm_step_up_abs st n : plain n -> norm_step true (n :: st) n_dotdot = st.
Proof.
  intros [_ H]. unfold norm_step. cbn [jeqb]. change (jeqb n_dotdot n_dot) with false. rewrite jeqb_refl.
  destruct (jeqb_spec n n_dotdot); [contradiction|reflexivity].
Qed.

Lemma norm_step_up abs st n : plain n -> norm_step abs (n :: st) n_dotdot = st.
Proof.
  intros [_ H]. unfold norm_step. change (jeqb n_dotdot n_dot) with false. rewrite jeqb_refl.
  destruct (jeqb_spec n n_dotdot); [contradiction|reflexivity].
Qed.

Lemma nstack_abs_plain l : Forall plain (nstack true l).
Proof.
  unfold nstack. assert (H : Forall plain (@nil jstring)) by constructor. revert H.
  generalize (@nil jstring) as st. induction l as [|n l IH]; intros st H; [exact H|].
  cbn [fold_left]. apply IH. unfold norm_step.
  destruct (jeqb_spec n n_dot); [exact H|]. destruct (jeqb_spec n n_dotdot).
  - destruct st as [|t st]; [constructor|]. inversion H as [|? ? [Ht1 Ht2] Hst]; subst.
    destruct (jeqb_spec t n_dotdot); [contradiction|exact Hst].
  - constructor; [split; assumption|exact H].
Qed.

Lemma fold_plain abs l : Forall plain l -> forall st, fold_left (norm_step abs) l st = rev l ++ st.
Proof.
  induction 1 as [|n l Hn Hl IH]; intro st; [reflexivity|].
  cbn [fold_left rev]. rewrite norm_step_plain by exact Hn. rewrite IH, <- app_assoc. reflexivity.
Qed.

Lemma norm_names_plain abs l : Forall plain l -> norm_names abs l = l.
Proof.
  intro H. rewrite norm_names_stack. unfold nstack. rewrite fold_plain by exact H.
  now rewrite app_nil_r, rev_involutive.
Qed.

Lemma norm_names_abs_plain l : Forall plain (norm_names true l).
Proof. rewrite norm_names_stack. apply Forall_rev. apply nstack_abs_plain. Qed.

Lemma norm_names_idem l : norm_names true (norm_names true l) = norm_names true l.
Proof. apply norm_names_plain, norm_names_abs_plain. Qed.

(** The location of a path. *)
Definition loc (cwd : list jstring) (p : path) : list jstring := norm_names true (p_names (to_absolute cwd p)).

Lemma normalize_to_absolute cwd p : normalize (to_absolute cwd p) = mkPath true (loc cwd p).
Proof. unfold normalize, loc, to_absolute. destruct p as [[] l]; reflexivity. Qed.

(** The scanner's own cleaning changes nothing. *)
Lemma clean_of_clean cwd p :
  to_absolute cwd (normalize (normalize (to_absolute cwd p))) = normalize (to_absolute cwd p).
Proof.
  rewrite normalize_to_absolute. unfold normalize, to_absolute. cbn [p_abs p_names].
  unfold loc. now rewrite norm_names_idem.
Qed.

(** ** Soundness and completeness of the spelling rules *)

Lemma nstack_dot l1 l2 : nstack true (l1 ++ n_dot :: l2) = nstack true (l1 ++ l2).
Proof. rewrite !nstack_app. reflexivity. Qed.

Lemma nstack_up l1 n l2 : plain n -> nstack true (l1 ++ n :: n_dotdot :: l2) = nstack true (l1 ++ l2).
Proof.
  intro Hn. rewrite !nstack_app. cbn [fold_left]. now rewrite (norm_step_plain true _ n Hn), (norm_step_up true _ n Hn).
Qed.

Lemma same_location_loc cwd p q : same_location cwd p q -> loc cwd p = loc cwd q.
Proof.
  induction 1 as [p|p q H IH|p q r H1 IH1 H2 IH2|abs l1 l2|abs l1 n l2 Hn1 Hn2|l|l]; auto; try congruence.
  - unfold loc, to_absolute. destruct abs; cbn [p_abs p_names]; rewrite !norm_names_stack; f_equal.
    + apply nstack_dot.
    + rewrite !app_assoc. apply nstack_dot.
  - unfold loc, to_absolute. destruct abs; cbn [p_abs p_names]; rewrite !norm_names_stack; f_equal.
    + apply nstack_up. split; assumption.
    + rewrite !app_assoc. apply nstack_up. split; assumption.
Qed.

Lemma same_location_norm cwd l : forall pre, Forall plain pre ->
  same_location cwd (mkPath true (pre ++ l)) (mkPath true (norm_names true (pre ++ l))).
Proof.
  induction l as [|n l IH]; intros pre Hpre.
  - rewrite app_nil_r, norm_names_plain by exact Hpre. apply same_refl.
  - destruct (jeqb_spec n n_dot) as [->|Hd].
    { eapply same_trans; [apply same_dot|]. rewrite norm_names_stack, nstack_dot, <- norm_names_stack. now apply IH. }
    destruct (jeqb_spec n n_dotdot) as [->|Hdd].
    + destruct pre as [|x pre] using rev_ind.
      * cbn [app]. eapply same_trans; [apply same_top|].
        replace (norm_names true (n_dotdot :: l)) with (norm_names true l) by reflexivity. apply (IH []). constructor.
      * clear IHpre. apply Forall_app in Hpre. destruct Hpre as [Hpre Hx]. inversion Hx as [|? ? Hx' _]; subst.
        rewrite <- !app_assoc. cbn [app]. eapply same_trans; [apply same_up; apply Hx'|].
        rewrite norm_names_stack, nstack_up, <- norm_names_stack by exact Hx'. now apply IH.
    + change (n :: l) with ([n] ++ l). rewrite app_assoc. apply IH. apply Forall_app. split; [exact Hpre|].
      constructor; [split; assumption|constructor].
Qed.

Lemma same_location_complete cwd p q : loc cwd p = loc cwd q -> same_location cwd p q.
Proof.
  assert (H : forall p, same_location cwd p (mkPath true (loc cwd p))).
  { intros [[] l].
    - apply (same_location_norm cwd l []). constructor.
    - eapply same_trans; [apply same_cwd|]. apply (same_location_norm cwd (cwd ++ l) []). constructor. }
  intro E. eapply same_trans; [apply H|]. rewrite E. apply same_sym, H.
Qed.

(** ** Parsing of strings *)

Lemma split_on_cons_sep c s t : split_on c (c :: s ++ t) = [] :: split_on c (s ++ t).
Proof. simpl. now rewrite N.eqb_refl. Qed.

Lemma parse_names_dot_slash s : parse_names (js "." ++ [c_slash] ++ s) = n_dot :: parse_names s.
Proof. reflexivity. Qed.

Lemma parse_good s : Forall good_name (parse_names s).
Proof.
  unfold parse_names. apply Forall_forall. intros w Hw. apply filter_In in Hw. destruct Hw as [Hin Hne].
  split.
  - intros ->. discriminate.
  - clear Hne. revert w Hin. induction s as [|x s IH]; intros w Hin.
    + destruct Hin as [<-|[]]. intros [].
    + simpl in Hin. destruct (N.eqb_spec x c_slash) as [->|Hx].
      * destruct Hin as [<-|Hin]; [intros []|]. now apply IH.
      * destruct (split_on c_slash s) as [|w' ws].
        -- destruct Hin as [<-|[]]. intros [->|[]]; contradiction.
        -- destruct Hin as [<-|Hin].
           ++ intros [E|Hin]; [now apply Hx|]. revert Hin. apply IH. now left.
           ++ apply IH. now right.
Qed.

(** ** Relativisation *)

Lemma relativize_names_under base l : relativize_names base (base ++ l) = l.
Proof. induction base as [|b base IH]; simpl; [destruct l; reflexivity|]. now rewrite jeqb_refl. Qed.

Lemma relativize_names_spec common b c :
  (match b, c with x :: _, y :: _ => x <> y | _, _ => True end) ->
  relativize_names (common ++ b) (common ++ c) = map (fun _ => n_dotdot) b ++ c.
Proof.
  intro H. induction common as [|x common IH]; simpl; [|now rewrite jeqb_refl].
  destruct b as [|x b], c as [|y c]; simpl; auto. destruct (jeqb_spec x y); [contradiction|reflexivity].
Qed.

Lemma common_prefix (a b : list jstring) :
  exists common x y, a = common ++ x /\ b = common ++ y /\ match x, y with u :: _, v :: _ => u <> v | _, _ => True end.
Proof.
  revert b. induction a as [|u a IH]; intro b.
  - exists [], [], b. auto.
  - destruct b as [|v b]; [exists [], (u :: a), []; auto|].
    destruct (jeqb_spec u v) as [->|Hn].
    + destruct (IH b) as (c & x & y & -> & -> & H). exists (v :: c), x, y. auto.
    + exists [], (u :: a), (v :: b). auto.
Qed.

(** ** Name elements *)

Lemma forall_plain_app a b : Forall plain (a ++ b) <-> Forall plain a /\ Forall plain b.
Proof. apply Forall_app. Qed.
