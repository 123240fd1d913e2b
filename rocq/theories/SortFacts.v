(** * Proofs about sorting and comparators *)

From Verif Require Export TimFacts.
From Verif Require Import SpecScan.
Open Scope Z_scope.

(** ** The result of a sorting algorithm, for given answers *)

Fixpoint eval (g : ordering) (s : sorting) : option (list path) :=
  match s with Sorted l => Some l | Violation => None | Exhausted => None | Compare a b k => eval g (k (g a b)) end.

(** Does the sort fail for these answers, and what is its result otherwise? *)
Definition sort_fails (g : ordering) (l : list path) : bool := match eval g (tim_sort l) with Some _ => false | None => true end.
Definition psort (g : ordering) (l : list path) : list path := match eval g (tim_sort l) with Some l' => l' | None => l end.

(** All results a sorting algorithm can have. *)
Fixpoint outcomes (P : list path -> Prop) (s : sorting) : Prop :=
  match s with Sorted l => P l | Violation => True | Exhausted => False | Compare _ _ k => forall z, outcomes P (k z) end.

Lemma holds_outcomes from P s : holds (fun _ _ _ => True) from True P s -> outcomes P s.
Proof. induction s as [l| | |a b k IH]; cbn; auto. intros (_ & _ & H) z. apply IH, H, I. Qed.

Lemma tim_sort_holds l : holds (fun _ _ _ => True) l True (Permutation l) (tim_sort l).
Proof. apply tim_sort_ok with (H := False) (g := fun _ _ => 0); [intros []|now left|apply incl_refl|auto]. Qed.

Lemma tim_sort_outcomes l : outcomes (Permutation l) (tim_sort l).
Proof. eapply holds_outcomes, tim_sort_holds. Qed.

Lemma eval_holds g from P s : holds (fun a b z => z = g a b) from False P s -> exists l, eval g s = Some l /\ P l.
Proof. induction s as [l| | |a b k IH]; cbn; intro H; [eauto|contradiction|contradiction|]. destruct H as (_ & _ & H). apply IH, H. reflexivity. Qed.

Lemma eval_outcomes P g s l : outcomes P s -> eval g s = Some l -> P l.
Proof. induction s as [l0| | |a b k IH]; cbn; intros H E; try congruence. eapply IH; eauto. Qed.

Lemma sort_fine g l : contract g \/ (length l < 32)%nat -> sort_fails g l = false.
Proof.
  intro H. unfold sort_fails. destruct (eval_holds g l (fun _ => True) (tim_sort l)) as (l' & -> & _); [|reflexivity].
  apply tim_sort_ok with (H := contract g) (g := g); [auto|tauto|apply incl_refl|auto].
Qed.

Lemma tim_sort_perm g l : Permutation l (psort g l).
Proof.
  unfold psort. destruct (eval g (tim_sort l)) as [l'|] eqn:E; [|reflexivity]. exact (eval_outcomes _ _ _ _ (tim_sort_outcomes l) E).
Qed.

Lemma tim_sort_sorted c l : contract c -> StronglySorted (le_c c) (psort c l).
Proof.
  intro H. unfold psort. destruct (eval_holds c l (StronglySorted (le_c c)) (tim_sort l)) as (l' & -> & HS); [|exact HS].
  apply tim_sort_ok with (H := contract c) (g := c); [auto|tauto|apply incl_refl|auto].
Qed.

Lemma tim_sort_in_order c l : in_order c l (psort c l).
Proof. split; [apply tim_sort_perm|]. intro. now apply tim_sort_sorted. Qed.

Lemma filter_length_le A (f : A -> bool) l : (length (filter f l) <= length l)%nat.
Proof. induction l as [|x l IH]; cbn; [lia|]. destruct (f x); cbn; lia. Qed.

(** ** Uniqueness of the sorted list when there are no ties *)

Lemma StronglySorted_strict (c : ordering) l :
  StronglySorted (fun a b => c a b <= 0) l ->
  (forall a b, In a l -> In b l -> c a b = 0 -> a = b) -> NoDup l ->
  StronglySorted (fun a b => c a b < 0) l.
Proof.
  induction 1 as [|x l Hl IH Hx]; intros Hinj Hnd; constructor.
  - inversion Hnd; subst. apply IH; auto. intros; apply Hinj; auto; now right.
  - inversion Hnd as [|? ? Hni _]; subst. apply Forall_forall. intros y Hy.
    rewrite Forall_forall in Hx. specialize (Hx y Hy).
    destruct (Z.eq_dec (c x y) 0) as [E|E]; [|lia].
    apply Hinj in E; [subst; contradiction|now left|now right].
Qed.

Lemma strict_sorted_unique (c : ordering) l1 l2 :
  (forall a b, c a b < 0 -> c b a < 0 -> False) ->
  StronglySorted (fun a b => c a b < 0) l1 -> StronglySorted (fun a b => c a b < 0) l2 ->
  Permutation l1 l2 -> l1 = l2.
Proof.
  intros Hanti H1. revert l2. induction H1 as [|x l1 Hl1 IH Hx]; intros l2 H2 HP.
  - now apply Permutation_nil in HP.
  - destruct H2 as [|y l2 Hl2 Hy]; [symmetry in HP; apply Permutation_nil in HP; discriminate|].
    assert (x = y) as ->.
    { assert (Hin1 : In y (x :: l1)) by (eapply Permutation_in; [symmetry; exact HP|now left]).
      assert (Hin2 : In x (y :: l2)) by (eapply Permutation_in; [exact HP|now left]).
      destruct Hin1 as [->|Hin1]; [reflexivity|]. destruct Hin2 as [->|Hin2]; [reflexivity|].
      rewrite Forall_forall in Hx, Hy. exfalso. eapply Hanti; eauto. }
    f_equal. apply IH; auto. now apply Permutation_cons_inv in HP.
Qed.

(** ** String comparison *)

Lemma jeqb_eq a b : jeqb a b = true <-> a = b.
Proof.
  revert b. induction a as [|x a IH]; intros [|y b]; simpl; split; intro H; try discriminate; auto.
  - apply andb_prop in H. destruct H as [H1 H2]. apply N.eqb_eq in H1. apply IH in H2. congruence.
  - injection H as -> ->. rewrite N.eqb_refl. simpl. now apply IH.
Qed.

Lemma jcompare_eq a b : jcompare a b = 0 <-> a = b.
Proof.
  revert b. induction a as [|x a IH]; intros [|y b]; simpl; split; intro H; try lia; try discriminate; auto.
  - destruct (N.eqb_spec x y) as [->|Hn]; [f_equal; now apply IH|lia].
  - injection H as -> ->. rewrite N.eqb_refl. now apply IH.
Qed.

Lemma jcompare_anti a b : jcompare b a = - jcompare a b.
Proof.
  revert b. induction a as [|x a IH]; intros [|y b]; simpl; try lia.
  rewrite (N.eqb_sym y x). destruct (N.eqb_spec x y) as [->|Hn]; [apply IH|lia].
Qed.

Lemma jcompare_trans a b c : jcompare a b <= 0 -> jcompare b c <= 0 -> jcompare a c <= 0.
Proof.
  revert b c. induction a as [|x a IH]; intros [|y b] [|z c]; simpl; try lia.
  destruct (N.eqb_spec x y) as [->|Hxy]; destruct (N.eqb_spec y z) as [->|Hyz].
  - eauto.
  - intros; destruct (N.eqb_spec y z); [contradiction|lia].
  - intros; destruct (N.eqb_spec x z); [contradiction|lia].
  - intros; destruct (N.eqb_spec x z) as [->|]; lia.
Qed.

(** ** The contract for key-based comparators *)

(** Anti-symmetric and transitive in the weak order gives the contract. *)
Lemma contract_intro (c : ordering) :
  (forall x y, Z.sgn (c x y) = - Z.sgn (c y x)) ->
  (forall x y z, c x y <= 0 -> c y z <= 0 -> c x z <= 0) -> contract c.
Proof.
  intros Ha Ht. split; [exact Ha|]. split.
  - intros x y z Hxy Hyz. destruct (Z_gt_le_dec (c x z) 0) as [|Hle]; [assumption|exfalso].
    pose proof (Ha x y). pose proof (Ha y z).
    assert (c y z <= 0).
    { apply Ht with (y := x); [lia|exact Hle]. }
    lia.
  - intros x y z E. pose proof (Ha x y). pose proof (Ha x z). pose proof (Ha y z).
    pose proof (Ht x y z). pose proof (Ht y x z). pose proof (Ht z x y). pose proof (Ht z y x). lia.
Qed.

Lemma contract_elim (c : ordering) : contract c ->
  (forall x y, Z.sgn (c x y) = - Z.sgn (c y x)) /\
  (forall x y z, c x y <= 0 -> c y z <= 0 -> c x z <= 0).
Proof.
  intro H. split; [apply H|]. intros x y z. apply (contract_trans c H).
Qed.

(** ** Orders: by name, one after the other, reversed *)

Definition alphabetical : ordering := fun a b => jcompare (alpha_key a) (alpha_key b).
Definition then_by (c1 c2 : ordering) : ordering := fun a b => if (c1 a b =? 0) then c2 a b else c1 a b.
Definition flipped (c : ordering) : ordering := fun a b => c b a.

Lemma contract_alphabetical : contract alphabetical.
Proof.
  apply contract_intro; unfold alphabetical.
  - intros x y. rewrite (jcompare_anti (alpha_key y) (alpha_key x)). lia.
  - intros x y z. apply jcompare_trans.
Qed.

Lemma contract_then c1 c2 : contract c1 -> contract c2 -> contract (then_by c1 c2).
Proof.
  intros H1 H2. destruct (contract_elim _ H1) as [A1 T1]. destruct (contract_elim _ H2) as [A2 T2].
  apply contract_intro; unfold then_by.
  - intros x y. pose proof (A1 x y). pose proof (A2 x y).
    destruct (Z.eqb_spec (c1 x y) 0); destruct (Z.eqb_spec (c1 y x) 0); lia.
  - intros x y z. destruct H1 as (_ & _ & E1).
    destruct (Z.eqb_spec (c1 x y) 0) as [Exy|Exy].
    + pose proof (E1 x y z Exy) as Es.
      destruct (Z.eqb_spec (c1 y z) 0) as [Eyz|Eyz]; destruct (Z.eqb_spec (c1 x z) 0) as [Exz|Exz]; try lia.
      apply T2.
    + destruct (Z.eqb_spec (c1 y z) 0) as [Eyz|Eyz].
      * assert (Ezy : c1 z y = 0) by (pose proof (A1 y z); lia).
        pose proof (E1 z y x Ezy). pose proof (A1 x z). pose proof (A1 x y).
        destruct (Z.eqb_spec (c1 x z) 0); lia.
      * intros Hxy Hyz. pose proof (T1 x y z). pose proof (T1 y z x). pose proof (T1 z x y).
        pose proof (A1 x y); pose proof (A1 y z); pose proof (A1 x z).
        destruct (Z.eqb_spec (c1 x z) 0); lia.
Qed.

Lemma contract_key (k : path -> Z) : contract (fun a b => zcompare (k a) (k b)).
Proof.
  apply contract_intro; unfold zcompare.
  - intros x y. destruct (Z.ltb_spec (k x) (k y)); destruct (Z.ltb_spec (k y) (k x)); lia.
  - intros x y z. destruct (Z.ltb_spec (k x) (k y)); destruct (Z.ltb_spec (k y) (k x));
      destruct (Z.ltb_spec (k y) (k z)); destruct (Z.ltb_spec (k z) (k y));
      destruct (Z.ltb_spec (k x) (k z)); destruct (Z.ltb_spec (k z) (k x)); lia.
Qed.

Lemma contract_flipped c : contract c -> contract (flipped c).
Proof.
  intro H. destruct (contract_elim _ H) as [A T]. apply contract_intro; unfold flipped.
  - intros x y. rewrite (A y x). lia.
  - intros x y z H1 H2. eapply T; eauto.
Qed.

(** Ties of a refined comparator are equal names. *)
Lemma then_alpha_tie c x y : then_by c alphabetical x y = 0 -> alpha_key x = alpha_key y.
Proof.
  unfold then_by. destruct (Z.eqb_spec (c x y) 0) as [E|E]; [|congruence].
  unfold alphabetical. apply jcompare_eq.
Qed.

Lemma alpha_tie x y : alphabetical x y = 0 -> alpha_key x = alpha_key y.
Proof. apply jcompare_eq. Qed.

Lemma alpha_key_child p n : alpha_key (child p n) = n.
Proof.
  unfold alpha_key, get_file_name, child. cbn [p_names p_abs]. rewrite rev_app_distr. reflexivity.
Qed.

(** ** What the comparators of the code answer *)

Lemma answers_alphabetical w a : answers w (ALPHABETICAL a) (alphabetical a).
Proof. intros b h. exists h. reflexivity. Qed.

Lemma answers_then w c1 g1 c2 g2 : (forall a, answers w (c1 a) (g1 a)) -> (forall a, answers w (c2 a) (g2 a)) ->
  forall a, answers w (then_comparing c1 c2 a) (then_by g1 g2 a).
Proof.
  intros H1 H2 a b h. unfold then_comparing, then_by, bind. destruct (H1 a b h) as [h1 E1]. rewrite E1.
  destruct (g1 a b =? 0); [apply H2|]. exists h1. reflexivity.
Qed.

Lemma answers_reversed w c g : (forall a, answers w (c a) (g a)) -> forall a, answers w (reversed c a) (flipped g a).
Proof. intros H a b h. apply (H b a h). Qed.

Lemma answers_eq A B w (f : A -> M B) g1 g2 : answers w f g1 -> answers w f g2 -> forall a, g1 a = g2 a.
Proof. intros H1 H2 a. destruct (H1 a []) as [h1 E1]. destruct (H2 a []) as [h2 E2]. congruence. Qed.

Lemma run_sorting_answers w c g s P : (forall a, answers w (c a) (g a)) -> outcomes P s ->
  forall h, exists h', run_sorting c s w h = (match eval g s with Some l => Ok l | None => Throw ExIllegalArgument end, h').
Proof.
  intros H. induction s as [l| | |a b k IH]; intros HO h; cbn [run_sorting eval outcomes] in *; [exists h; reflexivity|exists h; reflexivity|destruct HO|].
  unfold bind. destruct (H a b h) as [h1 E1]. rewrite E1. apply IH, HO.
Qed.

(** A result is one of the outcomes. *)
Lemma run_sorting_outcome (P : list path -> Prop) w c s : outcomes P s -> forall h l h', run_sorting c s w h = (Ok l, h') -> P l.
Proof.
  induction s as [l0| | |a b k IH]; cbn [run_sorting outcomes]; intros HP h l h' E; [|discriminate E|discriminate E|].
  - injection E as <- _. exact HP.
  - unfold bind in E. destruct (c a b w h) as [[z|x] h1]; [|discriminate]. eapply IH; eauto.
Qed.

Lemma sorted_perm w c l h l' h' : sorted c l w h = (Ok l', h') -> Permutation l l'.
Proof. intro E. eapply run_sorting_outcome; [apply tim_sort_outcomes|exact E]. Qed.

Lemma sorted_answers w c g l h : (forall a, answers w (c a) (g a)) ->
  exists h', sorted c l w h = (if sort_fails g l then Throw ExIllegalArgument else Ok (psort g l), h').
Proof.
  intro H. unfold sorted. destruct (run_sorting_answers w c g (tim_sort l) _ H (tim_sort_outcomes l) h) as [h' E]. rewrite E. exists h'.
  unfold sort_fails, psort. now destruct (eval g (tim_sort l)).
Qed.

Lemma sorted_in_order w c g l h l' h' : (forall a, answers w (c a) (g a)) -> sorted c l w h = (Ok l', h') -> in_order g l l'.
Proof.
  intros H E. destruct (sorted_answers w c g l h H) as [h1 E1]. rewrite E1 in E.
  destruct (sort_fails g l); [discriminate|]. injection E as <- _. apply tim_sort_in_order.
Qed.
