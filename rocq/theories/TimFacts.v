(** * Proofs about TimSort *)

From Verif Require Import SpecScan.
Open Scope Z_scope.

(** [holds A from V P s]: when the comparisons are answered as [A] allows, only members of [from] are compared, the fuel suffices, a result satisfies
    [P], and the algorithm gives up only if [V]. *)
Fixpoint holds (A : path -> path -> Z -> Prop) (from : list path) (V : Prop) (P : list path -> Prop) (s : sorting) : Prop :=
  match s with
  | Sorted l => P l
  | Violation => V
  | Exhausted => False
  | Compare a b k => In a from /\ In b from /\ forall z, A a b z -> holds A from V P (k z)
  end.

Definition le_c (c : ordering) (a b : path) : Prop := c a b <= 0.

Lemma contract_trans c : contract c -> forall x y z, le_c c x y -> le_c c y z -> le_c c x z.
Proof.
  intros (Ha & Ht & He) x y z Hxy Hyz. unfold le_c in *.
  destruct (Z.eq_dec (c x y) 0) as [E|E].
  { specialize (He x y z E). lia. }
  destruct (Z.eq_dec (c y z) 0) as [E'|E'].
  { assert (E2 : c z y = 0) by (specialize (Ha y z); lia).
    specialize (He z y x E2). pose proof (Ha x z). pose proof (Ha y x). lia. }
  assert (c y x > 0) by (specialize (Ha x y); lia).
  assert (c z y > 0) by (specialize (Ha y z); lia).
  assert (c z x > 0) by (eapply Ht; eauto). specialize (Ha x z). lia.
Qed.

Lemma contract_total c : contract c -> forall x y, c x y <= 0 \/ c y x <= 0.
Proof. intros (Ha & _) x y. specialize (Ha x y). lia. Qed.

(** ** Sorted lists *)

Lemma StronglySorted_snoc A (R : A -> A -> Prop) l x : StronglySorted R l -> Forall (fun y => R y x) l -> StronglySorted R (l ++ [x]).
Proof.
  induction 1 as [|y l Hl IH Hy]; intro F; cbn; [repeat constructor|].
  inversion F; subst. constructor; [auto|]. apply Forall_app. split; [assumption|]. now constructor.
Qed.

Lemma StronglySorted_rev A (R : A -> A -> Prop) l : StronglySorted (fun a b => R b a) l -> StronglySorted R (rev l).
Proof.
  induction 1 as [|y l Hl IH Hy]; cbn; [constructor|]. apply StronglySorted_snoc; [exact IH|].
  apply Forall_rev. exact Hy.
Qed.

Lemma StronglySorted_nth A (R : A -> A -> Prop) l d i j : (forall x, R x x) -> StronglySorted R l -> (i <= j < length l)%nat -> R (nth i l d) (nth j l d).
Proof.
  intros Hr H. revert i j. induction H as [|x l Hl IH Hx]; intros i j Hij; cbn in Hij; [lia|].
  destruct i as [|i]; destruct j as [|j]; cbn; try lia; [apply Hr| |apply IH; lia].
  rewrite Forall_forall in Hx. apply Hx, nth_In. lia.
Qed.

Lemma StronglySorted_app A (R : A -> A -> Prop) l1 l2 :
  StronglySorted R l1 -> StronglySorted R l2 -> (forall a b, In a l1 -> In b l2 -> R a b) -> StronglySorted R (l1 ++ l2).
Proof.
  induction 1 as [|x l Hl IH Hx]; intros H2 H; cbn; [exact H2|].
  constructor; [apply IH; auto; intros; apply H; auto; now right|]. apply Forall_app. split; [exact Hx|].
  apply Forall_forall. intros b Hb. apply H; [now left|exact Hb].
Qed.

Lemma StronglySorted_parts A (R : A -> A -> Prop) l1 l2 : StronglySorted R (l1 ++ l2) -> StronglySorted R l1 /\ StronglySorted R l2.
Proof.
  induction l1 as [|x l1 IH]; cbn; intro H; [split; [constructor|exact H]|].
  inversion H as [|? ? H1 F]; subst. destruct (IH H1) as [A1 A2]. split; [|exact A2].
  constructor; [exact A1|]. apply Forall_app in F. apply F.
Qed.

Lemma sorted_app_iff A (R : A -> A -> Prop) l1 l2 :
  StronglySorted R (l1 ++ l2) <-> StronglySorted R l1 /\ StronglySorted R l2 /\ forall a b, In a l1 -> In b l2 -> R a b.
Proof.
  split; [|intros (H1 & H2 & H3); now apply StronglySorted_app]. intro H. destruct (StronglySorted_parts _ _ _ _ H) as [H1 H2]. repeat split; auto.
  clear H1 H2. induction l1 as [|x l1 IH]; intros a b Ha Hb; [destruct Ha|]. cbn in H. inversion H as [|? ? H1 F]; subst.
  destruct Ha as [->|Ha]; [|now apply IH]. rewrite Forall_forall in F. apply F, in_or_app. now right.
Qed.

Lemma sorted_cons_iff A (R : A -> A -> Prop) x l : StronglySorted R (x :: l) <-> StronglySorted R l /\ forall b, In b l -> R x b.
Proof. split; intro H; [inversion H; subst; split; [assumption|now apply Forall_forall]|]. constructor; [apply H|]. apply Forall_forall, H. Qed.

Section Tim.
  Context (A : path -> path -> Z -> Prop) (from : list path) (V H : Prop) (g : ordering) (P : list path -> Prop).
  Context (HH : H -> contract g /\ forall a b z, A a b z -> z = g a b).
  Notation ok := (holds A from V P).
  Notation le := (le_c g).
  Notation lt := (fun a b => g a b < 0).
  Notation SS := (StronglySorted le).

  Lemma h_anti : H -> forall x y, Z.sgn (g x y) = - Z.sgn (g y x).
  Proof. intro h. destruct (HH h) as [(Ha & _) _]. exact Ha. Qed.

  Lemma h_trans : H -> forall x y z, le x y -> le y z -> le x z.
  Proof. intro h. apply contract_trans, (HH h). Qed.

  Lemma h_refl : H -> forall x, le x x.
  Proof. intros h x. unfold le_c. pose proof (h_anti h x x). lia. Qed.

  Lemma h_lt_le x y : g x y < 0 -> le x y.
  Proof. unfold le_c. lia. Qed.

  Lemma h_not_lt : H -> forall x y, ~ g y x < 0 -> le x y.
  Proof. intros h x y N. unfold le_c. pose proof (h_anti h x y). lia. Qed.

  Lemma h_lt_le_trans : H -> forall x y z, g x y < 0 -> le y z -> g x z < 0.
  Proof.
    intros h x y z L1 L2. pose proof (h_trans h x y z (h_lt_le _ _ L1) L2) as L3. unfold le_c in *.
    destruct (Z.eq_dec (g x z) 0) as [E|]; [exfalso|lia]. assert (L4 : le z x) by (unfold le_c; pose proof (h_anti h x z); lia).
    pose proof (h_trans h y z x L2 L4). unfold le_c in *. pose proof (h_anti h x y). lia.
  Qed.

  Lemma h_le_lt_trans : H -> forall x y z, le x y -> g y z < 0 -> g x z < 0.
  Proof.
    intros h x y z L1 L2. pose proof (h_trans h x y z L1 (h_lt_le _ _ L2)) as L3. unfold le_c in *.
    destruct (Z.eq_dec (g x z) 0) as [E|]; [exfalso|lia]. assert (L4 : le z x) by (unfold le_c; pose proof (h_anti h x z); lia).
    pose proof (h_trans h z x y L4 L1). unfold le_c in *. pose proof (h_anti h y z). lia.
  Qed.

  (** ** Runs *)

  Definition ascending (d : bool) (a b : path) : Prop := if d then le a b else le b a.

  Lemma extend_run_ok d k rest : forall last run,
    incl (run ++ rest) from -> (H -> StronglySorted (ascending d) run) -> hd_error run = Some last ->
    (forall run' rest', Permutation (run ++ rest) (run' ++ rest') -> run' <> [] -> (length rest' <= length rest)%nat ->
       (H -> StronglySorted (ascending d) run') -> ok (k run' rest')) ->
    ok (extend_run d last run rest k).
  Proof.
    induction rest as [|x rest IH]; intros last run Hin HS HL Hk; cbn [extend_run].
    - apply Hk; auto. destruct run; discriminate.
    - assert (Hne : run <> []) by (destruct run; discriminate). assert (Hl : In last run) by (destruct run; [discriminate|injection HL as ->; now left]).
      cbn [holds]. split; [apply Hin, in_or_app; right; now left|]. split; [apply Hin, in_or_app; now left|].
      intros z Hz. destruct (Bool.eqb (z <? 0) d) eqn:E; [|now apply Hk].
      assert (HP : Permutation (run ++ x :: rest) ((x :: run) ++ rest)) by (symmetry; apply Permutation_middle).
      apply IH; [| |reflexivity|].
      + intros q Hq. apply Hin. eapply Permutation_in; [symmetry; exact HP|exact Hq].
      + intro h. specialize (HS h). destruct (HH h) as [Hc Ha]. apply Ha in Hz. subst z. destruct run as [|y run]; [discriminate|]. injection HL as ->.
        assert (Hx : ascending d x last).
        { apply Bool.eqb_prop in E. subst d. unfold ascending. destruct (Z.ltb_spec (g x last) 0); [now apply h_lt_le|]. apply h_not_lt; [exact h|lia]. }
        constructor; [exact HS|]. constructor; [exact Hx|].
        inversion HS as [|? ? _ F]; subst. eapply Forall_impl; [|exact F]. intros a Haa. pose proof (h_trans h). destruct d; cbn in *; eauto.
      + intros run' rest' HP' Hne' Hlen. apply Hk; [now rewrite HP|exact Hne'|cbn; lia].
  Qed.

  Lemma count_run_ok l k : incl l from ->
    (forall run rest, Permutation l (run ++ rest) -> (l <> [] -> run <> []) -> (H -> SS run) -> ok (k run rest)) -> ok (count_run l k).
  Proof.
    intros Hin Hk. destruct l as [|x [|y rest]]; cbn [count_run].
    - apply Hk; [reflexivity|congruence|constructor].
    - apply Hk; [reflexivity|discriminate|repeat constructor].
    - cbn [holds]. split; [apply Hin; right; now left|]. split; [apply Hin; now left|]. intros z Hz.
      assert (HP0 : Permutation (x :: y :: rest) ([y; x] ++ rest)) by apply perm_swap.
      apply extend_run_ok; [| |reflexivity|].
      + intros q Hq. apply Hin. eapply Permutation_in; [symmetry; exact HP0|exact Hq].
      + intro h. destruct (HH h) as [Hc Ha]. apply Ha in Hz. subst z. constructor; [repeat constructor|]. constructor; [|constructor]. unfold ascending.
        destruct (Z.ltb_spec (g y x) 0); [now apply h_lt_le|]. apply h_not_lt; [exact h|lia].
      + intros run rest' HP Hne Hlen HS. apply Hk.
        * rewrite HP0, HP. destruct (z <? 0); [reflexivity|]. apply Permutation_app_tail, Permutation_rev.
        * intros _. destruct (z <? 0); [exact Hne|]. intro E. apply Hne. rewrite <- (rev_involutive run), E. reflexivity.
        * intro h. specialize (HS h). destruct (z <? 0); [exact HS|]. apply StronglySorted_rev. exact HS.
  Qed.

  (** ** Insertion *)

  Lemma locate_ok pivot l k : In pivot from -> incl l from -> (H -> SS l) -> forall fuel left right,
    (right - left <= fuel)%nat -> (left <= right <= length l)%nat ->
    (H -> forall j, (j < left)%nat -> le (nth j l pivot) pivot) ->
    (H -> forall j, (right <= j < length l)%nat -> le pivot (nth j l pivot)) ->
    (forall i, (i <= length l)%nat ->
       (H -> (forall j, (j < i)%nat -> le (nth j l pivot) pivot) /\ (forall j, (i <= j < length l)%nat -> le pivot (nth j l pivot))) -> ok (k i)) ->
    ok (locate fuel pivot l left right k).
  Proof.
    intros Hp Hl HS. induction fuel as [|fuel IH]; intros left right Hf Hlr HL HR Hk; cbn [locate];
      (destruct (Nat.ltb_spec left right) as [Hlt|Hge];
       [|apply Hk; [lia|]; intro h; split; [now apply HL|]; intros j Hj; apply HR; [exact h|lia]]); [lia|].
    set (mid := Nat.div2 (left + right)).
    assert (Hm : (left <= mid < right)%nat).
    { unfold mid. rewrite Nat.div2_div. split; [apply Nat.div_le_lower_bound; lia|apply Nat.div_lt_upper_bound; lia]. }
    cbn [holds]. split; [exact Hp|]. split; [apply Hl, nth_In; lia|]. intros z Hz.
    destruct (Z.ltb_spec z 0) as [E|E].
    - apply IH; try lia; auto. intros h j Hj. destruct (HH h) as [_ Ha]. apply Ha in Hz. subst z.
      eapply (h_trans h); [apply h_lt_le; exact E|]. apply StronglySorted_nth; [apply h_refl; exact h|auto|lia].
    - apply IH; try lia; auto. intros h j Hj. destruct (HH h) as [_ Ha]. apply Ha in Hz. subst z.
      eapply (h_trans h); [apply (StronglySorted_nth _ le l pivot j mid); [apply h_refl; exact h|auto|lia]|]. apply h_not_lt; [exact h|lia].
  Qed.

  Lemma inserted_sorted pivot l i : H -> SS l -> (i <= length l)%nat ->
    (forall j, (j < i)%nat -> le (nth j l pivot) pivot) -> (forall j, (i <= j < length l)%nat -> le pivot (nth j l pivot)) ->
    SS (firstn i l ++ pivot :: skipn i l).
  Proof.
    intros h HS Hi HL HR.
    assert (H1 : forall a, In a (firstn i l) -> le a pivot).
    { intros a Ha. apply (In_nth _ _ pivot) in Ha. destruct Ha as (j & Hj & <-). rewrite firstn_length_le in Hj by exact Hi.
      specialize (HL j Hj). rewrite <- (firstn_skipn i l), app_nth1 in HL by (rewrite firstn_length_le; lia). exact HL. }
    assert (H2 : forall b, In b (skipn i l) -> le pivot b).
    { intros b Hb. apply (In_nth _ _ pivot) in Hb. destruct Hb as (j & Hj & <-). rewrite skipn_length in Hj.
      specialize (HR (i + j)%nat ltac:(lia)). rewrite <- (firstn_skipn i l), app_nth2 in HR by (rewrite firstn_length_le; lia).
      rewrite firstn_length_le in HR by exact Hi. replace (i + j - i)%nat with j in HR by lia. exact HR. }
    assert (HS' := HS). rewrite <- (firstn_skipn i l) in HS'. apply StronglySorted_parts in HS'. destruct HS' as [S1 S2].
    apply StronglySorted_app; [exact S1| |].
    - constructor; [exact S2|]. apply Forall_forall. exact H2.
    - intros a b Ha [<-|Hb]; [now apply H1|]. eapply (h_trans h); [now apply H1|now apply H2].
  Qed.

  Lemma binary_sort_ok k rest : forall l, incl (l ++ rest) from -> (H -> SS l) ->
    (forall l', Permutation (l ++ rest) l' -> (H -> SS l') -> ok (k l')) -> ok (binary_sort l rest k).
  Proof.
    induction rest as [|x rest IH]; intros l Hin HS Hk; cbn [binary_sort].
    - apply Hk; [now rewrite app_nil_r|exact HS].
    - apply locate_ok; try lia; auto.
      + apply Hin, in_or_app. right. now left.
      + intros q Hq. apply Hin, in_or_app. now left.
      + intros i Hi Hs. set (l' := firstn i l ++ x :: skipn i l).
        assert (HP : Permutation (l ++ x :: rest) (l' ++ rest)).
        { unfold l'. rewrite <- app_assoc. cbn [app]. rewrite <- (firstn_skipn i l) at 1. rewrite <- app_assoc.
          apply Permutation_app_head. rewrite app_comm_cons. change (x :: skipn i l) with ([x] ++ skipn i l). rewrite <- app_assoc.
          cbn [app]. symmetry. apply Permutation_middle. }
        apply IH.
        * intros q Hq. apply Hin. eapply Permutation_in; [symmetry; exact HP|exact Hq].
        * intro h. destruct (Hs h) as [H1 H2]. apply inserted_sorted; auto.
        * intros l'' HP' HS'. apply Hk; [now rewrite HP|exact HS'].
  Qed.

  (** ** Galloping *)

  Section Gallop.
    Context (right : Z -> bool) (key : path) (a : list path) (Hkey : In key from) (Ha : incl a from) (Hsorted : H -> SS a).
    Context (Hmono : H -> forall x y, le x y -> right (g key y) = true -> right (g key x) = true).
    Notation side i := (right (g key (nth i a key))).

    Lemma side_mono : H -> forall i j, (i <= j < length a)%nat -> side j = true -> side i = true.
    Proof. intros h i j Hij. apply Hmono; [exact h|]. apply StronglySorted_nth; [apply h_refl; exact h|auto|exact Hij]. Qed.

    Lemma side_mono_false : H -> forall i j, (i <= j < length a)%nat -> side i = false -> side j = false.
    Proof. intros h i j Hij E. destruct (side j) eqn:E'; [|reflexivity]. apply (side_mono h i j Hij) in E'. congruence. Qed.

    Lemma gallop_away_ok (b : bool) at_ max k : (forall d, (d < max)%nat -> (at_ d < length a)%nat) -> forall fuel last ofs,
      (max <= fuel + ofs)%nat -> (last < ofs)%nat -> (last < max)%nat -> (H -> side (at_ last) = b) ->
      (forall last' ofs', (last' < ofs' <= max)%nat -> (H -> side (at_ last') = b) -> (ofs' = max \/ (ofs' < max)%nat /\ (H -> side (at_ ofs') = negb b)) ->
        ok (k last' ofs')) ->
      ok (gallop_away fuel (fun z => Bool.eqb (right z) b) key a at_ max last ofs k).
    Proof.
      intros Hat. induction fuel as [|fuel IH]; intros last ofs Hf Hl Hm Hs Hk; cbn [gallop_away];
        (destruct (Nat.ltb_spec ofs max) as [Hlt|Hge]; [|apply Hk; [lia|exact Hs|now left]]); [lia|].
      cbn [holds]. split; [exact Hkey|]. split; [apply Ha, nth_In; auto|]. intros z Hz. destruct (Bool.eqb (right z) b) eqn:E.
      - apply IH; try lia; auto. intro h. destruct (HH h) as [_ HA]. apply HA in Hz. subst z. now apply Bool.eqb_prop.
      - apply Hk; [lia|exact Hs|]. right. split; [exact Hlt|]. intro h. destruct (HH h) as [_ HA]. apply HA in Hz. subst z.
        apply Bool.eqb_false_iff in E. destruct (right (g key (nth (at_ ofs) a key))), b; cbn; congruence.
    Qed.

    Lemma gallop_between_ok k : forall fuel low ofs, (ofs - low <= fuel)%nat -> (low <= ofs <= length a)%nat ->
      (H -> forall j, (j < low)%nat -> side j = true) -> (H -> forall j, (ofs <= j < length a)%nat -> side j = false) ->
      (forall i, (i <= length a)%nat -> (H -> (forall j, (j < i)%nat -> side j = true) /\ (forall j, (i <= j < length a)%nat -> side j = false)) ->
        ok (k i)) ->
      ok (gallop_between fuel right key a low ofs k).
    Proof.
      induction fuel as [|fuel IH]; intros low ofs Hf Hlo HL HR Hk; cbn [gallop_between];
        (destruct (Nat.ltb_spec low ofs) as [Hlt|Hge];
         [|assert (low = ofs) as -> by lia; apply Hk; [lia|]; intro h; split; [now apply HL|now apply HR]]); [lia|].
      set (m := (low + Nat.div2 (ofs - low))%nat).
      assert (Hm : (low <= m < ofs)%nat). { unfold m. split; [lia|]. pose proof (Nat.lt_div2 (ofs - low)). lia. }
      cbn [holds]. split; [exact Hkey|]. split; [apply Ha, nth_In; lia|]. intros z Hz. destruct (right z) eqn:E.
      - apply IH; try lia; auto. intros h j Hj. destruct (HH h) as [_ HA]. apply HA in Hz. subst z. apply (side_mono h j m); [lia|exact E].
      - apply IH; try lia; auto. intros h j Hj. destruct (HH h) as [_ HA]. apply HA in Hz. subst z. apply (side_mono_false h m j); [lia|exact E].
    Qed.

    Lemma split_sides i : (forall j, (j < i)%nat -> side j = true) -> (forall j, (i <= j < length a)%nat -> side j = false) -> (i <= length a)%nat ->
      Forall (fun x => right (g key x) = true) (firstn i a) /\ Forall (fun x => right (g key x) = false) (skipn i a).
    Proof.
      intros H1 H2 Hi. split; apply Forall_forall; intros x Hx; apply (In_nth _ _ key) in Hx; destruct Hx as (j & Hj & <-).
      - rewrite firstn_length_le in Hj by exact Hi. specialize (H1 j Hj).
        rewrite <- (firstn_skipn i a), app_nth1 in H1 by (rewrite firstn_length_le; lia). exact H1.
      - rewrite skipn_length in Hj. specialize (H2 (i + j)%nat ltac:(lia)).
        rewrite <- (firstn_skipn i a), app_nth2 in H2 by (rewrite firstn_length_le; lia).
        rewrite firstn_length_le in H2 by exact Hi. replace (i + j - i)%nat with j in H2 by lia. exact H2.
    Qed.

    Lemma gallop_ok hint k : (hint < length a)%nat ->
      (forall i, (i <= length a)%nat ->
         (H -> Forall (fun x => right (g key x) = true) (firstn i a) /\ Forall (fun x => right (g key x) = false) (skipn i a)) -> ok (k i)) ->
      ok (gallop right key a hint k).
    Proof.
      intros Hh Hk0.
      assert (Hk : forall i, (i <= length a)%nat -> (H -> (forall j, (j < i)%nat -> side j = true) /\ (forall j, (i <= j < length a)%nat -> side j = false)) ->
        ok (k i)).
      { intros i Hi Hs. apply Hk0; [exact Hi|]. intro h. destruct (Hs h). now apply split_sides. }
      unfold gallop. cbn [holds]. split; [exact Hkey|]. split; [apply Ha, nth_In; exact Hh|]. intros z Hz.
      assert (Hside : H -> side hint = right z) by (intro h; destruct (HH h) as [_ HA]; apply HA in Hz; now subst z).
      destruct (right z) eqn:E.
      - assert (G := gallop_away_ok true (fun ofs => hint + ofs)%nat (length a - hint)
          (fun last ofs => gallop_between (length a) right key a (hint + last + 1) (hint + ofs) k)).
        assert (X : forall K m l o f, ok (gallop_away f (fun z => Bool.eqb (right z) true) key a (fun ofs => (hint + ofs)%nat) m l o K) ->
          ok (gallop_away f right key a (fun ofs => (hint + ofs)%nat) m l o K)).
        { clear - HH. intros K m l o f. revert l o. induction f as [|f IH]; intros l o; cbn [gallop_away]; destruct (o <? m)%nat; auto.
          cbn [holds]. intros (X1 & X2 & X3). split; [exact X1|]. split; [exact X2|]. intros z Hz. specialize (X3 z Hz). destruct (right z); [now apply IH|exact X3]. }
        apply X, G; [lia|lia|lia|lia|rewrite Nat.add_0_r; exact Hside|]. intros last ofs Hlo H1 H2. apply gallop_between_ok; [lia|lia| | |exact Hk].
        + intros h j Hj. apply (side_mono h j (hint + last)); [lia|auto].
        + intros h j Hj. destruct H2 as [->|[Hlt H2]]; [lia|]. apply (side_mono_false h (hint + ofs) j); [lia|]. now apply H2.
      - assert (G := gallop_away_ok false (fun ofs => hint - ofs)%nat (hint + 1)
          (fun last ofs => gallop_between (length a) right key a (hint + 1 - ofs) (hint - last) k)).
        assert (X : forall K m l o f, ok (gallop_away f (fun z => Bool.eqb (right z) false) key a (fun ofs => (hint - ofs)%nat) m l o K) ->
          ok (gallop_away f (fun z => negb (right z)) key a (fun ofs => (hint - ofs)%nat) m l o K)).
        { clear - HH. intros K m l o f. revert l o. induction f as [|f IH]; intros l o; cbn [gallop_away]; destruct (o <? m)%nat; auto. }
        apply X, G; [lia|lia|lia|lia|rewrite Nat.sub_0_r; exact Hside|]. intros last ofs Hlo H1 H2. apply gallop_between_ok; [lia|lia| | |exact Hk].
        + intros h j Hj. destruct H2 as [->|[Hlt H2]]; [lia|]. apply (side_mono h j (hint - ofs)); [lia|]. now apply H2.
        + intros h j Hj. apply (side_mono_false h (hint - last) j); [lia|auto].
    Qed.
  End Gallop.

  Lemma gallop_right_ok key a hint k : In key from -> incl a from -> (H -> SS a) -> (hint < length a)%nat ->
    (forall i, (i <= length a)%nat -> (H -> Forall (fun x => le x key) (firstn i a) /\ Forall (fun x => g key x < 0) (skipn i a)) -> ok (k i)) ->
    ok (gallop_right key a hint k).
  Proof.
    intros Hkey Ha HS Hh Hk. apply gallop_ok; auto.
    - intros h x y L E. apply Z.leb_le in E. apply Z.leb_le. assert (le y key) by (apply h_not_lt; [exact h|lia]).
      pose proof (h_trans h x y key L ltac:(assumption)) as L'. unfold le_c in L'. pose proof (h_anti h x key). lia.
    - intros i Hi Hs. apply Hk; [exact Hi|]. intro h. destruct (Hs h) as [F1 F2]. split.
      + eapply Forall_impl; [|exact F1]. intros x E. apply Z.leb_le in E. apply h_not_lt; [exact h|lia].
      + eapply Forall_impl; [|exact F2]. intros x E. apply Z.leb_gt in E. exact E.
  Qed.

  Lemma gallop_left_ok key a hint k : In key from -> incl a from -> (H -> SS a) -> (hint < length a)%nat ->
    (forall i, (i <= length a)%nat -> (H -> Forall (fun x => g x key < 0) (firstn i a) /\ Forall (fun x => le key x) (skipn i a)) -> ok (k i)) ->
    ok (gallop_left key a hint k).
  Proof.
    intros Hkey Ha HS Hh Hk. apply gallop_ok; auto.
    - intros h x y L E. apply Z.ltb_lt in E. apply Z.ltb_lt. assert (g y key < 0) by (pose proof (h_anti h y key); lia).
      pose proof (h_le_lt_trans h x y key L ltac:(assumption)) as L'. pose proof (h_anti h x key). lia.
    - intros i Hi Hs. apply Hk; [exact Hi|]. intro h. destruct (Hs h) as [F1 F2]. split.
      + eapply Forall_impl; [|exact F1]. intros x E. apply Z.ltb_lt in E. pose proof (h_anti h x key). lia.
      + eapply Forall_impl; [|exact F2]. intros x E. apply Z.ltb_ge in E. exact E.
  Qed.

  (** ** Merging *)

  Section Merge.
    Context (HV : V \/ H).

    Definition whole (t r out : list path) : list path := rev out ++ t ++ r.

    Lemma whole_t t1 t2 r out : whole (t1 ++ t2) r out = whole t2 r (rev t1 ++ out).
    Proof. unfold whole. now rewrite rev_app_distr, rev_involutive, <- !app_assoc. Qed.

    Lemma whole_r t r1 r2 out : Permutation (whole t (r1 ++ r2) out) (whole t r2 (rev r1 ++ out)).
    Proof.
      unfold whole. rewrite rev_app_distr, rev_involutive, <- !app_assoc. apply Permutation_app_head. rewrite !app_assoc. apply Permutation_app_tail, Permutation_app_comm.
    Qed.

    (** The invariant of [merge_lo]. *)
    Definition inv_lo (t r out : list path) : Prop :=
      SS (rev out ++ t) /\ SS (rev out ++ r) /\ exists x, In x t /\ Forall (fun y => g y x < 0) r.

    Lemma lo_take_t (h : H) t1 t2 y r : forall out, Forall (fun x => le x y) t1 -> inv_lo (t1 ++ t2) (y :: r) out -> inv_lo t2 (y :: r) (rev t1 ++ out).
    Proof.
      induction t1 as [|x t1 IH]; intros out F I; [exact I|]. cbn [rev]. rewrite <- app_assoc. cbn [app]. inversion F as [|? ? Hx F']; subst.
      apply IH; [exact F'|]. destruct I as (I1 & I2 & w & Hw & Fw). cbn [app] in *. unfold inv_lo. cbn [rev]. rewrite <- !app_assoc. cbn [app].
      split; [exact I1|]. split.
      - apply sorted_app_iff in I1 as (S1 & _ & S3). apply sorted_app_iff in I2 as (_ & S2 & S4). apply sorted_app_iff.
        split; [exact S1|]. split.
        + apply sorted_cons_iff. split; [exact S2|]. apply sorted_cons_iff in S2 as [_ S2]. intros b [<-|Hb]; [exact Hx|]. eapply (h_trans h); eauto.
        + intros a b Haa [<-|Hb]; [apply S3; [exact Haa|now left]|now apply S4].
      - exists w. split; [|exact Fw]. destruct Hw as [<-|Hw]; [|exact Hw]. inversion Fw as [|? ? L _]; subst. unfold le_c in Hx.
        pose proof (h_anti h x y). lia.
    Qed.

    Lemma lo_take_r (h : H) x t r1 r2 : forall out, Forall (fun y => g y x < 0) r1 -> inv_lo (x :: t) (r1 ++ r2) out -> inv_lo (x :: t) r2 (rev r1 ++ out).
    Proof.
      induction r1 as [|y r1 IH]; intros out F I; [exact I|]. cbn [rev]. rewrite <- app_assoc. cbn [app]. inversion F as [|? ? Hy F']; subst.
      apply IH; [exact F'|]. destruct I as (I1 & I2 & w & Hw & Fw). cbn [app] in *. unfold inv_lo. cbn [rev]. rewrite <- !app_assoc. cbn [app].
      split; [|split; [exact I2|exists w; split; [exact Hw|now inversion Fw]]].
      apply sorted_app_iff in I2 as (_ & S2 & S4). apply sorted_app_iff in I1 as (S1 & S5 & S3). apply sorted_app_iff.
      split; [exact S1|]. split.
      - apply sorted_cons_iff. split; [exact S5|]. apply sorted_cons_iff in S5 as [_ S5]. intros b [<-|Hb]; [now apply h_lt_le|].
        eapply (h_trans h); [apply h_lt_le; exact Hy|auto].
      - intros a b Haa [<-|Hb]; [apply S4; [exact Haa|now left]|now apply S3].
    Qed.

    Lemma merge_lo_end_ok mg t r out k : (H -> inv_lo t r out) -> r = [] \/ (length t <= 1)%nat ->
      (forall mg l, Permutation (whole t r out) l -> (H -> SS l) -> ok (k mg l)) -> ok (merge_lo_end mg t r out k).
    Proof.
      intros I Hc Hk. unfold merge_lo_end. destruct t as [|x [|x' t]].
      - cbn [holds]. destruct HV as [v|h]; [exact v|]. destruct (I h) as (_ & _ & w & [] & _).
      - apply Hk; [unfold whole; apply Permutation_app_head, Permutation_app_comm|]. intro h. destruct (I h) as (I1 & I2 & w & [<-|[]] & Fw).
        rewrite app_assoc. apply sorted_app_iff. split; [exact I2|]. split; [repeat constructor|]. intros a b Haa [<-|[]]. apply in_app_or in Haa as [Haa|Haa].
        + apply sorted_app_iff in I1 as (_ & _ & S). apply S; [exact Haa|now left].
        + rewrite Forall_forall in Fw. apply h_lt_le. now apply Fw.
      - destruct Hc as [->|Hc]; [|cbn in Hc; lia]. apply Hk; [unfold whole; now rewrite app_nil_r|]. intro h. apply (I h).
    Qed.

    Lemma merge_lo_ok k : forall fuel galloping first count mg t r out,
      (length t + length r <= fuel)%nat -> (2 <= length t)%nat -> (1 <= length r)%nat -> incl t from -> incl r from ->
      (H -> inv_lo t r out) ->
      (forall mg l, Permutation (whole t r out) l -> (H -> SS l) -> ok (k mg l)) ->
      ok (merge_lo fuel galloping first count mg t r out k).
    Proof.
      induction fuel as [|fuel IH]; intros galloping first count mg t r out Hf Ht Hr It Ir I Hk; [lia|].
      destruct t as [|x t']; [cbn in Ht; lia|]. destruct r as [|y r']; [cbn in Hr; lia|]. cbn [merge_lo].
      assert (SSt : H -> SS (x :: t')) by (intro h; destruct (I h) as (I1 & _); now apply StronglySorted_parts in I1).
      assert (SSr : H -> SS (y :: r')) by (intro h; destruct (I h) as (_ & I2 & _); now apply StronglySorted_parts in I2).
      destruct galloping.
      - apply gallop_right_ok; [apply Ir; now left|exact It|exact SSt|cbn; lia|]. intros c1 Hc1 Hs1.
        set (t := x :: t') in *. set (t1 := skipn c1 t). set (out1 := rev (firstn c1 t) ++ out).
        assert (Et : firstn c1 t ++ t1 = t) by apply firstn_skipn.
        assert (Lt : length t1 = (length t - c1)%nat) by apply skipn_length.
        assert (W1 : whole t (y :: r') out = whole t1 (y :: r') out1) by (rewrite <- Et at 1; apply whole_t).
        assert (I1 : H -> inv_lo t1 (y :: r') out1).
        { intro h. apply (lo_take_t h); [apply (Hs1 h)|]. rewrite Et. now apply I. }
        assert (It1 : incl t1 from) by (intros q Hq; apply It; rewrite <- Et; apply in_or_app; now right).
        destruct (negb (c1 =? 0)%nat && (length t1 <=? 1)%nat) eqn:E1.
        { apply andb_prop in E1 as [_ E1]. apply Nat.leb_le in E1. apply merge_lo_end_ok; [exact I1|now right|]. rewrite <- W1. exact Hk. }
        assert (L1 : (2 <= length t1)%nat).
        { apply andb_false_iff in E1 as [E1|E1]; [|apply Nat.leb_gt in E1; lia]. apply negb_false_iff, Nat.eqb_eq in E1. lia. }
        assert (Hhd : exists x1 t1', t1 = x1 :: t1') by (destruct t1 as [|x1 t1']; [cbn in L1; lia|eauto]). destruct Hhd as (x1 & t1' & Et1).
        assert (I2 : H -> inv_lo t1 r' (y :: out1)).
        { intro h. rewrite Et1. apply (lo_take_r h x1 t1' [y] r'); [|rewrite <- Et1; now apply I1]. constructor; [|constructor].
          destruct (Hs1 h) as [_ F]. fold t1 in F. rewrite Et1 in F. now inversion F. }
        assert (W2 : Permutation (whole t1 (y :: r') out1) (whole t1 r' (y :: out1))) by apply (whole_r t1 [y] r' out1).
        assert (Hk2 : forall mg l, Permutation (whole t1 r' (y :: out1)) l -> (H -> SS l) -> ok (k mg l)).
        { intros mg' l HP. apply Hk. rewrite W1, W2. exact HP. }
        destruct r' as [|y' r'']; [apply merge_lo_end_ok; auto|]. set (r' := y' :: r'') in *.
        assert (Ir' : incl r' from) by (intros q Hq; apply Ir; now right).
        apply gallop_left_ok; [apply It1; rewrite Et1; now left|exact Ir'|intro h; apply SSr in h; now inversion h|cbn; lia|]. intros c2 Hc2 Hs2.
        set (r2 := skipn c2 r'). set (out2 := rev (firstn c2 r') ++ y :: out1).
        assert (Er : firstn c2 r' ++ r2 = r') by apply firstn_skipn.
        assert (W3 : Permutation (whole t1 r' (y :: out1)) (whole t1 r2 out2)) by (rewrite <- Er at 1; apply whole_r).
        assert (I3 : H -> inv_lo t1 r2 out2).
        { intro h. rewrite Et1. apply (lo_take_r h x1 t1'); [|rewrite Er, <- Et1; now apply I2]. destruct (Hs2 h) as [F _]. now rewrite Et1 in F. }
        assert (Hk3 : forall mg l, Permutation (whole t1 r2 out2) l -> (H -> SS l) -> ok (k mg l)).
        { intros mg' l HP. apply Hk2. rewrite W3. exact HP. }
        assert (Lr : (length r2 <= length r')%nat) by (unfold r2; rewrite skipn_length; lia).
        assert (Ir2 : incl r2 from) by (intros q Hq; apply Ir'; rewrite <- Er; apply in_or_app; now right).
        fold t1 out1 r2 out2. destruct r2 as [|z2 r3] eqn:Er2; [apply merge_lo_end_ok; auto|]. rewrite <- Er2 in *.
        assert (I4 : H -> inv_lo (tl t1) r2 (hd x t1 :: out2)).
        { intro h. rewrite Et1. cbn [hd tl]. rewrite Er2. apply (lo_take_t h [x1] t1' z2 r3); [|rewrite <- Er2; cbn [app]; rewrite <- Et1; now apply I3].
          constructor; [|constructor]. destruct (Hs2 h) as [_ F]. fold r2 in F. rewrite Er2, Et1 in F. now inversion F. }
        assert (Hk4 : forall mg l, Permutation (whole (tl t1) r2 (hd x t1 :: out2)) l -> (H -> SS l) -> ok (k mg l)).
        { intros mg' l HP. apply Hk3. rewrite <- HP, Et1. cbn [hd tl]. now rewrite (whole_t [x1] t1'). }
        assert (It4 : incl (tl t1) from) by (rewrite Et1 in *; intros q Hq; apply It1; now right).
        assert (Lt4 : length t1 = S (length (tl t1))) by (rewrite Et1; reflexivity).
        destruct (Nat.eqb_spec (length (tl t1)) 1) as [E4|E4]; [apply merge_lo_end_ok; auto; right; lia|].
        assert (Lr2 : (1 <= length r2)%nat) by (rewrite Er2; cbn; lia). cbn [length] in Hf. fold r' in Hf. fold t in Hf.
        assert (Hf' : (length (tl t1) + length r2 <= fuel)%nat) by (unfold t, r' in *; cbn [length] in *; lia).
        destruct ((MIN_GALLOP <=? c1)%nat || (MIN_GALLOP <=? c2)%nat); apply IH; auto; lia.
      - cbn [holds]. split; [apply Ir; now left|]. split; [apply It; now left|]. intros z Hz. cbn [length] in *. destruct (Z.ltb_spec z 0) as [E|E].
        + assert (I1 : H -> inv_lo (x :: t') r' (y :: out)).
          { intro h. apply (lo_take_r h x t' [y] r'); [|now apply I]. constructor; [|constructor]. destruct (HH h) as [_ HA]. apply HA in Hz. now subst z. }
          assert (Hk1 : forall mg l, Permutation (whole (x :: t') r' (y :: out)) l -> (H -> SS l) -> ok (k mg l)).
          { intros mg' l HP. apply Hk. rewrite <- HP. apply (whole_r (x :: t') [y] r' out). }
          destruct r' as [|y' r'']; [apply merge_lo_end_ok; auto|]. apply IH; auto; cbn [length] in *; try lia. intros q Hq. apply Ir. now right.
        + assert (I1 : H -> inv_lo t' (y :: r') (x :: out)).
          { intro h. apply (lo_take_t h [x] t' y r'); [|now apply I]. constructor; [|constructor]. destruct (HH h) as [_ HA]. apply HA in Hz. subst z.
            apply h_not_lt; [exact h|lia]. }
          assert (Hk1 : forall mg l, Permutation (whole t' (y :: r') (x :: out)) l -> (H -> SS l) -> ok (k mg l)).
          { intros mg' l HP. apply Hk. rewrite <- HP. change (x :: t') with ([x] ++ t'). rewrite whole_t. reflexivity. }
          destruct (Nat.eqb_spec (length t') 1) as [E4|E4]; [apply merge_lo_end_ok; auto; right; lia|].
          apply IH; auto; cbn [length] in *; try lia. intros q Hq. apply It. now right.
    Qed.

    (** [merge_hi]. *)
    Definition whole_hi (r t out : list path) : list path := rev r ++ rev t ++ out.

    Lemma whole_hi_t r t1 t2 out : whole_hi r (t1 ++ t2) out = whole_hi r t2 (rev t1 ++ out).
    Proof. unfold whole_hi. now rewrite rev_app_distr, <- !app_assoc. Qed.

    Lemma whole_hi_r r1 r2 t out : Permutation (whole_hi (r1 ++ r2) t out) (whole_hi r2 t (rev r1 ++ out)).
    Proof.
      unfold whole_hi. rewrite rev_app_distr, <- !app_assoc. apply Permutation_app_head. rewrite !app_assoc. apply Permutation_app_tail, Permutation_app_comm.
    Qed.

    Definition inv_hi (r t out : list path) : Prop :=
      SS (rev r ++ out) /\ SS (rev t ++ out) /\ exists y, In y t /\ Forall (fun x => g y x < 0) r.

    Lemma hi_take_t (h : H) x r t1 t2 : forall out, Forall (fun y => le x y) t1 -> inv_hi (x :: r) (t1 ++ t2) out -> inv_hi (x :: r) t2 (rev t1 ++ out).
    Proof.
      induction t1 as [|y t1 IH]; intros out F I; [exact I|]. cbn [rev]. rewrite <- app_assoc. cbn [app]. inversion F as [|? ? Hy F']; subst.
      apply IH; [exact F'|]. destruct I as (I1 & I2 & w & Hw & Fw). unfold inv_hi. cbn [rev app] in *. rewrite <- app_assoc in I1, I2. cbn [app] in I1, I2.
      rewrite <- app_assoc. cbn [app]. split; [|split; [exact I2|]].
      - apply sorted_app_iff in I1 as (S1 & S2 & S3). apply sorted_cons_iff in S2 as [S2 S5]. apply sorted_app_iff in I2 as (_ & S4 & _).
        apply sorted_cons_iff in S4 as [S4 S6]. apply sorted_app_iff. split; [exact S1|]. split.
        + apply sorted_cons_iff. split; [apply sorted_cons_iff; now split|]. intros b [<-|Hb]; [exact Hy|now apply S5].
        + intros a b Haa [<-|[<-|Hb]]; [apply S3; [exact Haa|now left]| |apply S3; [exact Haa|now right]].
          eapply (h_trans h); [apply S3; [exact Haa|now left]|exact Hy].
      - exists w. split; [|exact Fw]. destruct Hw as [<-|Hw]; [|exact Hw]. inversion Fw as [|? ? L _]; subst. unfold le_c in Hy. pose proof (h_anti h x y). lia.
    Qed.

    Lemma hi_take_r (h : H) r1 r2 y t : forall out, Forall (fun x => g y x < 0) r1 -> inv_hi (r1 ++ r2) (y :: t) out -> inv_hi r2 (y :: t) (rev r1 ++ out).
    Proof.
      induction r1 as [|x r1 IH]; intros out F I; [exact I|]. cbn [rev]. rewrite <- app_assoc. cbn [app]. inversion F as [|? ? Hx F']; subst.
      apply IH; [exact F'|]. destruct I as (I1 & I2 & w & Hw & Fw). unfold inv_hi. cbn [rev app] in *. rewrite <- app_assoc in I1, I2. cbn [app] in I1, I2.
      rewrite <- app_assoc. cbn [app]. split; [exact I1|]. split; [|exists w; split; [exact Hw|now inversion Fw]].
      apply sorted_app_iff in I1 as (_ & S4 & _). apply sorted_cons_iff in S4 as [S4 S6]. apply sorted_app_iff in I2 as (S1 & S2 & S3).
      apply sorted_cons_iff in S2 as [S2 S5]. apply sorted_app_iff. split; [exact S1|]. split.
      - apply sorted_cons_iff. split; [apply sorted_cons_iff; now split|]. intros b [<-|Hb]; [now apply h_lt_le|now apply S5].
      - intros a b Haa [<-|[<-|Hb]]; [apply S3; [exact Haa|now left]| |apply S3; [exact Haa|now right]].
        eapply (h_trans h); [apply S3; [exact Haa|now left]|now apply h_lt_le].
    Qed.

    Lemma merge_hi_end_ok mg r t out k : (H -> inv_hi r t out) -> r = [] \/ (length t <= 1)%nat ->
      (forall mg l, Permutation (whole_hi r t out) l -> (H -> SS l) -> ok (k mg l)) -> ok (merge_hi_end mg r t out k).
    Proof.
      intros I Hc Hk. unfold merge_hi_end. destruct t as [|y [|y' t]].
      - cbn [holds]. destruct HV as [v|h]; [exact v|]. destruct (I h) as (_ & _ & w & [] & _).
      - apply Hk; [unfold whole_hi; cbn [rev app]; symmetry; apply Permutation_middle|]. intro h. destruct (I h) as (I1 & I2 & w & [<-|[]] & Fw).
        apply sorted_cons_iff. split; [exact I1|]. intros b Hb. apply in_app_or in Hb as [Hb|Hb].
        + rewrite Forall_forall in Fw. apply h_lt_le, Fw. now apply in_rev.
        + apply sorted_app_iff in I2 as (_ & _ & S). apply S; [now left|exact Hb].
      - destruct Hc as [->|Hc]; [|cbn in Hc; lia]. apply Hk; [reflexivity|]. intro h. apply (I h).
    Qed.

    Lemma merge_hi_ok k : forall fuel galloping first count mg r t out,
      (length r + length t <= fuel)%nat -> (1 <= length r)%nat -> (2 <= length t)%nat -> incl r from -> incl t from ->
      (H -> inv_hi r t out) ->
      (forall mg l, Permutation (whole_hi r t out) l -> (H -> SS l) -> ok (k mg l)) ->
      ok (merge_hi fuel galloping first count mg r t out k).
    Proof.
      induction fuel as [|fuel IH]; intros galloping first count mg r t out Hf Hr Ht Ir It I Hk; [lia|].
      destruct r as [|x r']; [cbn in Hr; lia|]. destruct t as [|y t']; [cbn in Ht; lia|]. cbn [merge_hi].
      assert (SSr : H -> SS (rev (x :: r'))) by (intro h; destruct (I h) as (I1 & _); now apply StronglySorted_parts in I1).
      assert (SSt : H -> SS (rev (y :: t'))) by (intro h; destruct (I h) as (_ & I2 & _); now apply StronglySorted_parts in I2).
      destruct galloping.
      - set (r := x :: r') in *.
        apply gallop_right_ok; [apply It; now left|intros q Hq; apply Ir; now apply in_rev|exact SSr|rewrite rev_length; cbn; lia|]. intros p1 Hp1 Hs1.
        rewrite rev_length in Hp1. set (c1 := (length r - p1)%nat). set (r1 := skipn c1 r). set (out1 := rev (firstn c1 r) ++ out).
        assert (Er : firstn c1 r ++ r1 = r) by apply firstn_skipn.
        assert (Lr : (length r1 <= length r)%nat) by (unfold r1; rewrite skipn_length; lia).
        assert (I1 : H -> inv_hi r1 (y :: t') out1).
        { intro h. apply (hi_take_r h); [|rewrite Er; now apply I]. destruct (Hs1 h) as [_ F]. rewrite skipn_rev in F. fold c1 in F.
          apply Forall_rev in F. now rewrite rev_involutive in F. }
        assert (Ir1 : incl r1 from) by (intros q Hq; apply Ir; rewrite <- Er; apply in_or_app; now right).
        assert (Hk1 : forall mg l, Permutation (whole_hi r1 (y :: t') out1) l -> (H -> SS l) -> ok (k mg l)).
        { intros mg' l HP. apply Hk. rewrite <- HP, <- Er at 1. apply whole_hi_r. }
        destruct r1 as [|x1 r1'] eqn:Er1; [apply merge_hi_end_ok; auto|]. rewrite <- Er1 in *.
        assert (I2 : H -> inv_hi r1 t' (y :: out1)).
        { intro h. rewrite Er1. apply (hi_take_t h x1 r1' [y] t'); [|rewrite <- Er1; now apply I1]. constructor; [|constructor].
          destruct (Hs1 h) as [F _]. rewrite firstn_rev in F. fold c1 r1 in F. apply Forall_rev in F. rewrite rev_involutive, Er1 in F. now inversion F. }
        assert (Hk2 : forall mg l, Permutation (whole_hi r1 t' (y :: out1)) l -> (H -> SS l) -> ok (k mg l)).
        { intros mg' l HP. apply Hk1. rewrite <- HP. change (y :: t') with ([y] ++ t'). rewrite whole_hi_t. reflexivity. }
        destruct (Nat.eqb_spec (length t') 1) as [E2|E2]; [apply merge_hi_end_ok; auto; right; lia|].
        assert (L2 : (2 <= length t')%nat) by (cbn [length] in Ht; lia).
        assert (It' : incl t' from) by (intros q Hq; apply It; now right).
        apply gallop_left_ok; [apply Ir1; rewrite Er1; now left|intros q Hq; apply It'; now apply in_rev
          |intro h; specialize (SSt h); cbn [rev] in SSt; now apply StronglySorted_parts in SSt|rewrite rev_length; lia|]. intros p2 Hp2 Hs2.
        rewrite rev_length in Hp2. set (c2 := (length t' - p2)%nat). set (t2 := skipn c2 t'). set (out2 := rev (firstn c2 t') ++ y :: out1).
        assert (Et : firstn c2 t' ++ t2 = t') by apply firstn_skipn.
        assert (Lt : length t2 = (length t' - c2)%nat) by apply skipn_length.
        assert (I3 : H -> inv_hi r1 t2 out2).
        { intro h. rewrite Er1. apply (hi_take_t h x1 r1'); [|rewrite Et, <- Er1; now apply I2]. destruct (Hs2 h) as [_ F]. rewrite skipn_rev in F. fold c2 in F.
          apply Forall_rev in F. now rewrite rev_involutive in F. }
        assert (Hk3 : forall mg l, Permutation (whole_hi r1 t2 out2) l -> (H -> SS l) -> ok (k mg l)).
        { intros mg' l HP. apply Hk2. rewrite <- HP. rewrite <- Et at 1. rewrite whole_hi_t. reflexivity. }
        assert (It2 : incl t2 from) by (intros q Hq; apply It'; rewrite <- Et; apply in_or_app; now right).
        destruct (negb (c2 =? 0)%nat && (length t2 <=? 1)%nat) eqn:E3.
        { apply andb_prop in E3 as [_ E3]. apply Nat.leb_le in E3. apply merge_hi_end_ok; auto. }
        assert (L3 : (2 <= length t2)%nat).
        { apply andb_false_iff in E3 as [E3|E3]; [|apply Nat.leb_gt in E3; lia]. apply negb_false_iff, Nat.eqb_eq in E3. lia. }
        destruct t2 as [|y2 t2'] eqn:Et2; [cbn in L3; lia|]. rewrite <- Et2 in *.
        assert (I4 : H -> inv_hi r1' t2 (x1 :: out2)).
        { intro h. rewrite Et2. apply (hi_take_r h [x1] r1' y2 t2'); [|rewrite <- Et2; cbn [app]; rewrite <- Er1; now apply I3].
          constructor; [|constructor]. destruct (Hs2 h) as [F _]. rewrite firstn_rev in F. fold c2 t2 in F. apply Forall_rev in F. rewrite rev_involutive, Et2 in F.
          now inversion F. }
        assert (Hk4 : forall mg l, Permutation (whole_hi r1' t2 (x1 :: out2)) l -> (H -> SS l) -> ok (k mg l)).
        { intros mg' l HP. apply Hk3. rewrite <- HP, Er1. apply (whole_hi_r [x1] r1'). }
        assert (Ir4 : incl r1' from) by (intros q Hq; apply Ir1; rewrite Er1; now right).
        assert (Lr4 : length r1 = S (length r1')) by (rewrite Er1; reflexivity).
        destruct r1' as [|x2 r3]; [apply merge_hi_end_ok; auto|]. cbn [length] in Hf.
        assert (Hf' : (length (x2 :: r3) + length t2 <= fuel)%nat) by (unfold r in *; cbn [length] in *; lia).
        destruct ((MIN_GALLOP <=? c1)%nat || (MIN_GALLOP <=? c2)%nat); apply IH; auto; cbn [length]; lia.
      - cbn [holds]. split; [apply It; now left|]. split; [apply Ir; now left|]. intros z Hz. cbn [length] in *. destruct (Z.ltb_spec z 0) as [E|E].
        + assert (I1 : H -> inv_hi r' (y :: t') (x :: out)).
          { intro h. apply (hi_take_r h [x] r' y t'); [|now apply I]. constructor; [|constructor]. destruct (HH h) as [_ HA]. apply HA in Hz. now subst z. }
          assert (Hk1 : forall mg l, Permutation (whole_hi r' (y :: t') (x :: out)) l -> (H -> SS l) -> ok (k mg l)).
          { intros mg' l HP. apply Hk. rewrite <- HP. apply (whole_hi_r [x] r' (y :: t') out). }
          destruct r' as [|x' r'']; [apply merge_hi_end_ok; auto|]. apply IH; auto; cbn [length] in *; try lia. intros q Hq. apply Ir. now right.
        + assert (I1 : H -> inv_hi (x :: r') t' (y :: out)).
          { intro h. apply (hi_take_t h x r' [y] t'); [|now apply I]. constructor; [|constructor]. destruct (HH h) as [_ HA]. apply HA in Hz. subst z.
            apply h_not_lt; [exact h|lia]. }
          assert (Hk1 : forall mg l, Permutation (whole_hi (x :: r') t' (y :: out)) l -> (H -> SS l) -> ok (k mg l)).
          { intros mg' l HP. apply Hk. rewrite <- HP. change (y :: t') with ([y] ++ t'). rewrite whole_hi_t. reflexivity. }
          destruct (Nat.eqb_spec (length t') 1) as [E4|E4]; [apply merge_hi_end_ok; auto; right; lia|].
          apply IH; auto; cbn [length] in *; try lia. intros q Hq. apply It. now right.
    Qed.

    (** ** Two runs of which the first element of the second and the last element of the first are out of place *)

    Definition crossed (run1 run2 : list path) : Prop :=
      (forall y, hd_error run2 = Some y -> Forall (fun x => g y x < 0) run1) /\ (forall x, hd_error (rev run1) = Some x -> Forall (fun y => g y x < 0) run2).

    Lemma merge_low_ok mg run1 run2 k : run1 <> [] -> run2 <> [] -> incl run1 from -> incl run2 from -> (H -> SS run1 /\ SS run2 /\ crossed run1 run2) ->
      (forall mg l, Permutation (run1 ++ run2) l -> (H -> SS l) -> ok (k mg l)) -> ok (merge_low mg run1 run2 k).
    Proof.
      intros N1 N2 I1 I2 Hs Hk. unfold merge_low. destruct run2 as [|y r]; [congruence|].
      assert (HP : Permutation (run1 ++ y :: r) (y :: run1 ++ r)) by (symmetry; apply Permutation_middle).
      assert (Hlast : exists l x, run1 = l ++ [x]) by (destruct (exists_last N1) as (l & x & E); eauto). destruct Hlast as (l0 & x & El).
      assert (Hy : H -> forall b, In b run1 -> le y b).
      { intros h b Hb. destruct (Hs h) as (_ & _ & C & _). specialize (C y eq_refl). rewrite Forall_forall in C. now apply h_lt_le, C. }
      assert (Hx : H -> Forall (fun y => g y x < 0) (y :: r)).
      { intros h. destruct (Hs h) as (_ & _ & _ & C). apply C. now rewrite El, rev_app_distr. }
      assert (Inv : H -> inv_lo run1 r [y]).
      { intro h. destruct (Hs h) as (S1 & S2 & _). split; [cbn; apply sorted_cons_iff; split; [exact S1|now apply Hy]|]. split; [exact S2|].
        exists x. split; [rewrite El; apply in_or_app; right; now left|]. specialize (Hx h). now inversion Hx. }
      destruct r as [|y' r'].
      { apply Hk; [symmetry; apply Permutation_cons_append|]. intro h. destruct (Inv h) as (S & _). exact S. }
      set (r := y' :: r') in *. destruct (Nat.eqb_spec (length run1) 1) as [E|E].
      - apply Hk; [rewrite HP; constructor; apply Permutation_app_comm|]. intro h. rewrite El, app_length in E. cbn in E.
        assert (l0 = []) as -> by (destruct l0; [reflexivity|cbn in E; lia]). cbn in El. subst run1. destruct (Hs h) as (S1 & S2 & _). specialize (Hx h).
        change (y :: r ++ [x]) with ((y :: r) ++ [x]). apply StronglySorted_snoc; [exact S2|]. eapply Forall_impl; [|exact Hx]. intros a. apply h_lt_le.
      - apply merge_lo_ok; [lia| |cbn; lia|exact I1| |exact Inv|].
        + destruct run1 as [|? [|? ?]]; cbn in *; try congruence; lia.
        + intros q Hq. apply I2. now right.
        + intros mg' l HPl. apply Hk. rewrite HP. exact HPl.
    Qed.

    Lemma merge_high_ok mg run1 run2 k : run1 <> [] -> run2 <> [] -> incl run1 from -> incl run2 from -> (H -> SS run1 /\ SS run2 /\ crossed run1 run2) ->
      (forall mg l, Permutation (run1 ++ run2) l -> (H -> SS l) -> ok (k mg l)) -> ok (merge_high mg run1 run2 k).
    Proof.
      intros N1 N2 I1 I2 Hs Hk. unfold merge_high. destruct (rev run1) as [|x r] eqn:Er; [apply (f_equal (@rev path)) in Er; rewrite rev_involutive in Er; now destruct N1|].
      assert (El : run1 = rev r ++ [x]) by (rewrite <- (rev_involutive run1), Er; reflexivity).
      assert (HP : Permutation (run1 ++ run2) (rev r ++ run2 ++ [x])).
      { rewrite El, <- app_assoc. apply Permutation_app_head, Permutation_app_comm. }
      assert (Hx : H -> Forall (fun y => g y x < 0) run2) by (intro h; destruct (Hs h) as (_ & _ & _ & C); apply C; now rewrite Er).
      assert (Inv : H -> inv_hi r (rev run2) [x]).
      { intro h. destruct (Hs h) as (S1 & S2 & C & _). split; [now rewrite <- El|]. rewrite rev_involutive. split.
        - apply StronglySorted_snoc; [exact S2|]. eapply Forall_impl; [|apply (Hx h)]. intros a. apply h_lt_le.
        - destruct run2 as [|y run2']; [congruence|]. exists y. split; [apply in_rev; rewrite rev_involutive; now left|]. specialize (C y eq_refl).
          rewrite El in C. apply Forall_app in C as [C _]. apply Forall_rev in C. now rewrite rev_involutive in C. }
      destruct r as [|x' r'].
      { apply Hk; [rewrite HP; reflexivity|]. intro h. destruct (Inv h) as (_ & S & _). now rewrite rev_involutive in S. }
      set (r := x' :: r') in *. destruct (Nat.eqb_spec (length run2) 1) as [E|E].
      - apply Hk; [rewrite HP, !app_assoc; apply Permutation_app_tail, Permutation_app_comm|]. intro h. destruct run2 as [|y [|? ?]]; try (cbn in E; lia).
        destruct (Hs h) as (S1 & S2 & C & _). cbn [app]. rewrite <- El. apply sorted_cons_iff. split; [exact S1|]. intros b Hb. specialize (C y eq_refl).
        rewrite Forall_forall in C. now apply h_lt_le, C.
      - apply merge_hi_ok; [rewrite rev_length; lia|cbn; lia| | | |exact Inv|].
        + rewrite rev_length. destruct run2 as [|? [|? ?]]; cbn in *; try congruence; lia.
        + intros q Hq. apply I1. rewrite El. apply in_or_app. left. now apply -> in_rev.
        + intros q Hq. apply I2. now apply in_rev.
        + intros mg' l HPl. apply Hk. rewrite HP, <- HPl. unfold whole_hi. now rewrite rev_involutive.
    Qed.

    Lemma merge_at_ok mg run1 run2 k : run1 <> [] -> run2 <> [] -> incl run1 from -> incl run2 from -> (H -> SS run1 /\ SS run2) ->
      (forall mg l, Permutation (run1 ++ run2) l -> (H -> SS l) -> ok (k mg l)) -> ok (merge_at mg run1 run2 k).
    Proof.
      intros N1 N2 I1 I2 Hs Hk. unfold merge_at. destruct run2 as [|y r]; [congruence|]. set (run2 := y :: r) in *.
      apply gallop_right_ok; [apply I2; now left|exact I1|intro h; apply (Hs h)|destruct run1; [congruence|cbn; lia]|]. intros i Hi Hs1.
      set (pre := firstn i run1) in *. set (rest1 := skipn i run1) in *.
      assert (E1 : pre ++ rest1 = run1) by apply firstn_skipn.
      assert (Hy : H -> forall b, In b run2 -> le y b).
      { intros h b [<-|Hb]; [now apply h_refl|]. destruct (Hs h) as (_ & S). apply sorted_cons_iff in S as [_ S]. now apply S. }
      destruct rest1 as [|x0 rest1'] eqn:Er1.
      { apply Hk; [reflexivity|]. intro h. destruct (Hs h) as [S1 S2]. apply sorted_app_iff. split; [exact S1|]. split; [exact S2|].
        intros a b Haa Hb. rewrite app_nil_r in E1. destruct (Hs1 h) as [F _]. rewrite E1, Forall_forall in F. eapply (h_trans h); [apply F, Haa|now apply Hy]. }
      rewrite <- Er1 in *. assert (N3 : rest1 <> []) by (rewrite Er1; discriminate). set (x := last rest1 x0).
      assert (Ex : rest1 = removelast rest1 ++ [x]) by (now apply app_removelast_last).
      assert (Hxin : In x rest1) by (rewrite Ex; apply in_or_app; right; now left).
      assert (I3 : incl rest1 from) by (intros q Hq; apply I1; rewrite <- E1; apply in_or_app; now right).
      assert (Hx : H -> forall b, In b run1 -> le b x).
      { intros h b Hb. destruct (Hs h) as [S1 _]. rewrite <- E1, Ex in S1, Hb. rewrite app_assoc in S1, Hb. apply in_app_or in Hb as [Hb|[<-|[]]]; [|now apply h_refl].
        apply sorted_app_iff in S1 as (_ & _ & S1). apply S1; [exact Hb|now left]. }
      apply gallop_left_ok; [apply I3, Hxin|exact I2|intro h; apply (Hs h)|unfold run2; cbn; lia|]. intros len2 Hl Hs2.
      destruct (Nat.eqb_spec len2 0) as [E0|E0].
      { apply Hk; [reflexivity|]. intro h. destruct (Hs h) as [S1 S2]. apply sorted_app_iff. split; [exact S1|]. split; [exact S2|].
        intros a b Haa Hb. destruct (Hs2 h) as [_ F]. subst len2. cbn [skipn] in F. rewrite Forall_forall in F. eapply (h_trans h); [apply Hx; [exact h|exact Haa]|now apply F]. }
      set (mid := firstn len2 run2) in *. set (suf := skipn len2 run2) in *.
      assert (E2 : mid ++ suf = run2) by apply firstn_skipn.
      assert (I4 : incl mid from) by (intros q Hq; apply I2; rewrite <- E2; apply in_or_app; now left).
      assert (Hmid : exists mid', mid = y :: mid') by (unfold mid, run2; destruct len2 as [|n]; [congruence|cbn; eauto]). destruct Hmid as (mid' & Em).
      assert (N4 : mid <> []) by (rewrite Em; discriminate).
      assert (Hpre : H -> SS rest1 /\ SS mid /\ crossed rest1 mid).
      { intro h. destruct (Hs h) as [S1 S2]. rewrite <- E1 in S1. rewrite <- E2 in S2. apply StronglySorted_parts in S1 as [_ S1]. apply StronglySorted_parts in S2 as [S2 _].
        split; [exact S1|]. split; [exact S2|]. split.
        - intros y' Ey. rewrite Em in Ey. injection Ey as <-. apply (Hs1 h).
        - intros x' Ex'. rewrite Ex, rev_app_distr in Ex'. injection Ex' as <-. apply (Hs2 h). }
      assert (Hpost : forall mg l, Permutation (rest1 ++ mid) l -> (H -> SS l) -> ok (k mg (pre ++ l ++ suf))).
      { intros mg' l HP HS. apply Hk; [rewrite <- HP, <- E1, <- E2, <- !app_assoc; reflexivity|]. intro h. destruct (Hs h) as [S1 S2].
        rewrite <- E1 in S1. rewrite <- E2 in S2. apply sorted_app_iff in S1 as (S1 & _ & S3). apply sorted_app_iff in S2 as (_ & S2 & S4).
        assert (Hl' : forall q, In q l -> In q rest1 \/ In q mid) by (intros q Hq; apply in_app_or; eapply Permutation_in; [symmetry; exact HP|exact Hq]).
        assert (Hpre2 : forall a b, In a pre -> In b run2 -> le a b).
        { intros a b Haa Hb. destruct (Hs1 h) as [F _]. rewrite Forall_forall in F. eapply (h_trans h); [apply F, Haa|now apply Hy]. }
        assert (Hsuf : forall a b, In a run1 -> In b suf -> le a b).
        { intros a b Haa Hb. destruct (Hs2 h) as [_ F]. rewrite Forall_forall in F. eapply (h_trans h); [apply Hx; [exact h|exact Haa]|now apply F]. }
        apply sorted_app_iff. split; [exact S1|]. split.
        - apply sorted_app_iff. split; [now apply HS|]. split; [exact S2|]. intros a b Haa Hb. destruct (Hl' a Haa) as [Hq|Hq]; [|now apply S4].
          apply Hsuf; [rewrite <- E1; apply in_or_app; now right|exact Hb].
        - intros a b Haa Hb. apply in_app_or in Hb as [Hb|Hb].
          + destruct (Hl' b Hb) as [Hq|Hq]; [now apply S3|]. apply Hpre2; [exact Haa|]. rewrite <- E2. apply in_or_app. now left.
          + apply Hpre2; [exact Haa|]. rewrite <- E2. apply in_or_app. now right. }
      destruct (length rest1 <=? len2)%nat; [now apply merge_low_ok|now apply merge_high_ok].
    Qed.

    (** ** The stack of runs *)

    Definition runs_ok (stack : list (list path)) : Prop := Forall (fun run => run <> [] /\ incl run from /\ (H -> SS run)) stack.

    Lemma merged_ok (run1 run2 l : list path) : run1 <> [] -> incl run1 from -> incl run2 from -> Permutation (run1 ++ run2) l -> l <> [] /\ incl l from.
    Proof.
      intros N I1 I2 HP. split.
      - intros ->. symmetry in HP. apply Permutation_nil in HP. apply app_eq_nil in HP as [? _]. contradiction.
      - intros q Hq. eapply Permutation_in in Hq; [|symmetry; exact HP]. apply in_app_or in Hq as [Hq|Hq]; auto.
    Qed.

    Lemma merge_collapse_ok k : forall fuel mg stack, (length stack <= S fuel)%nat -> stack <> [] -> runs_ok stack ->
      (forall mg stack', stack' <> [] -> runs_ok stack' -> Permutation (concat stack) (concat stack') -> ok (k mg stack')) ->
      ok (merge_collapse fuel mg stack k).
    Proof.
      induction fuel as [|fuel IH]; intros mg stack Hf Hne HR Hk.
      { destruct stack as [|run2 [|run1 below]]; cbn [merge_collapse]; try (now apply Hk). cbn in Hf. lia. }
      destruct stack as [|run2 [|run1 below]]; cbn [merge_collapse]; try (now apply Hk).
      assert (HR' := HR). unfold runs_ok in HR'. apply Forall_cons_iff in HR' as [(N2 & I2 & S2) HR']. apply Forall_cons_iff in HR' as [(N1 & I1 & S1) HR0].
      assert (Hlast : ok (merge_at mg run1 run2 (fun mg run => merge_collapse fuel mg (run :: below) k))).
      { apply merge_at_ok; auto. intros mg' l HP HS. destruct (merged_ok _ _ _ N1 I1 I2 HP) as [N I]. apply IH; [cbn in *; lia|discriminate| |].
        - constructor; [now repeat split|exact HR0].
        - intros mg'' st N' R' HP'. apply Hk; auto. rewrite <- HP'. cbn [concat]. rewrite app_assoc. apply Permutation_app_tail. rewrite <- HP. apply Permutation_app_comm. }
      destruct below as [|run0 below'].
      { destruct (length run2 <? length run1)%nat; [now apply Hk|exact Hlast]. }
      destruct (_ || _).
      2: { destruct (length run2 <? length run1)%nat; [now apply Hk|exact Hlast]. }
      destruct (length run0 <? length run2)%nat; [|exact Hlast].
      apply Forall_cons_iff in HR0 as [(N0 & I0 & S0) HR0]. apply merge_at_ok; auto. intros mg' l HP HS. destruct (merged_ok _ _ _ N0 I0 I1 HP) as [N I].
      apply IH; [cbn in *; lia|discriminate| |].
      - constructor; [now repeat split|]. constructor; [now repeat split|exact HR0].
      - intros mg'' st N' R' HP'. apply Hk; auto. rewrite <- HP'. cbn [concat]. apply Permutation_app_head. rewrite app_assoc. apply Permutation_app_tail. rewrite <- HP.
        apply Permutation_app_comm.
    Qed.

    Lemma merge_force_ok k : forall fuel mg stack, (length stack <= S fuel)%nat -> stack <> [] -> runs_ok stack ->
      (forall l, Permutation (concat stack) l -> (H -> SS l) -> ok (k l)) ->
      ok (merge_force_collapse fuel mg stack k).
    Proof.
      induction fuel as [|fuel IH]; intros mg stack Hf Hne HR Hk.
      { destruct stack as [|run2 [|run1 below]]; [congruence| |cbn in Hf; lia]. cbn [merge_force_collapse]. apply Forall_cons_iff in HR as [(_ & _ & S) _].
        apply Hk; [cbn; now rewrite app_nil_r|exact S]. }
      destruct stack as [|run2 [|run1 below]]; [congruence| |].
      { cbn [merge_force_collapse]. apply Forall_cons_iff in HR as [(_ & _ & S) _]. apply Hk; [cbn; now rewrite app_nil_r|exact S]. }
      cbn [merge_force_collapse].
      apply Forall_cons_iff in HR as [(N2 & I2 & S2) HR]. apply Forall_cons_iff in HR as [(N1 & I1 & S1) HR0].
      assert (Hlast : ok (merge_at mg run1 run2 (fun mg run => merge_force_collapse fuel mg (run :: below) k))).
      { apply merge_at_ok; auto. intros mg' l HP HS. destruct (merged_ok _ _ _ N1 I1 I2 HP) as [N I]. apply IH; [cbn in *; lia|discriminate| |].
        - constructor; [now repeat split|exact HR0].
        - intros l' HP'. apply Hk. rewrite <- HP'. cbn [concat]. rewrite app_assoc. apply Permutation_app_tail. rewrite <- HP. apply Permutation_app_comm. }
      destruct below as [|run0 below']; [exact Hlast|]. destruct (length run0 <? length run2)%nat; [|exact Hlast].
      apply Forall_cons_iff in HR0 as [(N0 & I0 & S0) HR0]. apply merge_at_ok; auto. intros mg' l HP HS. destruct (merged_ok _ _ _ N0 I0 I1 HP) as [N I].
      apply IH; [cbn in *; lia|discriminate| |].
      - constructor; [now repeat split|]. constructor; [now repeat split|exact HR0].
      - intros l' HP'. apply Hk. rewrite <- HP'. cbn [concat]. apply Permutation_app_head. rewrite app_assoc. apply Permutation_app_tail. rewrite <- HP.
        apply Permutation_app_comm.
    Qed.

    Lemma sort_runs_ok min_run : forall fuel mg stack rest, (length rest <= fuel)%nat -> rest <> [] -> incl rest from -> runs_ok stack ->
      (forall l, Permutation (concat stack ++ rest) l -> (H -> SS l) -> P l) ->
      ok (sort_runs fuel min_run mg stack rest).
    Proof.
      induction fuel as [|fuel IH]; intros mg stack rest Hf Hne I HR HP; [destruct rest; cbn in *; [congruence|lia]|]. cbn [sort_runs].
      apply count_run_ok; [exact I|]. intros run rest1 P1 N1 S1. specialize (N1 Hne).
      assert (Iall : incl (run ++ rest1) from) by (intros q Hq; apply I; eapply Permutation_in; [symmetry; exact P1|exact Hq]).
      set (more := (min_run - length run)%nat). assert (E1 : firstn more rest1 ++ skipn more rest1 = rest1) by apply firstn_skipn.
      set (r1 := firstn more rest1) in *. set (r2 := skipn more rest1) in *.
      apply binary_sort_ok; [|exact S1|].
      { intros q Hq. apply Iall. rewrite <- E1, app_assoc. apply in_or_app. now left. }
      intros run' P2 S2. assert (I2 : incl run' from).
      { intros q Hq. apply Iall. rewrite <- E1, app_assoc. apply in_or_app. left. eapply Permutation_in; [symmetry; exact P2|exact Hq]. }
      assert (N2 : run' <> []).
      { intros ->. symmetry in P2. apply Permutation_nil in P2. apply app_eq_nil in P2 as [? _]. contradiction. }
      assert (PP : Permutation (concat stack ++ rest) ((run' ++ concat stack) ++ r2)).
      { rewrite P1, <- E1, <- P2. replace (concat stack ++ run ++ r1 ++ r2) with ((concat stack ++ run ++ r1) ++ r2) by (now rewrite <- !app_assoc).
        apply Permutation_app_tail, Permutation_app_comm. }
      apply merge_collapse_ok; [cbn; lia|discriminate|constructor; [now repeat split|exact HR]|]. intros mg' st N' R' PC. cbn [concat] in PC.
      destruct r2 as [|z r2'] eqn:Er2.
      - apply merge_force_ok; [lia|exact N'|exact R'|]. intros l PL SL. cbn [holds]. apply HP; [|exact SL]. rewrite PP, app_nil_r, PC. exact PL.
      - rewrite <- Er2 in *. apply IH; [|rewrite Er2; discriminate| |exact R'|].
        + assert (L : (length rest = length run + (length r1 + length r2))%nat) by (rewrite <- app_length, E1, <- app_length; now apply Permutation_length).
          destruct run; [congruence|]. cbn [length] in L. lia.
        + intros q Hq. apply Iall. rewrite <- E1. apply in_or_app. right. apply in_or_app. now right.
        + intros l PL. apply HP. rewrite PP, <- PL. apply Permutation_app_tail. exact PC.
    Qed.
  End Merge.

  Lemma short_ok l : incl l from -> (forall l', Permutation l l' -> (H -> SS l') -> P l') ->
    ok (count_run l (fun run rest => binary_sort run rest Sorted)).
  Proof.
    intros I HP. apply count_run_ok; [exact I|]. intros run rest P1 _ S1. apply binary_sort_ok; [|exact S1|].
    - intros q Hq. apply I. eapply Permutation_in; [symmetry; exact P1|exact Hq].
    - intros l' P2 S2. cbn [holds]. apply HP; [now rewrite P1|exact S2].
  Qed.

  Lemma tim_sort_ok l : (V \/ H \/ (length l < 32)%nat) -> incl l from -> (forall l', Permutation l l' -> (H -> SS l') -> P l') -> ok (tim_sort l).
  Proof.
    intros HV I HP. unfold tim_sort. destruct (Nat.ltb_spec (length l) MIN_MERGE) as [L|L]; [now apply short_ok|].
    apply sort_runs_ok; [destruct HV as [v|[h|F]]; [now left|now right|unfold MIN_MERGE in L; lia]|lia| |exact I|constructor|exact HP].
    intros ->. cbn in L. unfold MIN_MERGE in L. lia.
  Qed.
End Tim.
