(** * How many comparisons the sort makes: lemmas for C181 *)

From Coq Require Import Lia Arith.
From Verif Require Import Sorts.
Open Scope nat_scope.

(** At most [n] comparisons, whatever they answer. *)
Fixpoint costs (n : nat) (s : sorting) {struct s} : Prop :=
  match s with
  | Compare _ _ k => match n with O => False | S n => forall z, costs n (k z) end
  | _ => True
  end.

Lemma costs_more s : forall n m, costs n s -> n <= m -> costs m s.
Proof.
  induction s as [l| | |a b k IH]; intros n m H L; try exact I. destruct n as [|n]; [destruct H|]. destruct m as [|m]; [lia|].
  cbn [costs] in *. intro z. apply (IH z n); [apply H|lia].
Qed.

Lemma costs_compare T a b k : 1 <= T -> (forall z, costs (T - 1) (k z)) -> costs T (Compare a b k).
Proof. intros L H. destruct T as [|T]; [lia|]. cbn [costs]. intro z. specialize (H z). replace (S T - 1) with T in H by lia. exact H. Qed.

(** [s] can be afforded after [c] comparisons out of [T]. *)
Definition affords (T c : nat) (s : sorting) : Prop := exists b, costs b s /\ b + c <= T.

Lemma affords_costs T c s : affords T c s -> costs T s.
Proof. intros (b & H & L). eapply costs_more; [exact H|lia]. Qed.
Lemma affords_less T c T' c' s : affords T c s -> c' + T <= T' + c -> affords T' c' s.
Proof. intros (b & H & L) L'. exists b. split; [exact H|lia]. Qed.
Lemma affords_here T c s : c <= T -> costs (T - c) s -> affords T c s.
Proof. intros L H. exists (T - c). split; [exact H|lia]. Qed.

Lemma affords_compare T c a b k : (forall z, affords T (c + 1) (k z)) -> affords T c (Compare a b k).
Proof.
  intro H. assert (L : c + 1 <= T) by (destruct (H 0%Z) as (b0 & _ & L); lia). exists (T - c). split; [|lia]. apply costs_compare; [lia|].
  intro z. destruct (H z) as (b0 & Hb & L0). eapply costs_more; [exact Hb|lia].
Qed.

(** ** Runs and insertions *)

Lemma extend_run_cost T d k : forall rest last run c,
  (forall run' rest', length run' + length rest' = length run + length rest -> length run <= length run' -> affords T (c + (length run' - length run) + 1) (k run' rest')) ->
  affords T c (extend_run d last run rest k).
Proof.
  induction rest as [|x rest IH]; intros last run c H; cbn [extend_run].
  - eapply affords_less; [apply (H run []); reflexivity|lia].
  - apply affords_compare. intro z. destruct (Bool.eqb _ _).
    + apply IH. intros run' rest' E L. cbn [length] in *. eapply affords_less; [apply (H run' rest'); lia|lia].
    + eapply affords_less; [apply (H run (x :: rest)); reflexivity|lia].
Qed.

Lemma count_run_cost T c l k :
  (forall run rest, length run + length rest = length l -> (l <> [] -> run <> []) -> affords T (c + length run) (k run rest)) -> affords T c (count_run l k).
Proof.
  intro H. destruct l as [|x [|y l]]; cbn [count_run].
  - eapply affords_less; [apply (H [] []); auto|cbn; lia].
  - eapply affords_less; [apply (H [x] []); [reflexivity|discriminate]|cbn; lia].
  - apply affords_compare. intro z. apply extend_run_cost. intros run' rest' E L. cbn [length] in *.
    set (run := if (z <? 0)%Z then run' else rev run').
    assert (El : length run = length run') by (unfold run; destruct (z <? 0)%Z; [reflexivity|apply rev_length]).
    eapply affords_less; [apply (H run rest'); [lia|]|lia]. intros _ E0. rewrite E0 in El. cbn in El. lia.
Qed.

Lemma halves a b : a < b -> a <= Nat.div2 (a + b) < b /\ 2 * Nat.div2 (a + b) <= a + b < 2 * Nat.div2 (a + b) + 2.
Proof. intro L. rewrite Nat.div2_div. pose proof (Nat.div_mod (a + b) 2). pose proof (Nat.mod_upper_bound (a + b) 2). lia. Qed.

Lemma locate_cost T pivot l k : forall fuel left right j c, left <= right -> right - left < 2 ^ j ->
  (forall i, affords T (c + j) (k i)) -> affords T c (locate fuel pivot l left right k).
Proof.
  induction fuel as [|fuel IH]; intros left right j c L Hj H; cbn [locate].
  - destruct (left <? right)%nat; [|eapply affords_less; [apply H|lia]]. exists 0. split; [exact I|]. destruct (H 0) as (b & _ & Lb). lia.
  - destruct (left <? right)%nat eqn:E; [|eapply affords_less; [apply H|lia]]. apply Nat.ltb_lt in E.
    destruct j as [|j]; [cbn in Hj; lia|]. destruct (halves left right E) as [Hm Hm2]. apply affords_compare. intro z. cbn [Nat.pow] in Hj.
    destruct (z <? 0)%Z; apply IH with (j := j); try lia; intro i; (eapply affords_less; [apply H|lia]).
Qed.

Lemma inserted_length A (l : list A) i x : length (firstn i l ++ x :: skipn i l) = S (length l).
Proof. rewrite app_length. cbn. rewrite <- (firstn_skipn i l) at 3. rewrite app_length. lia. Qed.

Lemma binary_sort_cost T j k : forall rest l c, rest = [] \/ length l + length rest <= 2 ^ j ->
  (forall l', length l' = length l + length rest -> affords T (c + j * length rest) (k l')) -> affords T c (binary_sort l rest k).
Proof.
  induction rest as [|p rest IH]; intros l c Hj H; cbn [binary_sort].
  - eapply affords_less; [apply H; cbn; lia|lia].
  - destruct Hj as [Hj|Hj]; [discriminate|]. cbn [length] in *. apply locate_cost with (j := j); [lia|lia|]. intro i.
    apply IH; [right; rewrite inserted_length; lia|]. intros l' El. rewrite inserted_length in El. eapply affords_less; [apply H; lia|lia].
Qed.

(** ** Galloping *)

Lemma gallop_between_cost T right key a k : forall fuel low ofs c, low <= ofs ->
  (forall i, low <= i <= ofs -> affords T (c + (ofs - low)) (k i)) -> affords T c (gallop_between fuel right key a low ofs k).
Proof.
  induction fuel as [|fuel IH]; intros low ofs c L H; cbn [gallop_between].
  - destruct (low <? ofs)%nat; [|eapply affords_less; [apply H; lia|lia]]. exists 0. split; [exact I|]. destruct (H low) as (b & _ & Lb); lia.
  - destruct (low <? ofs)%nat eqn:E; [|eapply affords_less; [apply H; lia|lia]]. apply Nat.ltb_lt in E.
    assert (Hm : Nat.div2 (ofs - low) < ofs - low) by (apply Nat.lt_div2; lia).
    apply affords_compare. intro z. destruct (right z); apply IH; try lia; intros i Hi; (eapply affords_less; [apply H; lia|lia]).
Qed.

Lemma gallop_away_cost T goes key a at_ max k : forall fuel last ofs c, last < max -> ofs = 2 * last + 1 ->
  (forall last' ofs' x, last <= last' -> last' < ofs' <= max -> ofs' <= 2 * last' + 1 -> x <= 1 -> (ofs' = max -> x = 0) ->
     affords T (c + (last' - last) + x) (k last' ofs')) ->
  affords T c (gallop_away fuel goes key a at_ max last ofs k).
Proof.
  induction fuel as [|fuel IH]; intros last ofs c Lm -> H; cbn [gallop_away].
  - destruct (_ <? max)%nat eqn:E.
    + exists 0. split; [exact I|]. apply Nat.ltb_lt in E. destruct (H last (2 * last + 1) 0) as (b & _ & Lb); lia.
    + apply Nat.ltb_ge in E. eapply affords_less; [apply (H last max 0); lia|lia].
  - destruct (_ <? max)%nat eqn:E.
    + apply Nat.ltb_lt in E. apply affords_compare. intro z. destruct (goes z).
      * apply IH; [lia|lia|]. intros last' ofs' x L1 L2 L3 L4 L5. eapply affords_less; [apply (H last' ofs' x); lia|lia].
      * eapply affords_less; [apply (H last (2 * last + 1) 1); lia|lia].
    + apply Nat.ltb_ge in E. eapply affords_less; [apply (H last max 0); lia|lia].
Qed.

Lemma gallop_lo_cost T right key a k c : a <> [] -> (forall i, i <= length a -> affords T (c + 2 * i + 1) (k i)) -> affords T c (gallop right key a 0 k).
Proof.
  intros Ha H. assert (La : 0 < length a) by (destruct a; [congruence|cbn; lia]). unfold gallop. apply affords_compare. intro z.
  destruct (right z); (apply gallop_away_cost; [lia|lia|]); intros last ofs x L1 L2 L3 L4 L5; (apply gallop_between_cost; [lia|]);
    intros i Hi; (eapply affords_less; [apply H; lia|lia]).
Qed.

Lemma gallop_hi_cost T right key a k c : a <> [] -> (forall i, i <= length a -> affords T (c + 2 * (length a - i) + 1) (k i)) -> affords T c (gallop right key a (length a - 1) k).
Proof.
  intros Ha H. assert (La : 0 < length a) by (destruct a; [congruence|cbn; lia]). unfold gallop. apply affords_compare. intro z.
  destruct (right z); (apply gallop_away_cost; [lia|lia|]); intros last ofs x L1 L2 L3 L4 L5; (apply gallop_between_cost; [lia|]);
    intros i Hi; (eapply affords_less; [apply H; lia|lia]).
Qed.

(** ** Merging *)

Ltac lens := repeat (rewrite ?app_length, ?rev_length, ?firstn_length, ?skipn_length in *; cbn [length] in * ).

Lemma merge_lo_end_cost T c mg t r out k : r = [] \/ length t <= 1 ->
  (forall mg l, length l = length out + length t + length r -> affords T c (k mg l)) -> c <= T -> affords T c (merge_lo_end mg t r out k).
Proof.
  intros Hr H L. destruct t as [|x [|x' t]]; cbn [merge_lo_end].
  - apply affords_here; [exact L|exact I].
  - apply H. lens. lia.
  - destruct Hr as [->|Hr]; [|cbn in Hr; lia]. apply H. lens. lia.
Qed.

Lemma merge_hi_end_cost T c mg r t out k : r = [] \/ length t <= 1 ->
  (forall mg l, length l = length out + length t + length r -> affords T c (k mg l)) -> c <= T -> affords T c (merge_hi_end mg r t out k).
Proof.
  intros Hr H L. destruct t as [|x [|x' t]]; cbn [merge_hi_end].
  - apply affords_here; [exact L|exact I].
  - apply H. lens. lia.
  - destruct Hr as [->|Hr]; [|cbn in Hr; lia]. apply H. lens. lia.
Qed.

Lemma affords_exhausted T c : c <= T -> affords T c Exhausted.
Proof. intro L. apply affords_here; [exact L|exact I]. Qed.

Lemma merge_lo_cost T k : forall fuel g first count mg t r out c, 2 <= length t -> 1 <= length r -> c + 2 * (length t + length r) <= T ->
  (forall mg l, length l = length out + length t + length r -> affords T (c + 2 * (length t + length r)) (k mg l)) ->
  affords T c (merge_lo fuel g first count mg t r out k).
Proof.
  induction fuel as [|fuel IH]; intros g first count mg t r out c Ht Hr LT H; [apply affords_exhausted; lia|].
  destruct t as [|x t']; [cbn in Ht; lia|]. destruct r as [|y r']; [cbn in Hr; lia|]. cbn [merge_lo]. destruct g.
  - apply gallop_lo_cost; [discriminate|]. intros c1 L1.
    remember (x :: t') as t eqn:Et. clear Et.
    assert (E1 : length (skipn c1 t) = length t - c1) by apply skipn_length. assert (F1 : length (firstn c1 t) = c1) by (rewrite firstn_length; lia).
    destruct (negb (c1 =? 0)%nat && (length (skipn c1 t) <=? 1)%nat) eqn:Eb.
    { apply andb_prop in Eb as [_ Eb]. apply Nat.leb_le in Eb. apply merge_lo_end_cost; [now right| |lens; lia].
      intros mg' l El. eapply affords_less; [apply H; lens; lia|lens; lia]. }
    assert (Eb' : c1 = 0 \/ 2 <= length (skipn c1 t)).
    { apply Bool.andb_false_iff in Eb as [Eb|Eb]; [left; apply Bool.negb_false_iff in Eb; now apply Nat.eqb_eq in Eb|right; apply Nat.leb_gt in Eb; lia]. }
    assert (T2 : 2 <= length (skipn c1 t)) by (destruct Eb' as [->|?]; [cbn; lia|assumption]). clear Eb Eb'.
    destruct r' as [|y' r'].
    { apply merge_lo_end_cost; [now left| |lens; lia]. intros mg' l El. eapply affords_less; [apply H; lens; lia|lens; lia]. }
    apply gallop_lo_cost; [discriminate|]. intros c2 L2.
    remember (y' :: r') as r2 eqn:Er. 
    assert (Lr : length (y :: y' :: r') = S (length r2)) by (subst r2; reflexivity). rewrite <- Er in *. clear Er.
    assert (E2 : length (skipn c2 r2) = length r2 - c2) by apply skipn_length. assert (F2 : length (firstn c2 r2) = c2) by (rewrite firstn_length; lia).
    set (t2 := skipn c1 t) in *. destruct (skipn c2 r2) as [|y2 r3] eqn:Es.
    { apply merge_lo_end_cost; [now left| |lens; lia]. intros mg' l El. eapply affords_less; [apply H; lens; lia|lens; lia]. }
    assert (Etl : length (tl t2) = length t2 - 1) by (destruct t2; cbn; lia).
    destruct (length (tl t2) =? 1)%nat eqn:E3.
    { apply Nat.eqb_eq in E3. apply merge_lo_end_cost; [right; lia| |lens; lia]. intros mg' l El. eapply affords_less; [apply H; lens; lia|lens; lia]. }
    apply Nat.eqb_neq in E3. destruct (_ || _); apply IH; try (lens; lia); intros mg' l El; (eapply affords_less; [apply H; lens; lia|lens; lia]).
  - apply affords_compare. intro z. destruct (z <? 0)%Z.
    + destruct r' as [|y' r'].
      * apply merge_lo_end_cost; [now left| |lens; lia]. intros mg' l El. eapply affords_less; [apply H; lens; lia|lens; lia].
      * apply IH; try (lens; lia). intros mg' l El. eapply affords_less; [apply H; lens; lia|lens; lia].
    + destruct (length t' =? 1)%nat eqn:E3.
      * apply Nat.eqb_eq in E3. apply merge_lo_end_cost; [right; lia| |lens; lia]. intros mg' l El. eapply affords_less; [apply H; lens; lia|lens; lia].
      * apply Nat.eqb_neq in E3. apply IH; try (lens; lia). intros mg' l El. eapply affords_less; [apply H; lens; lia|lens; lia].
Qed.

Lemma merge_hi_cost T k : forall fuel g first count mg r t out c, 2 <= length t -> 1 <= length r -> c + 2 * (length t + length r) <= T ->
  (forall mg l, length l = length out + length t + length r -> affords T (c + 2 * (length t + length r)) (k mg l)) ->
  affords T c (merge_hi fuel g first count mg r t out k).
Proof.
  induction fuel as [|fuel IH]; intros g first count mg r t out c Ht Hr LT H; [apply affords_exhausted; lia|].
  destruct t as [|y t']; [cbn in Ht; lia|]. destruct r as [|x r']; [cbn in Hr; lia|]. cbn [merge_hi]. destruct g.
  - remember (x :: r') as r eqn:Er. assert (Hne : rev r <> []) by (subst r; cbn; now destruct (rev r')). clear Er.
    replace (length r - 1) with (length (rev r) - 1) by (now rewrite rev_length). apply gallop_hi_cost; [exact Hne|]. intros p1 L1. rewrite rev_length in *.
    set (c1 := length r - p1) in *. assert (L1' : c1 <= length r) by (unfold c1; lia).
    assert (E1 : length (skipn c1 r) = length r - c1) by apply skipn_length. assert (F1 : length (firstn c1 r) = c1) by (rewrite firstn_length; lia).
    clearbody c1. clear p1 L1. destruct (skipn c1 r) as [|x1 r1] eqn:Es1.
    { apply merge_hi_end_cost; [now left| |lens; lia]. intros mg' l El. eapply affords_less; [apply H; lens; lia|lens; lia]. }
    destruct (length t' =? 1)%nat eqn:E3.
    { apply Nat.eqb_eq in E3. apply merge_hi_end_cost; [right; lia| |lens; lia]. intros mg' l El. eapply affords_less; [apply H; lens; lia|lens; lia]. }
    apply Nat.eqb_neq in E3. assert (Hne' : rev t' <> []) by (intro E0; apply (f_equal (@length _)) in E0; rewrite rev_length in E0; cbn in *; lia).
    replace (length t' - 1) with (length (rev t') - 1) by (now rewrite rev_length). apply gallop_hi_cost; [exact Hne'|]. intros p2 L2. rewrite rev_length in *.
    set (c2 := length t' - p2) in *. assert (L2' : c2 <= length t') by (unfold c2; lia).
    assert (E2 : length (skipn c2 t') = length t' - c2) by apply skipn_length. assert (F2 : length (firstn c2 t') = c2) by (rewrite firstn_length; lia).
    clearbody c2. clear p2 L2. set (t2 := skipn c2 t') in *.
    destruct (negb (c2 =? 0)%nat && (length t2 <=? 1)%nat) eqn:Eb.
    { apply andb_prop in Eb as [_ Eb]. apply Nat.leb_le in Eb. apply merge_hi_end_cost; [now right| |lens; lia].
      intros mg' l El. eapply affords_less; [apply H; lens; lia|lens; lia]. }
    assert (T2 : 2 <= length t2).
    { apply Bool.andb_false_iff in Eb as [Eb|Eb]; [apply Bool.negb_false_iff in Eb; apply Nat.eqb_eq in Eb; subst c2; cbn in *; lia|apply Nat.leb_gt in Eb; lia]. }
    clear Eb. clearbody t2. destruct r1 as [|x2 r1].
    { apply merge_hi_end_cost; [now left| |lens; lia]. intros mg' l El. eapply affords_less; [apply H; lens; lia|lens; lia]. }
    destruct (_ || _); apply IH; try (lens; lia); intros mg' l El; (eapply affords_less; [apply H; lens; lia|lens; lia]).
  - apply affords_compare. intro z. destruct (z <? 0)%Z.
    + destruct r' as [|x' r'].
      * apply merge_hi_end_cost; [now left| |lens; lia]. intros mg' l El. eapply affords_less; [apply H; lens; lia|lens; lia].
      * apply IH; try (lens; lia). intros mg' l El. eapply affords_less; [apply H; lens; lia|lens; lia].
    + destruct (length t' =? 1)%nat eqn:E3.
      * apply Nat.eqb_eq in E3. apply merge_hi_end_cost; [right; lia| |lens; lia]. intros mg' l El. eapply affords_less; [apply H; lens; lia|lens; lia].
      * apply Nat.eqb_neq in E3. apply IH; try (lens; lia). intros mg' l El. eapply affords_less; [apply H; lens; lia|lens; lia].
Qed.

Lemma merge_low_cost T c mg run1 run2 k : run1 <> [] -> run2 <> [] -> c + 2 * (length run1 + length run2) - 2 <= T ->
  (forall mg l, length l = length run1 + length run2 -> affords T (c + 2 * (length run1 + length run2) - 2) (k mg l)) -> affords T c (merge_low mg run1 run2 k).
Proof.
  intros H1 H2 LT H. unfold merge_low. destruct run2 as [|y [|y' r]]; [congruence| |].
  - eapply affords_less; [apply H; lens; lia|lens; lia].
  - assert (L1 : 1 <= length run1) by (destruct run1; [congruence|cbn; lia]).
    destruct (length run1 =? 1)%nat eqn:E; [eapply affords_less; [apply H; lens; lia|lens; lia]|]. apply Nat.eqb_neq in E.
    apply merge_lo_cost; try (lens; lia). intros mg' l El. eapply affords_less; [apply H; lens; lia|lens; lia].
Qed.

Lemma merge_high_cost T c mg run1 run2 k : run1 <> [] -> run2 <> [] -> c + 2 * (length run1 + length run2) - 2 <= T ->
  (forall mg l, length l = length run1 + length run2 -> affords T (c + 2 * (length run1 + length run2) - 2) (k mg l)) -> affords T c (merge_high mg run1 run2 k).
Proof.
  intros H1 H2 LT H. unfold merge_high. assert (L1 : length (rev run1) = length run1) by apply rev_length.
  assert (L2 : 1 <= length run2) by (destruct run2; [congruence|cbn; lia]). assert (L3 : 1 <= length run1) by (destruct run1; [congruence|cbn; lia]).
  destruct (rev run1) as [|x [|x' r]].
  - cbn in L1. lia.
  - eapply affords_less; [apply H; lens; lia|lens; lia].
  - destruct (length run2 =? 1)%nat eqn:E; [eapply affords_less; [apply H; lens; lia|lens; lia]|]. apply Nat.eqb_neq in E.
    apply merge_hi_cost; try (lens; lia). intros mg' l El. eapply affords_less; [apply H; lens; lia|lens; lia].
Qed.

Lemma merge_at_cost T c mg run1 run2 k : run1 <> [] -> run2 <> [] -> c + 2 * (length run1 + length run2) <= T ->
  (forall mg l, length l = length run1 + length run2 -> affords T (c + 2 * (length run1 + length run2)) (k mg l)) -> affords T c (merge_at mg run1 run2 k).
Proof.
  intros H1 H2 LT H. assert (L2 : 1 <= length run2) by (destruct run2; [congruence|cbn; lia]). destruct run2 as [|y run2'] eqn:Er2; [congruence|].
  cbn [merge_at]. rewrite <- Er2 in *. clear Er2. apply gallop_lo_cost; [exact H1|]. intros i Li.
  assert (E1 : length (skipn i run1) = length run1 - i) by apply skipn_length.
  destruct (skipn i run1) as [|x rest] eqn:Es.
  { eapply affords_less; [apply H; lens; lia|lens; lia]. }
  rewrite <- Es in *. assert (Hne : skipn i run1 <> []) by (rewrite Es; discriminate). assert (L3 : 1 <= length (skipn i run1)) by (rewrite Es; cbn; lia).
  clear Es. apply gallop_hi_cost; [exact H2|]. intros len2 Ll. destruct (len2 =? 0)%nat eqn:E0.
  { apply Nat.eqb_eq in E0. eapply affords_less; [apply H; lens; lia|lens; lia]. }
  apply Nat.eqb_neq in E0. assert (F2 : length (firstn len2 run2) = len2) by (rewrite firstn_length; lia).
  assert (Hf : firstn len2 run2 <> []) by (intro Ef; rewrite Ef in F2; cbn in F2; lia).
  assert (F1 : length (firstn i run1) = i) by (rewrite firstn_length; lia). assert (G2 : length (skipn len2 run2) = length run2 - len2) by apply skipn_length.
  destruct (length (skipn i run1) <=? len2)%nat.
  - apply merge_low_cost; [exact Hne|exact Hf|lia|]. intros mg' l El. eapply affords_less; [apply H; rewrite !app_length; lia|lia].
  - apply merge_high_cost; [exact Hne|exact Hf|lia|]. intros mg' l El. eapply affords_less; [apply H; rewrite !app_length; lia|lia].
Qed.

(** ** The stack of runs *)

(** The elements of the runs, each counted as often as its run has runs below it, itself included. *)
Fixpoint weight (stack : list (list path)) : nat :=
  match stack with
  | [] => 0
  | run :: below => length run * S (length below) + weight below
  end.

Fixpoint total (stack : list (list path)) : nat :=
  match stack with
  | [] => 0
  | run :: below => length run + total below
  end.

(** Each run is longer than the two above it together. *)
Fixpoint steep (stack : list (list path)) : Prop :=
  match stack with
  | a :: ((b :: c :: _) as below) => length a + length b < length c /\ steep below
  | _ => True
  end.

Definition settled (stack : list (list path)) : Prop :=
  steep stack /\ match stack with a :: b :: _ => length a < length b | _ => True end.

Definition filled (stack : list (list path)) : Prop := Forall (fun run => run <> []) stack.

Lemma steep_tail a l : steep (a :: l) -> steep l.
Proof. destruct l as [|b [|c l]]; cbn; tauto. Qed.

(** What has been spent in advance, and why the next merge repays it. *)
Definition debt (d : nat) (stack : list (list path)) : Prop :=
  d = 0 \/
  match stack with
  | a :: b :: below =>
      d <= length a /\ (length b <= length a \/ match below with c :: _ => length c <= length a + length b | [] => False end)
  | _ => False
  end.

Lemma nonempty_length A (l : list A) : l <> [] -> 1 <= length l.
Proof. destruct l; [congruence|cbn; lia]. Qed.

Lemma length_nonempty A (l : list A) : 1 <= length l -> l <> [].
Proof. intros L ->. cbn in L. lia. Qed.

Lemma debt_settled d a b below : debt d (a :: b :: below) -> length a < length b ->
  match below with c :: _ => length a + length b < length c | [] => True end -> d = 0.
Proof. intros [H|[H1 H2]] L1 L2; [exact H|]. destruct below; lia. Qed.

Lemma collapse_last_cost T c mg a b below k d d' :
  a <> [] -> b <> [] -> debt d (a :: b :: below) -> d' <= length a + length b -> d + length a + length b <= 3 * length a + d' ->
  c + 6 * weight (a :: b :: below) <= T + 2 * d ->
  (forall mg run c2, length run = length a + length b -> run <> [] -> c2 + 6 * weight (run :: below) <= T + 2 * d' ->
     c2 + 6 * weight (run :: below) + 2 * d <= c + 6 * weight (a :: b :: below) + 2 * d' -> affords T c2 (k mg run)) ->
  affords T c (merge_at mg b a k).
Proof.
  intros Ha Hb Hd Ld' Hpay LT H. pose proof (nonempty_length _ _ Ha) as La. pose proof (nonempty_length _ _ Hb) as Lb. cbn [weight length] in *.
  apply merge_at_cost; [exact Hb|exact Ha|nia|]. intros mg' run Er. apply H; [lia|apply length_nonempty; lia| |]; rewrite Er; nia.
Qed.

Lemma merge_collapse_cost T k : forall fuel mg stack c d, filled stack -> steep (tl (tl stack)) -> debt d stack ->
  c + 6 * weight stack <= T + 2 * d ->
  (forall mg stack' c', filled stack' -> settled stack' -> total stack' = total stack ->
     c' + 6 * weight stack' + 2 * d <= c + 6 * weight stack -> affords T c' (k mg stack')) ->
  affords T c (merge_collapse fuel mg stack k).
Proof.
  induction fuel as [|fuel IH]; intros mg stack c d Hf Hs Hd LT H.
  { destruct stack as [|a [|b below]]; cbn [merge_collapse].
    - destruct Hd as [->|[]]. apply H; [exact Hf|split; exact I|reflexivity|lia].
    - destruct Hd as [->|[]]. apply H; [exact Hf|split; exact I|reflexivity|lia].
    - apply affords_exhausted. assert (Ld : d <= length a) by (destruct Hd as [->|[? _]]; lia). cbn [weight length] in LT. nia. }
  destruct stack as [|a [|b below]].
  { destruct Hd as [->|[]]. apply H; [exact Hf|split; exact I|reflexivity|lia]. }
  { destruct Hd as [->|[]]. apply H; [exact Hf|split; exact I|reflexivity|lia]. }
  cbn [tl] in Hs. assert (Ha : a <> []) by now inversion Hf. assert (Hf1 : filled (b :: below)) by now inversion Hf.
  assert (Hb : b <> []) by now inversion Hf1. assert (Hf2 : filled below) by now inversion Hf1. clear Hf1.
  assert (Last : length b <= length a \/ match below with c :: below' => length c <= length a + length b \/ match below' with e :: _ => length e <= length b + length c | [] => False end | [] => False end ->
    affords T c (merge_at mg b a (fun mg run => merge_collapse fuel mg (run :: below) k))).
  { intro Why. destruct (Nat.le_gt_cases (length b) (length a)) as [Lba|Lab].
    - apply collapse_last_cost with (below := below) (d := d) (d' := 0); auto; [lia| |].
      + assert (d <= length a) by (destruct Hd as [->|[? _]]; lia). lia.
      + intros mg' run c2 Er Hr L2 L3. apply IH with (d := 0); auto.
        * now constructor.
        * destruct below as [|e below]; [exact I|]. cbn [tl]. now apply steep_tail in Hs.
        * now left.
        * intros mg3 stack' c' F' S' T' L'. apply H; auto; [cbn [total] in *; lia|lia].
    - destruct Why as [Why|Why]; [lia|]. destruct below as [|e below]; [destruct Why|].
      apply collapse_last_cost with (below := e :: below) (d := d) (d' := length b); auto; [lia| |].
      + assert (d <= length a) by (destruct Hd as [->|[? _]]; lia). lia.
      + intros mg' run c2 Er Hr L2 L3. apply IH with (d := length b); auto.
        * now constructor.
        * cbn [tl]. now apply steep_tail in Hs.
        * right. split; [lia|]. destruct Why as [Why|Why]; [left; lia|right]. destruct below; [destruct Why|]. lia.
        * intros mg3 stack' c' F' S' T' L'. apply H; auto; [cbn [total] in *; lia|lia]. }
  cbn [merge_collapse]. destruct below as [|e below].
  { destruct (length a <? length b)%nat eqn:E; [|apply Last; left; apply Nat.ltb_ge in E; lia]. apply Nat.ltb_lt in E.
    assert (d = 0) as -> by (eapply debt_settled; [exact Hd|exact E|exact I]). apply H; [exact Hf|split; [exact I|exact E]|reflexivity|lia]. }
  destruct ((length e <=? length b + length a)%nat || match below with [] => false | run :: _ => (length run <=? length b + length e)%nat end) eqn:Ec.
  - assert (Why : length e <= length a + length b \/ match below with run :: _ => length run <= length b + length e | [] => False end).
    { apply Bool.orb_true_iff in Ec as [Ec|Ec]; [left; apply Nat.leb_le in Ec; lia|right]. destruct below; [discriminate|]. now apply Nat.leb_le in Ec. }
    destruct (length e <? length a)%nat eqn:Ee; [|apply Last; now right]. apply Nat.ltb_lt in Ee.
    assert (He : e <> []) by now inversion Hf2. pose proof (nonempty_length _ _ Ha) as La. pose proof (nonempty_length _ _ Hb) as Lb. pose proof (nonempty_length _ _ He) as Le.
    assert (Ld : d <= length a) by (destruct Hd as [->|[? _]]; lia).
    cbn [weight length total] in *. apply merge_at_cost; [exact He|exact Hb|nia|]. intros mg' run Er. apply IH with (d := 0).
    + constructor; [exact Ha|]. constructor; [apply length_nonempty; lia|now inversion Hf2].
    + cbn [tl]. now apply steep_tail in Hs.
    + now left.
    + cbn [weight length]. rewrite Er. nia.
    + intros mg3 stack' c' F' S' T' L'. cbn [weight length total] in *. rewrite Er in *. apply H; auto; [lia|nia].
  - apply Bool.orb_false_iff in Ec as [Ec1 Ec2]. apply Nat.leb_gt in Ec1.
    destruct (length a <? length b)%nat eqn:E; [|apply Last; left; apply Nat.ltb_ge in E; lia]. apply Nat.ltb_lt in E.
    assert (d = 0) as -> by (eapply debt_settled; [exact Hd|exact E|cbn; lia]). apply H; [exact Hf| |reflexivity|lia]. split; [|exact E].
    cbn [steep]. split; [lia|]. destruct below as [|g below]; [exact I|]. apply Nat.leb_gt in Ec2. split; [lia|exact Hs].
Qed.

(** A settled stack is low. *)
Lemma steep_height : forall n stack m, length stack <= n -> stack <> [] -> steep stack ->
  match stack with a :: b :: _ => m <= length a /\ m <= length b | a :: _ => m <= length a | [] => True end ->
  m * 2 ^ Nat.div2 (length stack) <= total stack.
Proof.
  induction n as [|n IH]; intros stack m Ln Hne Hs Hm; [destruct stack; [congruence|cbn in Ln; lia]|].
  destruct stack as [|a [|b [|e rest]]]; [congruence| | |].
  - cbn. lia.
  - cbn. lia.
  - assert (IH' : 2 * m * 2 ^ Nat.div2 (length (e :: rest)) <= total (e :: rest)).
    { apply IH; [cbn in *; lia|discriminate|now apply steep_tail, steep_tail in Hs|]. cbn [steep] in Hs. destruct rest as [|f rest]; cbn [steep] in *; lia. }
    change (length (a :: b :: e :: rest)) with (S (S (length (e :: rest)))). cbn [Nat.div2 Nat.pow]. change (total (a :: b :: e :: rest)) with (length a + (length b + total (e :: rest))). nia.
Qed.

Lemma settled_height stack : filled stack -> settled stack -> stack <> [] -> length stack <= 2 * Nat.log2 (total stack) + 1.
Proof.
  intros Hf [Hs Hl] Hne. assert (H : 1 * 2 ^ Nat.div2 (length stack) <= total stack).
  { apply (steep_height (length stack)); auto. destruct stack as [|a [|b l]]; [exact I| |].
    - apply nonempty_length. now inversion Hf.
    - split; [apply nonempty_length; now inversion Hf|]. inversion Hf. pose proof (nonempty_length _ _ H1). lia. }
  rewrite Nat.mul_1_l in H. assert (P : 0 < 2 ^ Nat.div2 (length stack)) by (apply Nat.neq_0_lt_0, Nat.pow_nonzero; lia).
  apply Nat.log2_le_mono in H. rewrite Nat.log2_pow2 in H by lia. pose proof (Nat.div2_odd (length stack)) as E. destruct (Nat.odd (length stack)); cbn [Nat.b2n] in E; lia.
Qed.

Lemma merge_force_cost T k : forall fuel mg stack c, filled stack -> stack <> [] -> c + 2 * total stack * (length stack - 1) <= T ->
  (forall run, length run = total stack -> affords T (c + 2 * total stack * (length stack - 1)) (k run)) ->
  affords T c (merge_force_collapse fuel mg stack k).
Proof.
  induction fuel as [|fuel IH]; intros mg stack c Hf Hne LT H.
  { destruct stack as [|a [|b below]]; [congruence| |]; cbn [merge_force_collapse].
    - eapply affords_less; [apply H; cbn; lia|cbn; lia].
    - apply affords_exhausted. etransitivity; [apply Nat.le_add_r|exact LT]. }
  destruct stack as [|a [|b below]]; [congruence| |].
  { cbn [merge_force_collapse]. eapply affords_less; [apply H; cbn; lia|cbn; lia]. }
  assert (Ha : a <> []) by now inversion Hf. assert (Hf1 : filled (b :: below)) by now inversion Hf.
  assert (Hb : b <> []) by now inversion Hf1. assert (Hf2 : filled below) by now inversion Hf1. clear Hf1.
  assert (Last : affords T c (merge_at mg b a (fun mg run => merge_force_collapse fuel mg (run :: below) k))).
  { pose proof (nonempty_length _ _ Ha) as La. pose proof (nonempty_length _ _ Hb) as Lb. cbn [total length] in *.
    apply merge_at_cost; [exact Hb|exact Ha|nia|]. intros mg' run Er. apply IH.
    - constructor; [apply length_nonempty; lia|exact Hf2].
    - discriminate.
    - cbn [total length]. rewrite Er. nia.
    - intros run' Er'. cbn [total length] in *. rewrite Er in *. eapply affords_less; [apply H; lia|nia]. }
  cbn [merge_force_collapse]. destruct below as [|e below]; [exact Last|]. destruct (length e <? length a)%nat; [|exact Last]. clear Last.
  assert (He : e <> []) by now inversion Hf2.
  pose proof (nonempty_length _ _ He) as Le. pose proof (nonempty_length _ _ Hb) as Lb. cbn [total length] in *.
  apply merge_at_cost; [exact He|exact Hb|nia|]. intros mg' run Er. apply IH.
  - constructor; [exact Ha|]. constructor; [apply length_nonempty; lia|now inversion Hf2].
  - discriminate.
  - cbn [total length]. rewrite Er. nia.
  - intros run' Er'. cbn [total length] in *. rewrite Er in *. eapply affords_less; [apply H; lia|nia].
Qed.

Lemma min_run_short : forall fuel n r, n <= fuel -> r <= 1 -> min_run_length fuel n r <= 32.
Proof.
  induction fuel as [|fuel IH]; intros n r Ln Lr; cbn [min_run_length]; [lia|]. destruct (MIN_MERGE <=? n)%nat eqn:E.
  - apply IH; [|destruct (Nat.odd n); lia]. assert (Nat.div2 n < n); [|lia]. apply Nat.lt_div2. apply Nat.leb_le in E. cbv in E. lia.
  - apply Nat.leb_gt in E. cbv in E. lia.
Qed.

(** [H] bounds the height of the stack after a push. *)
Lemma sort_runs_cost T H n min_run : H = 2 * Nat.log2 n + 2 -> min_run <= 32 -> forall fuel mg stack rest c,
  filled stack -> settled stack -> rest <> [] -> total stack + length rest = n ->
  c + 6 * weight stack + length rest * (6 * H + 5) + 2 * n * H <= T -> affords T c (sort_runs fuel min_run mg stack rest).
Proof.
  intros EH Hmin. induction fuel as [|fuel IH]; intros mg stack rest c Hf Hs Hne En LT; cbn [sort_runs]; [apply affords_exhausted; nia|].
  apply count_run_cost. intros run rest1 E1 Hr. specialize (Hr Hne). pose proof (nonempty_length _ _ Hr) as Lr.
  set (more := min_run - length run). assert (Efs : length (firstn more rest1) + length (skipn more rest1) = length rest1)
    by (rewrite <- (firstn_skipn more rest1) at 3; now rewrite app_length).
  apply binary_sort_cost with (j := 5).
  { destruct (Nat.le_gt_cases min_run (length run)) as [L|L]; [left; unfold more; replace (min_run - length run) with 0 by lia; reflexivity|right].
    rewrite firstn_length. unfold more. change (2 ^ 5) with 32. lia. }
  intros run2 E2. assert (Hh : length stack <= H - 1).
  { destruct stack as [|a l]; [cbn; lia|]. pose proof (settled_height (a :: l) Hf Hs ltac:(discriminate)) as Hh.
    assert (Nat.log2 (total (a :: l)) <= Nat.log2 n) by (apply Nat.log2_le_mono; lia). lia. }
  set (f := length (firstn more rest1)) in *. set (rest2 := skipn more rest1) in *.
  assert (Hp : c + length run + 5 * f + 6 * weight (run2 :: stack) + length rest2 * (6 * H + 5) + 2 * n * H <= T).
  { cbn [weight]. assert (length run2 * S (length stack) <= (length run + f) * H) by (rewrite E2; apply Nat.mul_le_mono_l; lia).
    assert (El : length rest = length run + f + length rest2) by lia. rewrite El in LT. nia. }
  apply merge_collapse_cost with (d := 0).
  - constructor; [apply length_nonempty; lia|exact Hf].
  - destruct stack as [|a l]; [exact I|]. cbn [tl]. destruct Hs as [Hs _]. now apply steep_tail in Hs.
  - now left.
  - nia.
  - intros mg' stack' c' Hf' Hs' Et Lw. cbn [total] in Et. assert (Hne' : stack' <> []) by (intros ->; cbn in Et; lia).
    clearbody rest2. destruct rest2 as [|x rest2].
    + pose proof (settled_height stack' Hf' Hs' Hne') as Hh'. cbn [length] in Efs. assert (En' : total stack' = n) by lia.
      assert (Lh : length stack' - 1 <= H) by (rewrite En' in Hh'; lia).
      assert (2 * total stack' * (length stack' - 1) <= 2 * n * H) by (rewrite En'; apply Nat.mul_le_mono_l; exact Lh).
      apply merge_force_cost; [exact Hf'|exact Hne'|nia|]. intros l' _. apply affords_here; [nia|exact I].
    + apply IH; [exact Hf'|exact Hs'|discriminate|lia|lia].
Qed.

(** The bound for [n] paths. *)
Theorem tim_sort_cost l : costs (if length l <? 32 then 5 * length l else length l * (16 * Nat.log2 (length l) + 21)) (tim_sort l).
Proof.
  unfold tim_sort. change MIN_MERGE with 32. destruct (length l <? 32)%nat eqn:E.
  - apply Nat.ltb_lt in E. eapply affords_costs with (c := 0). apply count_run_cost. intros run rest E1 _.
    apply binary_sort_cost with (j := 5); [right; change (2 ^ 5) with 32; lia|]. intros l' _. apply affords_here; [lia|exact I].
  - apply Nat.ltb_ge in E. eapply affords_costs with (c := 0).
    apply sort_runs_cost with (H := 2 * Nat.log2 (length l) + 2) (n := length l); auto.
    + apply min_run_short; lia.
    + constructor.
    + split; exact I.
    + intros ->. cbn in E. lia.
    + cbn [weight]. nia.
Qed.
