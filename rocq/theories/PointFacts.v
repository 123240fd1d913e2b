(** * Facts about texts and their code points *)

From Verif Require Import SpecText.
From Coq Require Import Lia.
Close Scope Z_scope.

Lemma is_high_iff c : is_high c = true <-> high_half c.
Proof. unfold is_high, high_half. rewrite andb_true_iff, N.leb_le, N.ltb_lt. reflexivity. Qed.
Lemma is_low_iff c : is_low c = true <-> low_half c.
Proof. unfold is_low, low_half. rewrite andb_true_iff, N.leb_le, N.ltb_lt. reflexivity. Qed.

Lemma is_high_false c : is_high c = false <-> ~ high_half c.
Proof. rewrite <- is_high_iff. destruct (is_high c); split; intro; try congruence; now contradict H. Qed.
Lemma is_low_false c : is_low c = false <-> ~ low_half c.
Proof. rewrite <- is_low_iff. destruct (is_low c); split; intro; try congruence; now contradict H. Qed.

Definition pairs (c d : jchar) : bool := is_high c && is_low d.

Lemma pairs_iff c d : pairs c d = true <-> high_half c /\ low_half d.
Proof. unfold pairs. now rewrite andb_true_iff, is_high_iff, is_low_iff. Qed.

(** [lone_at c s]: the unit [c] does not form a pair with what follows. *)
Definition lone_at (c : jchar) (s : jstring) : Prop := match s with d :: _ => pairs c d = false | [] => True end.

Lemma points_pair c d s : pairs c d = true -> points (c :: d :: s) = to_code_point c d :: points s.
Proof. intro H. cbn [points]. unfold pairs in H. now rewrite H. Qed.

Lemma points_lone c s : lone_at c s -> points (c :: s) = lone c :: points s.
Proof. destruct s as [|d s]; [reflexivity|]. cbn. unfold pairs. now intros ->. Qed.

(** Texts are read character by character. *)
Lemma text_ind (P : jstring -> Prop) : P [] -> (forall c d s, pairs c d = true -> P s -> P (c :: d :: s)) ->
  (forall c s, lone_at c s -> P s -> P (c :: s)) -> forall s, P s.
Proof.
  intros H0 H2 H1. assert (A : forall n s, length s <= n -> P s).
  { induction n as [|n IH]; intros s Hs; [destruct s; [exact H0|cbn in Hs; lia]|]. destruct s as [|c [|d s]]; [exact H0|apply H1; [exact I|exact H0]|].
    cbn in Hs. destruct (pairs c d) eqn:E; [apply H2; [exact E|apply IH; lia]|]. apply H1; [exact E|]. apply IH. cbn. lia. }
  intro s. apply (A (length s)). lia.
Qed.

Lemma code_point_bounds c d : pairs c d = true -> (65536 <= to_code_point c d < 1114112)%N.
Proof. intro H. apply pairs_iff in H as [H1 H2]. unfold high_half, low_half, to_code_point in *. lia. Qed.

Lemma lone_bounds c : (lone c < 65536 /\ lone c = c \/ 1114112 <= lone c /\ c = lone c - 1048576 /\ 65536 <= c)%N.
Proof. unfold lone. destruct (N.ltb_spec c 65536); lia. Qed.

Lemma lone_inj c d : lone c = lone d -> c = d.
Proof. intro H. pose proof (lone_bounds c). pose proof (lone_bounds d). lia. Qed.

Lemma lone_unit c : (c < 65536)%N -> lone c = c.
Proof. intro H. unfold lone. destruct (N.ltb_spec c 65536); lia. Qed.

Lemma points_inj : forall s t, points s = points t -> s = t.
Proof.
  induction s as [|c d s E IH|c s E IH] using text_ind; intro t.
  - destruct t as [|c t]; [reflexivity|]. destruct t as [|d t]; [discriminate|]. cbn. destruct (is_high c && is_low d); discriminate.
  - rewrite (points_pair _ _ _ E). pose proof (code_point_bounds _ _ E) as B. induction t as [|c' d' t E' _|c' t E' _] using text_ind; [discriminate| |].
    + rewrite (points_pair _ _ _ E'). intro H. injection H as H Hs. apply IH in Hs as ->. apply pairs_iff in E as [E1 E2]. apply pairs_iff in E' as [E3 E4].
      unfold to_code_point, high_half, low_half in *. assert (c = c' /\ d = d') as [-> ->]; [|reflexivity].
      assert (c - 55296 = c' - 55296)%N by nia. nia.
    + rewrite (points_lone _ _ E'). intro H. injection H as H _. pose proof (lone_bounds c'). lia.
  - rewrite (points_lone _ _ E). induction t as [|c' d' t E' _|c' t E' _] using text_ind; [discriminate| |].
    + rewrite (points_pair _ _ _ E'). pose proof (code_point_bounds _ _ E') as B. intro H. injection H as H _. pose proof (lone_bounds c). lia.
    + rewrite (points_lone _ _ E'). intro H. injection H as H Hs. apply lone_inj in H as ->. now rewrite (IH _ Hs).
Qed.

(** ** The relation and the function *)

Lemma points_spec : forall s, points_of s (points s).
Proof.
  induction s as [|c d s E IH|c s E IH] using text_ind; [constructor| |].
  - rewrite (points_pair _ _ _ E). apply pairs_iff in E as [H1 H2]. unfold to_code_point. replace (65536 + _ * 1024 + (d - 56320))%N
      with ((c - 55296) * 1024 + (d - 56320) + 65536)%N by lia. now constructor.
  - rewrite (points_lone _ _ E). unfold lone. destruct (N.ltb_spec c 65536) as [Hc|Hc]; constructor; try assumption.
    intros Hh d s' -> Hd. cbn in E. assert (pairs c d = true) by now apply pairs_iff. congruence.
Qed.

Lemma points_of_iff s l : points_of s l <-> l = points s.
Proof.
  split; [|intros ->; apply points_spec]. induction 1 as [|c d s l Hc Hd H IH|c s l Hc Hl H IH|c s l Hc H IH]; [reflexivity| | |]; subst.
  - rewrite points_pair by now apply pairs_iff. unfold to_code_point. f_equal. lia.
  - rewrite points_lone; [now rewrite lone_unit|]. destruct s as [|d s]; [exact I|]. cbn. destruct (pairs c d) eqn:E; [|reflexivity].
    apply pairs_iff in E as [E1 E2]. exfalso. eapply Hl; eauto.
  - rewrite points_lone; [unfold lone; destruct (N.ltb_spec c 65536); [lia|reflexivity]|]. destruct s as [|d s]; [exact I|]. cbn.
    destruct (pairs c d) eqn:E; [|reflexivity]. apply pairs_iff in E as [E1 E2]. unfold high_half in E1. lia.
Qed.

(** ** Parts of texts *)

(** [apart a b]: no pair where [b] follows [a]. *)
Definition apart (a b : jstring) : Prop := forall x c d y, a = x ++ [c] -> b = d :: y -> pairs c d = false.

Lemma points_app a : forall b, apart a b -> points (a ++ b) = points a ++ points b.
Proof.
  induction a as [|c d a E IH|c a E IH] using text_ind; intros b H; [reflexivity| |].
  - cbn [app]. rewrite !(points_pair _ _ _ E). cbn [app]. f_equal. apply IH. intros x u v y Ea Eb. apply (H (c :: d :: x) u v y); [now rewrite Ea|exact Eb].
  - cbn [app]. rewrite (points_lone _ _ E). rewrite points_lone.
    + cbn [app]. f_equal. apply IH. intros x u v y Ea Eb. apply (H (c :: x) u v y); [now rewrite Ea|exact Eb].
    + destruct a as [|d a]; [|exact E]. destruct b as [|d b]; [exact I|]. now apply (H [] c d b).
Qed.

Lemma points_split : forall t A B, points t = A ++ B -> exists a b, t = a ++ b /\ points a = A /\ points b = B.
Proof.
  induction t as [|c d t E IH|c t E IH] using text_ind; intros A B H.
  - symmetry in H. apply app_eq_nil in H as [-> ->]. exists [], []. auto.
  - rewrite (points_pair _ _ _ E) in H. destruct A as [|x A].
    + cbn in H. exists [], (c :: d :: t). split; [reflexivity|]. split; [reflexivity|]. now rewrite (points_pair _ _ _ E).
    + cbn in H. injection H as <- H. destruct (IH _ _ H) as (a & b & -> & <- & <-). exists (c :: d :: a), b. split; [reflexivity|].
      now rewrite (points_pair _ _ _ E).
  - rewrite (points_lone _ _ E) in H. destruct A as [|x A].
    + cbn in H. exists [], (c :: t). split; [reflexivity|]. split; [reflexivity|]. now rewrite (points_lone _ _ E).
    + cbn in H. injection H as <- H. destruct (IH _ _ H) as (a & b & -> & <- & <-). exists (c :: a), b. split; [reflexivity|]. split; [|reflexivity].
      apply points_lone. destruct a as [|d a]; [exact I|exact E].
Qed.

(** Code units that are not halves. *)
Definition whole_unit (c : jchar) : Prop := (c < 65536)%N /\ ~ high_half c /\ ~ low_half c.

Lemma whole_lone c s : whole_unit c -> lone_at c s.
Proof.
  intros (_ & H & _). destruct s as [|d s]; [exact I|]. cbn. destruct (pairs c d) eqn:E; [|reflexivity]. apply pairs_iff in E as [E _]. contradiction.
Qed.

Lemma points_whole c s : whole_unit c -> points (c :: s) = c :: points s.
Proof. intro H. rewrite (points_lone _ _ (whole_lone c s H)). now rewrite lone_unit by apply H. Qed.

Lemma apart_whole a c b : whole_unit c -> apart a (c :: b).
Proof. intros (_ & _ & H) x u d y _ E. injection E as <- _. destruct (pairs u c) eqn:Ep; [|reflexivity]. apply pairs_iff in Ep as [_ Ep]. contradiction. Qed.

Lemma points_at a c b : whole_unit c -> points (a ++ c :: b) = points a ++ c :: points b.
Proof. intro H. now rewrite (points_app _ _ (apart_whole a c b H)), points_whole. Qed.

Lemma in_points c : whole_unit c -> forall s, In c (points s) <-> In c s.
Proof.
  intros (Hc & Hh & Hl). induction s as [|u v s E IH|u s E IH] using text_ind; [reflexivity| |].
  - rewrite (points_pair _ _ _ E). cbn. rewrite IH. pose proof (code_point_bounds _ _ E). apply pairs_iff in E as [E1 E2]. split; [intros [H1|H1]; [lia|auto]|].
    intros [->|[->|H1]]; [contradiction|contradiction|auto].
  - rewrite (points_lone _ _ E). cbn. rewrite IH. split; (intros [H1|H1]; [left|now right]).
    + pose proof (lone_bounds u). lia.
    + subst u. now apply lone_unit.
Qed.

Lemma points_single c s : whole_unit c -> points s = [c] -> s = [c].
Proof. intros H E. apply points_inj. now rewrite points_whole. Qed.

Lemma points_cons c s B : whole_unit c -> points s = c :: B -> exists b, s = c :: b /\ points b = B.
Proof.
  intros H E. destruct (points_split s [c] B E) as (a & b & -> & Ha & Hb). apply (points_single c a H) in Ha as ->. now exists b.
Qed.

(** A text that starts like another one. *)
Lemma points_start s t B : points t = points s ++ B -> exists b, t = s ++ b /\ points b = B.
Proof. intro E. destruct (points_split t _ B E) as (a & b & -> & Ha & Hb). apply points_inj in Ha as ->. now exists b. Qed.

Lemma points_end s t A : points t = A ++ points s -> exists a, t = a ++ s /\ points a = A.
Proof. intro E. destruct (points_split t A _ E) as (a & b & -> & Ha & Hb). apply points_inj in Hb as ->. now exists a. Qed.

(** ** Texts without unpaired halves *)

Lemma paired_first s b c : paired s -> s = c :: b -> ~ low_half c.
Proof. intros H ->. inversion H as [|? ? ? ? Hl _|? ? ? Hh _ _]; subst; [exact Hl|]. unfold high_half, low_half in *. lia. Qed.

Lemma paired_last s : paired s -> forall x c, s = x ++ [c] -> ~ high_half c.
Proof.
  induction 1 as [|c s Hc Hh Hl H IH|c d s Hc Hd H IH]; intros x u E; [destruct x; discriminate| |].
  - destruct x as [|y x]; injection E as <- E; [exact Hh|]. now apply (IH x).
  - destruct x as [|y [|z x]]; [discriminate| |].
    + injection E as <- <- ->. unfold high_half, low_half in *. lia.
    + injection E as <- <- E. now apply (IH x).
Qed.

Lemma apart_before a s : paired s -> apart a s.
Proof. intros H x c d y _ E. destruct (pairs c d) eqn:Ep; [|reflexivity]. apply pairs_iff in Ep as [_ Ep]. exfalso. exact (paired_first s y d H E Ep). Qed.

Lemma apart_after s b : paired s -> apart s b.
Proof. intros H x c d y E _. destruct (pairs c d) eqn:Ep; [|reflexivity]. apply pairs_iff in Ep as [Ep _]. exfalso. exact (paired_last s H x c E Ep). Qed.

Lemma paired_app a b : paired a -> paired b -> paired (a ++ b).
Proof. induction 1; intro Hb; cbn; [exact Hb|apply pr_unit; auto|apply pr_pair; auto]. Qed.

Definition pairedb (s : jstring) : bool := forallb (fun c => (c <? 55296)%N) s.
Lemma pairedb_ok s : pairedb s = true -> paired s.
Proof.
  induction s as [|c s IH]; intro H; [constructor|]. cbn in H. apply andb_true_iff in H as [H1 H2]. apply N.ltb_lt in H1.
  constructor; [lia|unfold high_half; lia|unfold low_half; lia|now apply IH].
Qed.

Lemma character_cases c u : character c u -> u = [c] /\ whole_unit c \/
  exists h d, u = [h; d] /\ pairs h d = true /\ c = to_code_point h d /\ (65536 <= c < 1114112)%N.
Proof.
  intros [H1 H2]. apply points_of_iff in H2. inversion H1 as [|x s Hx Hh Hl Hs|h d s Hh Hd Hs]; subst; [discriminate| |].
  - left. assert (W : whole_unit x) by (repeat split; assumption). rewrite (points_whole x s W) in H2. injection H2 as -> H2.
    assert (s = []) as -> by (apply points_inj; now rewrite <- H2). now split.
  - right. assert (E : pairs h d = true) by now apply pairs_iff. rewrite (points_pair _ _ _ E) in H2. injection H2 as -> H2.
    assert (s = []) as -> by (apply points_inj; now rewrite <- H2). exists h, d. repeat split; try assumption; apply code_point_bounds, E.
Qed.

(** Texts of ASCII characters have themselves as code points. *)
Definition asciib (s : jstring) : bool := forallb (fun c => (c <? 128)%N) s.
Lemma points_ascii s : asciib s = true -> points s = s.
Proof.
  induction s as [|c s IH]; intro H; [reflexivity|]. cbn in H. apply andb_true_iff in H as [H1 H2]. apply N.ltb_lt in H1.
  rewrite points_whole by (unfold whole_unit, high_half, low_half; lia). now rewrite IH.
Qed.

(** ** Comparison *)
Lemma same_points fold a b : same_ci fold a b <-> map fold (points a) = map fold (points b).
Proof.
  split; [|intro H; exists (points a), (points b); repeat split; try apply points_spec; exact H].
  intros (la & lb & Ha & Hb & H). apply points_of_iff in Ha as ->. now apply points_of_iff in Hb as ->.
Qed.

(** ** Characters of one and of two code units *)
Lemma unit_character c : (c <? 55296)%N = true -> character c [c].
Proof.
  intro H. apply N.ltb_lt in H. split; [apply pr_unit; [lia|unfold high_half; lia|unfold low_half; lia|constructor]|].
  apply po_unit; [lia|unfold high_half; lia|constructor].
Qed.

Lemma pair_character h d : pairs h d = true -> character (to_code_point h d) [h; d].
Proof.
  intro H. split; [apply pairs_iff in H as [H1 H2]; apply pr_pair; [exact H1|exact H2|constructor]|]. apply points_of_iff. now rewrite (points_pair _ _ _ H).
Qed.
