(** * Proofs about the text layout *)

From Verif Require Import Printer SpecRender RenderFacts.

(** ** Splitting a joined text into lines *)

Lemma split_on_app_free c s t :
  ~ In c s -> split_on c (s ++ c :: t) = s :: split_on c t.
Proof.
  induction s as [|x s IH]; intro H.
  - simpl. now rewrite N.eqb_refl.
  - simpl in *. destruct (N.eqb_spec x c) as [->|Hne]; [tauto|].
    rewrite IH by tauto. reflexivity.
Qed.

Lemma split_on_free c s : ~ In c s -> split_on c s = [s].
Proof.
  induction s as [|x s IH]; intro H; [reflexivity|].
  simpl in *. destruct (N.eqb_spec x c) as [->|Hne]; [tauto|]. rewrite IH by tauto. reflexivity.
Qed.

Lemma split_on_join c l : l <> [] -> Forall (fun s => ~ In c s) l -> split_on c (join [c] l) = l.
Proof.
  induction l as [|s l IH]; intros Hne HF; [congruence|].
  inversion HF as [|x y Hs Hl]; subst.
  destruct l as [|s' l].
  - apply split_on_free. exact Hs.
  - rewrite join_cons by discriminate. rewrite <- app_comm_cons. rewrite app_nil_l.
    rewrite split_on_app_free by exact Hs. now rewrite IH by (try discriminate; exact Hl).
Qed.

(** ** Prefix width *)

Lemma row_prefix_length tf w flags : same_width tf w -> length (row_prefix tf flags) = (length flags * (w + 1))%nat.
Proof.
  intros (H1 & H2 & H3 & H4). induction flags as [|b flags IH]; [reflexivity|].
  destruct flags as [|b' flags].
  - simpl. rewrite app_length. destruct b; simpl; lia.
  - change (row_prefix tf (b :: b' :: flags)) with
      ((if b then tf_empty tf else tf_continuation tf) ++ [c_space] ++ row_prefix tf (b' :: flags)).
    rewrite !app_length, IH. destruct b; simpl length; lia.
Qed.

Lemma row_prefix_nl_free tf flags : distinguishable tf -> ~ In c_nl (row_prefix tf flags).
Proof.
  intros (_ & _ & H). induction flags as [|b flags IH]; [intros []|].
  destruct flags as [|b' flags].
  - simpl. rewrite in_app_iff. intros [Hi|[Hi|[]]]; [|discriminate].
    destruct b; revert Hi; apply H; simpl; auto.
  - change (row_prefix tf (b :: b' :: flags)) with
      ((if b then tf_empty tf else tf_continuation tf) ++ [c_space] ++ row_prefix tf (b' :: flags)).
    rewrite !in_app_iff. intros [Hi|[[Hi|[]]|Hi]]; [|discriminate|exact (IH Hi)].
    destruct b; revert Hi; apply H; simpl; auto.
Qed.

(** ** Decoding one line *)

Lemma app_eq_len {A} (a b c d : list A) : length a = length c -> a ++ b = c ++ d -> a = c /\ b = d.
Proof.
  revert c. induction a as [|x a IH]; intros [|y c] Hl H; simpl in *; try discriminate; auto.
  injection H as -> H. injection Hl as Hl. destruct (IH _ Hl H) as [-> ->]. auto.
Qed.

Lemma row_decode tf f1 : distinguishable tf -> forall f2 l1 l2,
  f1 <> [] -> f2 <> [] ->
  row_prefix tf f1 ++ l1 = row_prefix tf f2 ++ l2 -> length f1 = length f2 /\ l1 = l2.
Proof.
  intros ((w & Hw1 & Hw2 & Hw3 & Hw4) & Hd & _).
  induction f1 as [|b1 f1 IH]; intros f2 l1 l2 H1 H2 H; [congruence|].
  destruct f2 as [|b2 f2]; [congruence|].
  destruct f1 as [|b1' f1]; destruct f2 as [|b2' f2].
  - simpl in H. rewrite <- !app_assoc in H.
    apply app_eq_len in H; [|destruct b1, b2; congruence]. destruct H as [_ H].
    injection H as ->. auto.
  - exfalso. cbn [row_prefix] in H. rewrite <- !app_assoc in H.
    apply app_eq_len in H; [|destruct b1, b2; congruence]. destruct H as [H _].
    revert H. destruct b1, b2; apply Hd; simpl; auto.
  - exfalso. cbn [row_prefix] in H. rewrite <- !app_assoc in H.
    apply app_eq_len in H; [|destruct b1, b2; congruence]. destruct H as [H _].
    symmetry in H. revert H. destruct b1, b2; apply Hd; simpl; auto.
  - change (row_prefix tf (b1 :: b1' :: f1)) with
      ((if b1 then tf_empty tf else tf_continuation tf) ++ [c_space] ++ row_prefix tf (b1' :: f1)) in H.
    change (row_prefix tf (b2 :: b2' :: f2)) with
      ((if b2 then tf_empty tf else tf_continuation tf) ++ [c_space] ++ row_prefix tf (b2' :: f2)) in H.
    rewrite <- !app_assoc in H.
    apply app_eq_len in H; [|destruct b1, b2; congruence]. destruct H as [_ H].
    injection H as H. destruct (IH (b2' :: f2) l1 l2) as [Hl ->]; try discriminate; auto.
    simpl in *. split; [lia|reflexivity].
Qed.

(** ** A tree is determined by the depths and labels of its rows *)

Definition drow (r : row) : nat * jstring := (length (fst r), snd r).

Definition shift (r : nat * jstring) : nat * jstring := (S (fst r), snd r).

Lemma drow_under b r : drow (under b r) = shift (drow r).
Proof. reflexivity. Qed.

Lemma drows_below_cons k ks :
  map drow (rows_below (k :: ks)) = map shift (map drow (rows k)) ++ map drow (rows_below ks).
Proof.
  destruct ks as [|k' ks].
  - rewrite rows_below_one. simpl. rewrite app_nil_r, !map_map. reflexivity.
  - rewrite rows_below_cons, map_app, !map_map. reflexivity.
Qed.

Lemma map_shift_inj a b : map shift a = map shift b -> a = b.
Proof.
  revert b. induction a as [|[n l] a IH]; intros [|[m l'] b] H; simpl in *; try discriminate; auto.
  injection H as -> -> H. f_equal. auto.
Qed.

Lemma drows_head t : exists l r, map drow (rows t) = (0%nat, l) :: r /\ Forall (fun x => (0 < fst x)%nat) r.
Proof.
  destruct t as [l ks]. exists l, (map drow (rows_below ks)). rewrite rows_eq. split; [reflexivity|].
  induction ks as [|k ks IH]; [constructor|].
  rewrite drows_below_cons. apply Forall_app. split; [|exact IH].
  apply Forall_map. apply Forall_forall. intros x _. simpl. lia.
Qed.

(** Splitting at the next row of depth at most 1. *)
Lemma span_split (a a' b b' : list (nat * jstring)) :
  Forall (fun x => (1 < fst x)%nat) a -> Forall (fun x => (1 < fst x)%nat) a' ->
  (match b with [] => True | x :: _ => fst x = 1%nat end) ->
  (match b' with [] => True | x :: _ => fst x = 1%nat end) ->
  a ++ b = a' ++ b' -> a = a' /\ b = b'.
Proof.
  revert a'. induction a as [|x a IH]; intros a' Ha Ha' Hb Hb' H.
  - destruct a' as [|x' a']; [auto|]. simpl in H. subst b. inversion Ha'; subst. simpl in *. lia.
  - inversion Ha; subst. destruct a' as [|x' a'].
    + simpl in *. subst b'. lia.
    + inversion Ha'; subst. injection H as -> H. destruct (IH a') as [-> ->]; auto.
Qed.

Lemma below_head ks : match map drow (rows_below ks) with [] => True | x :: _ => fst x = 1%nat end.
Proof.
  destruct ks as [|k ks]; [exact I|]. rewrite drows_below_cons.
  destruct (drows_head k) as (l & r & E & _). rewrite E. reflexivity.
Qed.

Lemma drows_inj t : forall t', map drow (rows t) = map drow (rows t') -> t = t'.
Proof.
  induction t as [l ks IH] using dtree_ind'. intros [l' ks'] H.
  rewrite !rows_eq in H. cbn [map] in H. injection H as Hl H. f_equal; [exact Hl|].
  clear l l' Hl. revert ks' H. induction IH as [|k ks Hk Hks IHks]; intros ks' H.
  - destruct ks' as [|k' ks']; [reflexivity|]. rewrite drows_below_cons in H.
    pose proof (rows_nonempty k'). destruct (rows k'); simpl in H; congruence.
  - destruct ks' as [|k' ks'].
    { rewrite drows_below_cons in H. pose proof (rows_nonempty k). destruct (rows k); simpl in H; congruence. }
    rewrite !drows_below_cons in H.
    destruct (drows_head k) as (l & r & E & Hr). destruct (drows_head k') as (l' & r' & E' & Hr').
    rewrite E, E' in H. cbn [map] in H. injection H as Hl H.
    apply span_split in H.
    + destruct H as [Hr1 Hr2]. apply map_shift_inj in Hr1.
      f_equal.
      * apply Hk. rewrite E, E'. congruence.
      * apply IHks. exact Hr2.
    + apply Forall_map. eapply Forall_impl; [|exact Hr]. intros a Ha. simpl in *. lia.
    + apply Forall_map. eapply Forall_impl; [|exact Hr']. intros a Ha. simpl in *. lia.
    + apply below_head.
    + apply below_head.
Qed.

Lemma rows_below_flags_nonempty ks r : In r (rows_below ks) -> fst r <> [].
Proof.
  induction ks as [|k ks IH]; [intros []|].
  destruct ks as [|k' ks].
  - rewrite rows_below_one, in_map_iff. intros (x & <- & _). discriminate.
  - rewrite rows_below_cons, in_app_iff, in_map_iff. intros [(x & <- & _)|H]; [discriminate|auto].
Qed.

Theorem text_inj tf t1 t2 :
  distinguishable tf -> labels_on_one_line t1 -> labels_on_one_line t2 ->
  text tf t1 = text tf t2 -> t1 = t2.
Proof.
  intros Hd H1 H2 H. unfold text in H.
  apply (f_equal (split_on c_nl)) in H.
  assert (Hfree : forall t, labels_on_one_line t -> Forall (fun s => ~ In c_nl s) (map (row_text tf) (rows t))).
  { intros t Ht. apply Forall_map, Forall_forall. intros r Hr. unfold row_text. rewrite in_app_iff.
    intros [Hi|Hi]; [revert Hi; now apply row_prefix_nl_free|revert Hi; now apply Ht]. }
  assert (Hne : forall t, map (row_text tf) (rows t) <> []).
  { intros t. pose proof (rows_nonempty t). destruct (rows t); simpl; congruence. }
  rewrite !split_on_join in H by auto.
  apply drows_inj. destruct t1 as [l1 ks1], t2 as [l2 ks2]. rewrite !rows_eq in *.
  cbn [map] in H |- *. injection H as Hl H.
  unfold row_text in Hl. simpl in Hl. f_equal; [now rewrite Hl|].
  pose proof (rows_below_flags_nonempty ks1) as F1. pose proof (rows_below_flags_nonempty ks2) as F2.
  revert H F1 F2. generalize (rows_below ks1) as R1, (rows_below ks2) as R2. clear -Hd.
  induction R1 as [|r1 R1 IH]; intros [|r2 R2] H F1 F2; simpl in H; try discriminate; auto.
  injection H as Hr H. cbn [map]. f_equal.
  - unfold row_text in Hr. apply row_decode in Hr; [|exact Hd|apply F1; now left|apply F2; now left].
    destruct Hr as [Hr1 Hr2]. unfold drow. congruence.
  - apply IH; auto; intros; [apply F1|apply F2]; now right.
Qed.

(** ** Columns of adjacent rows *)

Lemma adjacent_cons {A} (x : A) l a b : adjacent (x :: l) a b -> (a = x /\ exists r, l = b :: r) \/ adjacent l a b.
Proof.
  intros (l1 & l2 & H). destruct l1 as [|y l1]; simpl in H; injection H as -> H.
  - left. eauto.
  - right. exists l1, l2. exact H.
Qed.

Lemma adjacent_app {A} (l l' : list A) a b :
  adjacent (l ++ l') a b ->
  adjacent l a b \/ adjacent l' a b \/ ((exists r, l = r ++ [a]) /\ exists r, l' = b :: r).
Proof.
  induction l as [|x l IH]; intro H; [right; left; exact H|].
  simpl in H. apply adjacent_cons in H. destruct H as [[-> [r Hr]]|H].
  - destruct l as [|y l].
    + right. right. split; [exists []; reflexivity|]. exists r. exact Hr.
    + left. injection Hr as -> _. exists [], l. reflexivity.
  - destruct (IH H) as [(l1 & l2 & ->)|[Hr|[[r ->] Hr]]].
    + left. exists (x :: l1), l2. reflexivity.
    + right. left. exact Hr.
    + right. right. split; [exists (x :: r); reflexivity|exact Hr].
Qed.

Lemma adjacent_map {A B} (f : A -> B) l a b :
  adjacent (map f l) a b -> exists a' b', a = f a' /\ b = f b' /\ adjacent l a' b'.
Proof.
  intros (l1 & l2 & H). apply map_eq_app in H. destruct H as (m1 & m2 & -> & _ & H).
  destruct m2 as [|x m2]; [discriminate|]. destruct m2 as [|y m2]; [discriminate|].
  simpl in H. injection H as <- <- _. exists x, y. repeat split. exists m1, m2. reflexivity.
Qed.

(** The last row of a tree consists of last nodes only. *)
Lemma last_row_all_last t : forall r0 r, rows t = r0 ++ [r] -> Forall (fun b => b = true) (fst r).
Proof.
  induction t as [l ks IH] using dtree_ind'. intros r0 r H. rewrite rows_eq in H.
  destruct ks as [|k ks].
  { destruct r0 as [|x r0]; simpl in H; [|destruct r0; discriminate]. injection H as <-. constructor. }
  destruct r0 as [|x r0].
  { rewrite app_nil_l in H. injection H as _ H. now destruct (rows_below_nonempty (k :: ks) ltac:(discriminate)). }
  rewrite <- app_comm_cons in H. injection H as <- H. clear l.
  revert k IH H. revert r0. induction ks as [|k' ks IHks]; intros r0 k IH H.
  - change (map (under true) (rows k) = r0 ++ [r]) in H.
    apply map_eq_app in H. destruct H as (m1 & m2 & E & _ & H).
    destruct m2 as [|y m2]; [discriminate|]. destruct m2; [|discriminate]. injection H as <-.
    inversion IH as [|a b Hk _]; subst. constructor; [reflexivity|]. eapply Hk. exact E.
  - change (map (under false) (rows k) ++ rows_below (k' :: ks) = r0 ++ [r]) in H.
    inversion IH as [|a b _ Hks]; subst.
    assert (Hsnoc : exists m, rows_below (k' :: ks) = m ++ [r]).
    { destruct (rows_below (k' :: ks)) as [|z m] eqn:E using rev_ind.
      - exfalso. revert E. apply rows_below_nonempty. discriminate.
      - rewrite app_assoc in H. apply app_inj_tail in H. destruct H as [_ ->]. eauto. }
    destruct Hsnoc as [m Hm]. eapply IHks; [exact Hks|exact Hm].
Qed.

Lemma column_at_cons b f j : column_at (b :: f) (S j) = column_at f j.
Proof. reflexivity. Qed.

Lemma column_at_all_last f j : Forall (fun b => b = true) f -> column_at f j <> ColNonLast /\ column_at f j <> ColContinuation.
Proof.
  intro H. unfold column_at. destruct (nth_error f j) as [b|] eqn:E; [|split; discriminate].
  apply nth_error_In in E. rewrite Forall_forall in H. rewrite (H b E).
  destruct (S j =? length f)%nat; split; discriminate.
Qed.

Definition open_column (c : column) : Prop := c = ColNonLast \/ c = ColContinuation.

(** Downwards: an open column continues; a closed column does not. Upwards: a connector comes from an
    open column of the previous row or is the first child of the previous row. *)
Definition columns_ok (f1 f2 : list bool) : Prop :=
  forall j,
    (open_column (column_at f1 j) <-> In (column_at f2 j) [ColNonLast; ColLast; ColContinuation] /\ j <> length f1).

Lemma column_none f : column_at f (length f) = ColNone.
Proof. unfold column_at. destruct (nth_error f (length f)) eqn:E; [|reflexivity].
  apply nth_error_None in E || (exfalso; assert (nth_error f (length f) <> None) by congruence;
  apply nth_error_Some in H; lia). Qed.

Lemma columns_ok_cons b f1 f2 :
  f2 <> [] -> columns_ok f1 f2 -> columns_ok (b :: f1) (b :: f2).
Proof.
  intros H2 H j. destruct j as [|j].
  - unfold column_at. cbn [nth_error length]. destruct f2 as [|x f2]; [congruence|].
    cbn [length Nat.eqb]. split.
    + intro Ho. split; [|simpl; discriminate]. destruct b; [|simpl; auto].
      exfalso. unfold open_column in Ho. destruct f1; simpl in Ho; intuition discriminate.
    + intros [Hin _]. destruct b; [simpl in Hin; intuition discriminate|].
      unfold open_column. destruct f1; simpl; auto.
  - rewrite !column_at_cons. rewrite (H j). simpl length. split; intros [Ha Hb]; split; auto; lia.
Qed.

Theorem adjacent_columns t a b : adjacent (rows t) a b -> columns_ok (fst a) (fst b).
Proof.
  revert a b. induction t as [l ks IH] using dtree_ind'. intros a b H.
  rewrite rows_eq in H. apply adjacent_cons in H.
  assert (Hfirst : forall k ks' r, rows_below (k :: ks') = b :: r -> exists last, fst b = [last]).
  { intros [l' kk] ks' r E. destruct ks'; [rewrite rows_below_one in E|rewrite rows_below_cons in E];
      rewrite rows_eq in E; injection E as <- _; simpl; eauto. }
  destruct H as [[-> [r Hr]]|H].
  - (* root row and its first child *)
    destruct ks as [|k ks]; [discriminate|]. destruct (Hfirst _ _ _ Hr) as [last ->]. simpl fst.
    intro j. destruct j as [|j].
    + split; [intros [Ho|Ho]; discriminate|]. intros [_ Hj]. simpl in Hj. lia.
    + split; [intros [Ho|Ho]; destruct j; discriminate|].
      intros [Hin _]. destruct j; simpl in Hin; intuition discriminate.
  - clear l. induction IH as [|k ks Hk Hks IHks].
    + destruct H as (l1 & l2 & H). destruct l1; discriminate.
    + assert (Hmap : forall last, adjacent (map (under last) (rows k)) a b -> columns_ok (fst a) (fst b)).
      { intros last Ha. apply adjacent_map in Ha. destruct Ha as (a' & b' & -> & -> & Ha).
        assert (Hb' : fst b' <> []).
        { destruct k as [l' kk]. rewrite rows_eq in Ha. apply adjacent_cons in Ha.
          destruct Ha as [[-> [r Hr]]|(l1 & l2 & Ha)].
          - apply rows_below_flags_nonempty with (ks := kk). rewrite Hr. now left.
          - apply rows_below_flags_nonempty with (ks := kk). rewrite Ha. apply in_elt_inv || apply in_or_app.
            right. right. now left. }
        simpl fst. apply columns_ok_cons; auto. }
      destruct ks as [|k' ks].
      * rewrite rows_below_one in H. eapply Hmap; exact H.
      * rewrite rows_below_cons in H. apply adjacent_app in H.
        destruct H as [H|[H|[[r Hr] [r' Hr']]]].
        -- eapply Hmap; exact H.
        -- apply IHks. exact H.
        -- destruct (Hfirst _ _ _ Hr') as [last ->].
           apply map_eq_app in Hr. destruct Hr as (m1 & m2 & E & _ & Hm).
           destruct m2 as [|y m2]; [discriminate|]. destruct m2; [|discriminate]. injection Hm as <-.
           apply last_row_all_last in E. simpl fst. intro j. destruct j as [|j].
           ++ split.
              ** intros _. split; [|discriminate]. destruct last; simpl; auto.
              ** intros _. unfold open_column, column_at. simpl.
                 destruct (length (fst y)); simpl; auto.
           ++ rewrite column_at_cons. destruct (column_at_all_last (fst y) j E) as [H1 H2].
              split; [intros [Ho|Ho]; congruence|].
              intros [Hin _]. destruct j; simpl in Hin; intuition discriminate.
Qed.

(** ** The text of a column *)

Lemma firstn_len_app {A} (a b : list A) : firstn (length a) (a ++ b) = a.
Proof. rewrite firstn_app, Nat.sub_diag, firstn_all. apply app_nil_r. Qed.

Lemma skipn_len_app {A} n (a b : list A) : length a = n -> skipn n (a ++ b) = b.
Proof. intros <-. rewrite skipn_app, Nat.sub_diag, skipn_all. reflexivity. Qed.

Lemma skipn_plus {A} n m (l : list A) : skipn (n + m) l = skipn m (skipn n l).
Proof. revert l. induction n as [|n IH]; intros [|x l]; simpl; auto. now rewrite skipn_nil. Qed.

Lemma slice_skip {A} n m k (a b : list A) : length a = n -> slice (n + m) k (a ++ b) = slice m k b.
Proof. intro H. unfold slice. rewrite skipn_plus, (skipn_len_app n a b H). reflexivity. Qed.

Lemma column_slice tf w : same_width tf w -> forall flags label j, (j < length flags)%nat ->
  slice (j * (w + 1)) w (row_text tf (flags, label)) = column_symbol tf (column_at flags j).
Proof.
  intros (H1 & H2 & H3 & H4). induction flags as [|b flags IH]; intros label j Hj; [simpl in Hj; lia|].
  unfold row_text. cbn [fst snd]. destruct j as [|j].
  - cbn [Nat.mul]. unfold slice. cbn [skipn]. destruct flags as [|b' flags].
    + cbn [row_prefix column_at nth_error length Nat.eqb]. rewrite <- !app_assoc.
      destruct b; cbn [column_symbol]; [rewrite <- H2|rewrite <- H1]; apply firstn_len_app.
    + change (row_prefix tf (b :: b' :: flags)) with
        ((if b then tf_empty tf else tf_continuation tf) ++ [c_space] ++ row_prefix tf (b' :: flags)).
      rewrite <- !app_assoc.
      destruct b; cbn [column_at nth_error length Nat.eqb column_symbol]; [rewrite <- H4|rewrite <- H3]; apply firstn_len_app.
  - destruct flags as [|b' flags]; [simpl in Hj; lia|].
    change (row_prefix tf (b :: b' :: flags)) with
      ((if b then tf_empty tf else tf_continuation tf) ++ [c_space] ++ row_prefix tf (b' :: flags)).
    rewrite column_at_cons.
    replace (S j * (w + 1))%nat with ((w + 1) + j * (w + 1))%nat by lia.
    replace (((if b then tf_empty tf else tf_continuation tf) ++ [c_space] ++ row_prefix tf (b' :: flags)) ++ label)
      with (((if b then tf_empty tf else tf_continuation tf) ++ [c_space]) ++ row_text tf (b' :: flags, label))
      by (unfold row_text; cbn [fst snd]; now rewrite <- !app_assoc).
    rewrite slice_skip by (rewrite app_length; destruct b; simpl; lia).
    apply IH. simpl in *. lia.
Qed.
