(** * Proofs about the size of the text *)

From Coq Require Import Lia Arith.
From Verif Require Import SpecScan SpecSize RenderFacts LayoutFacts ShownFacts PrintFacts.
Open Scope nat_scope.

Lemma sum_cons a l : list_sum (a :: l) = a + list_sum l.
Proof. reflexivity. Qed.

Fixpoint dsize (n d : nat) (t : dtree) : nat :=
  match t with DT l ks => d * (n + 1) + length l + 1 + list_sum (map (dsize n (S d)) ks) end.

Definition rsize (n d : nat) (r : row) : nat := (d + length (fst r)) * (n + 1) + length (snd r) + 1.

Lemma rsize_under n d b l : map (rsize n d) (map (under b) l) = map (rsize n (S d)) l.
Proof. rewrite map_map. apply map_ext. intros [f s]. unfold rsize. cbn [under fst snd length]. f_equal. f_equal. f_equal. lia. Qed.

Fixpoint dsize_rows n (t : dtree) {struct t} : forall d, list_sum (map (rsize n d) (rows t)) = dsize n d t.
Proof.
  intro d. destruct t as [l ks]. rewrite rows_eq. cbn [map dsize].
  change (list_sum (?x :: ?r)) with (x + list_sum r).
  assert (E : list_sum (map (rsize n d) (rows_below ks)) = list_sum (map (dsize n (S d)) ks)).
  { induction ks as [|k ks IH]; [reflexivity|]. destruct ks as [|k' ks].
    - rewrite rows_below_one, rsize_under. cbn. rewrite dsize_rows. lia.
    - rewrite rows_below_cons, map_app, list_sum_app, rsize_under, dsize_rows, IH. reflexivity. }
  cbn [list_sum fold_right]. change (fold_right Nat.add 0 ?x) with (list_sum x). rewrite E. unfold rsize. cbn [fst snd length]. lia.
Qed.

Lemma prefix_length tf n : same_width tf n -> forall fs, length (row_prefix tf fs) = length fs * (n + 1).
Proof.
  intros (H1 & H2 & H3 & H4). induction fs as [|b fs IH]; [reflexivity|]. destruct fs as [|b' fs].
  - cbn [row_prefix]. rewrite app_length. destruct b; cbn [length]; lia.
  - change (row_prefix tf (b :: b' :: fs)) with ((if b then tf_empty tf else tf_continuation tf) ++ [c_space] ++ row_prefix tf (b' :: fs)).
    rewrite !app_length, IH. destruct b; cbn [length]; lia.
Qed.

Lemma join_length (l : list jstring) : l <> [] -> length (join [c_nl] l) + 1 = list_sum (map (fun s => length s + 1) l).
Proof.
  induction l as [|x l IH]; [congruence|]. intros _. destruct l as [|y l]; [cbn; lia|].
  change (join [c_nl] (x :: y :: l)) with (x ++ [c_nl] ++ join [c_nl] (y :: l)). rewrite !app_length. cbn [length].
  specialize (IH ltac:(discriminate)). cbn [map list_sum fold_right] in *. lia.
Qed.

Lemma text_length tf n t : same_width tf n -> length (text tf t) + 1 = dsize n 0 t.
Proof.
  intro H. unfold text. rewrite join_length.
  - rewrite map_map, <- dsize_rows. f_equal. apply map_ext. intros [f s]. unfold row_text, rsize. cbn [fst snd]. rewrite app_length, (prefix_length _ _ H). lia.
  - intro E. apply map_eq_nil in E. now apply (rows_nonempty t).
Qed.

Lemma size_dir v n d c p ks :
  dsize n d (labelled v (SDir (c ++ [p]) ks)) =
  d * (n + 1) + 1 + (length (concat (map (fun q => last_name q ++ js "/") c)) + label_size v p (js "/") + list_sum (map (fun s => dsize n (S d) (labelled v s)) ks)).
Proof.
  cbn [labelled dsize]. rewrite last_last, map_app, concat_app, !app_length, map_map. unfold label_size. cbn [map concat]. rewrite app_nil_r, !app_length. lia.
Qed.

Lemma dsize_deeper n t : forall d, dsize n d t <= dsize n (S d) t.
Proof.
  revert t. fix IH 1. intros [l ks] d. cbn [dsize].
  assert (E : list_sum (map (dsize n (S d)) ks) <= list_sum (map (dsize n (S (S d))) ks)).
  { induction ks as [|k ks IHk]; [reflexivity|]. cbn [map]. rewrite !sum_cons. specialize (IH k (S d)). lia. }
  lia.
Qed.

Lemma sum_forall2 A B (f : A -> nat) (g : B -> nat) l l' : Forall2 (fun a b => f a <= g b) l l' -> list_sum (map f l) <= list_sum (map g l').
Proof. induction 1; cbn [map]; rewrite ?sum_cons; [reflexivity|]. lia. Qed.

Lemma plain_exact v u n : v_compact u = false -> forall top e s, shows u top e s -> forall d, dsize n d (labelled v s) = plain_size v n d e.
Proof.
  intro Hv. fix IH 4. intros top e s H d. destruct H as [t f k|t q|t q|t q es ks Hc HF|e ds es ks Hc].
  - cbn [labelled dsize plain_size map list_sum fold_right]. unfold label_size. rewrite !app_length. lia.
  - cbn. lia.
  - cbn. lia.
  - rewrite (size_dir v n d [] q). cbn [map concat length plain_size].
    assert (E : list_sum (map (fun s => dsize n (S d) (labelled v s)) ks) = list_sum (map (plain_size v n (S d)) es)).
    { clear Hc. induction HF as [|x y es ks Hx HF IHF]; [reflexivity|]. cbn [map]. rewrite !sum_cons, IHF, (IH _ _ _ Hx). reflexivity. }
    rewrite E. lia.
  - congruence.
Qed.

Definition shorter (v : view) (n : nat) (e : entry) (s : shown) : Prop :=
  shows (set_compact false v) false e s \/ forall d, dsize n d (labelled v s) < plain_size v n d e.

Lemma shorter_at_most v n e s : shorter v n e s -> forall d, dsize n d (labelled v s) <= plain_size v n d e.
Proof. intros [H|H] d; [|specialize (H d); lia]. erewrite plain_exact with (u := set_compact false v); eauto. Qed.

Lemma shorter_kids v n es ks : Forall2 (shorter v n) es ks ->
  Forall2 (shows (set_compact false v) false) es ks \/
  forall d, list_sum (map (fun s => dsize n d (labelled v s)) ks) < list_sum (map (plain_size v n d) es).
Proof.
  induction 1 as [|e s es ks H _ IH]; [left; constructor|]. destruct IH as [IH|IH], H as [H|H].
  - left. now constructor.
  - right. intro d. cbn [map]. rewrite !sum_cons. specialize (H d).
    assert (list_sum (map (fun s => dsize n d (labelled v s)) ks) <= list_sum (map (plain_size v n d) es)); [|lia].
    clear H. induction IH as [|x y es ks Hx _ IH]; [reflexivity|]. cbn [map]. rewrite !sum_cons.
    pose proof (shorter_at_most v n _ _ (or_introl Hx) d). lia.
  - right. intro d. cbn [map]. rewrite !sum_cons. specialize (IH d). pose proof (shorter_at_most v n _ _ (or_introl H) d). lia.
  - right. intro d. cbn [map]. rewrite !sum_cons. specialize (IH d). specialize (H d). lia.
Qed.

Lemma shorter_dir v n top p es ks : Forall2 (shorter v n) es ks ->
  shows (set_compact false v) top (EDir p es) (SDir [p] ks) \/ forall d, dsize n d (labelled v (SDir [p] ks)) < plain_size v n d (EDir p es).
Proof.
  intro H. destruct (shorter_kids _ _ _ _ H) as [H1|H1].
  - left. constructor; auto.
  - right. intro d. rewrite (size_dir v n d [] p). cbn [map concat length plain_size]. specialize (H1 (S d)). lia.
Qed.

Lemma chain_shorter v n e ds es ks : chain_of (set_compact true v) e ds es -> Forall2 (shorter v n) es ks ->
  ds <> [] /\ shorter v n e (SDir ds ks).
Proof.
  intros Hc HF. induction Hc as [p es Hm|p c ds es Hm Hc IH].
  - split; [discriminate|]. now apply shorter_dir.
  - split; [discriminate|]. right. intro d. destruct (IH HF) as [Hne Hs]. pose proof (shorter_at_most _ _ _ _ Hs (S d)) as H1.
    destruct (exists_last Hne) as (ds' & q & ->). pose proof (dsize_deeper n (labelled v (SDir (ds' ++ [q]) ks)) d) as H2.
    pose proof (Nat.le_trans _ _ _ H2 H1) as H3. clear H1 H2.
    change (p :: ds' ++ [q]) with ((p :: ds') ++ [q]). rewrite size_dir in *. cbn [map concat]. rewrite !app_length.
    cbn [plain_size map]. rewrite sum_cons. unfold label_size in *. cbn [list_sum fold_right] in *. lia.
Qed.

Lemma merged_shorter v n : forall top e s, shows (set_compact true v) top e s ->
  shows (set_compact false v) top e s \/ forall d, dsize n d (labelled v s) < plain_size v n d e.
Proof.
  fix IH 4. intros top e s H. destruct H as [t f k|t q|t q|t q es ks Hc HF|e ds es ks Hc Hch HF].
  - left. constructor.
  - left. constructor.
  - left. constructor.
  - apply shorter_dir. clear Hc. induction HF as [|x y es ks Hx HF IHF]; constructor; [apply (IH false); exact Hx|exact IHF].
  - apply (chain_shorter v n e ds es ks Hch). clear Hc Hch. induction HF as [|x y es ks Hx HF IHF]; constructor; [apply (IH false); exact Hx|exact IHF].
Qed.

(** ** Runs *)

Theorem exact_size o p w h out h' v n :
  sees w o v -> v_compact v = false -> same_width (o_tree_format o) n -> pretty_print o p w h = (Ok out, h') ->
  exists e h0, scan o (location w p) w h = (Ok e, h0) /\ length out + 1 = plain_size v n 0 e.
Proof.
  intros Hs Hv Hw H. destruct (C01_lemma _ _ _ _ _ _ _ Hs H) as (e & h0 & s & Hsc & Hsh & ->). exists e, h0. split; [exact Hsc|].
  change (join [c_nl] (map (row_text (o_tree_format o)) (rows (labelled v s)))) with (text (o_tree_format o) (labelled v s)).
  rewrite (text_length _ _ _ Hw). eapply plain_exact; eauto.
Qed.

Theorem merging_shortens o p w h out1 out2 h1 h2 v n :
  sees w o v -> same_width (o_tree_format o) n ->
  pretty_print (with_compact_directories false o) p w h = (Ok out1, h1) ->
  pretty_print (with_compact_directories true o) p w h = (Ok out2, h2) ->
  out2 = out1 \/ length out2 < length out1.
Proof.
  intros Hs Hw H1 H2. destruct (compaction_same_names _ _ _ _ _ _ _ _ _ Hs H1 H2) as (e & h0 & s1 & s2 & _ & S1 & -> & S2 & -> & _).
  destruct (merged_shorter v n _ _ _ S2) as [H|H].
  - left. now rewrite (shows_fun _ _ _ _ _ S1 H).
  - right. specialize (H 0). pose proof (text_length _ _ (labelled v s1) Hw) as E1. pose proof (text_length _ _ (labelled v s2) Hw) as E2.
    rewrite (plain_exact v (set_compact false v) n eq_refl _ _ _ S1) in E1. lia.
Qed.
