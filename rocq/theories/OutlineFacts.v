(** * The printed text determines the names, marks and nesting *)

From Verif Require Import Printer SpecRender RenderFacts LayoutFacts ShownFacts SpecScan PrintFacts.
From Coq Require Import Lia.
Close Scope Z_scope.

Lemma dir_label_text v chain kids : bare v ->
  labelled v (SDir chain kids) = DT (concat (map (fun n => n ++ js "/") (map last_name chain))) (map (labelled v) kids).
Proof.
  intros [Hx He]. cbn [labelled]. unfold emoji_str. rewrite Hx, He. cbn [opt_str app]. rewrite app_nil_r, map_map. reflexivity.
Qed.
Lemma file_label_text v f k : bare v -> labelled v (SFile f k) = DT (last_name f ++ kind_mark k) [].
Proof. intros [Hx He]. cbn [labelled]. unfold emoji_str. rewrite Hx, He. cbn [opt_str app]. now rewrite app_nil_r. Qed.

Lemma chain_slash (l : list jstring) : l <> [] -> In c_slash (concat (map (fun n => n ++ js "/") l)).
Proof.
  destruct l as [|n l]; [contradiction|]. intros _. cbn [map concat]. apply in_or_app. left. apply in_or_app. right. now left.
Qed.

Lemma chain_inj (l : list jstring) : forall l', (forall n, In n l -> ~ In c_slash n) -> (forall n, In n l' -> ~ In c_slash n) ->
  concat (map (fun n => n ++ js "/") l) = concat (map (fun n => n ++ js "/") l') -> l = l'.
Proof.
  assert (S : forall (c : N) (a a' b b' : jstring), ~ In c a -> ~ In c a' -> a ++ c :: b = a' ++ c :: b' -> a = a' /\ b = b').
  { intro c. induction a as [|x a IH]; intros [|y a'] b b' Ha Ha' E; cbn in E.
    - injection E as ->. now split.
    - injection E as -> _. exfalso. apply Ha'. now left.
    - injection E as -> _. exfalso. apply Ha. now left.
    - injection E as -> E. destruct (IH a' b b') as [-> ->]; [now intro; apply Ha; right|now intro; apply Ha'; right|exact E|now split]. }
  induction l as [|n l IH]; intros [|n' l'] H H' E; cbn [map concat] in E.
  - reflexivity.
  - exfalso. rewrite <- app_assoc in E. destruct n'; discriminate E.
  - exfalso. rewrite <- app_assoc in E. destruct n; discriminate E.
  - rewrite <- !app_assoc in E. cbn [app js] in E. apply (S c_slash) in E; [|apply H; now left|apply H'; now left]. destruct E as [-> E].
    rewrite (IH l'); [reflexivity|intros; apply H; now right|intros; apply H'; now right|exact E].
Qed.

Lemma mark_no_slash k : ~ In c_slash (kind_mark k).
Proof. destruct k; cbn; intuition discriminate. Qed.

Lemma file_inj n k n' k' : unmarked n -> unmarked n' -> n ++ kind_mark k = n' ++ kind_mark k' -> n = n' /\ kind_mark k = kind_mark k'.
Proof.
  intros [_ U] [_ U'] E.
  assert (T : forall a b, n ++ [a] = n' ++ [b] -> n = n' /\ a = b) by (intros; now apply app_inj_tail).
  destruct k, k'; cbn [kind_mark js] in *; rewrite ?app_nil_r in E;
    try (subst; now split); try (destruct (U n') as [U1 U2]; now elim U1 || now elim U2);
    try (destruct (U' n) as [U1 U2]; symmetry in E; now elim U1 || now elim U2);
    try (apply T in E; destruct E as [-> E]; try discriminate E; now split).
Qed.

Lemma file_not_dots n k : unmarked n -> n ++ kind_mark k <> js "...".
Proof.
  intros [U _] E. destruct k; cbn [kind_mark] in E; rewrite ?app_nil_r in E; try (now apply U);
    change (js "...") with (js ".." ++ js ".") in E; apply app_inj_tail in E; destruct E as [_ E]; discriminate E.
Qed.

Lemma outline_inj s : forall v v' s', bare v -> bare v' -> clear_names s -> clear_names s' -> labelled v s = labelled v' s' -> outline_of s = outline_of s'.
Proof.
  induction s as [chain ks IH|f k|] using shown_ind'; intros v v' s' B B' C C' E; destruct s' as [chain' ks'|f' k'|];
    rewrite ?(dir_label_text v), ?(dir_label_text v'), ?(file_label_text v), ?(file_label_text v') in E by assumption; cbn [outline_of].
  - inversion C as [? ? Cn Cc Ck| |]; subst. inversion C' as [? ? Cn' Cc' Ck'| |]; subst. injection E as E1 E2.
    apply chain_inj in E1.
    + rewrite E1. f_equal. clear E1 C C' Cn Cn' Cc Cc'. revert ks' Ck' E2. induction IH as [|k ks Hk IH IHl]; intros [|k' ks'] Ck' E2; try discriminate E2; [reflexivity|].
      cbn [map] in *. injection E2 as E2 E3. f_equal.
      * apply (Hk v v'); try assumption; [apply Ck; now left|apply Ck'; now left].
      * apply IHl; [intros; apply Ck; now right|intros; apply Ck'; now right|exact E3].
    + intros n Hn. apply in_map_iff in Hn. destruct Hn as (d & <- & Hd). apply (Cc d Hd).
    + intros n Hn. apply in_map_iff in Hn. destruct Hn as (d & <- & Hd). apply (Cc' d Hd).
  - exfalso. inversion C as [? ? Cn Cc Ck| |]; subst. inversion C' as [|? ? Cf Cu|]; subst. injection E as E1 _.
    assert (H : In c_slash (last_name f' ++ kind_mark k')).
    { rewrite <- E1. apply chain_slash. intro X. apply map_eq_nil in X. contradiction. }
    apply in_app_or in H. destruct H as [H|H]; [now apply (proj1 (proj2 Cf))|now apply mark_no_slash in H].
  - exfalso. inversion C as [? ? Cn Cc Ck| |]; subst. injection E as E1 _.
    assert (H : In c_slash (js "...")).
    { rewrite <- E1. apply chain_slash. intro X. apply map_eq_nil in X. contradiction. }
    cbn in H. intuition discriminate.
  - exfalso. inversion C' as [? ? Cn Cc Ck| |]; subst. inversion C as [|? ? Cf Cu|]; subst. injection E as E1 _.
    assert (H : In c_slash (last_name f ++ kind_mark k)).
    { rewrite E1. apply chain_slash. intro X. apply map_eq_nil in X. contradiction. }
    apply in_app_or in H. destruct H as [H|H]; [now apply (proj1 (proj2 Cf))|now apply mark_no_slash in H].
  - inversion C as [|? ? Cf Cu|]; subst. inversion C' as [|? ? Cf' Cu'|]; subst. injection E as E. apply file_inj in E; try assumption.
    destruct E as [-> ->]. reflexivity.
  - exfalso. inversion C as [|? ? Cf Cu|]; subst. injection E as E. now apply file_not_dots in E.
  - exfalso. inversion C' as [? ? Cn Cc Ck| |]; subst. injection E as E1 _.
    assert (H : In c_slash (js "...")).
    { cbn [js]. rewrite E1. apply chain_slash. intro X. apply map_eq_nil in X. contradiction. }
    cbn in H. intuition discriminate.
  - exfalso. inversion C' as [|? ? Cf Cu|]; subst. injection E as E. symmetry in E. now apply file_not_dots in E.
  - reflexivity.
Qed.

Lemma rows_labels (Q : jstring -> Prop) : forall label kids, Q label -> (forall k r, In k kids -> In r (rows k) -> Q (snd r)) ->
  forall r, In r (rows (DT label kids)) -> Q (snd r).
Proof.
  intros label kids Hl Hk r Hr. cbn [rows] in Hr. destruct Hr as [<-|Hr]; [exact Hl|].
  revert Hk Hr. induction kids as [|k [|k2 kids] IH]; intros Hk Hr; [contradiction|..].
  - apply in_map_iff in Hr. destruct Hr as (r' & <- & Hr). apply (Hk k r'); [now left|exact Hr].
  - apply in_app_or in Hr. destruct Hr as [Hr|Hr].
    + apply in_map_iff in Hr. destruct Hr as (r' & <- & Hr). apply (Hk k r'); [now left|exact Hr].
    + apply IH; [|exact Hr]. intros k' r' Hk'. apply Hk. now right.
Qed.

Lemma clear_one_line v s : bare v -> clear_names s -> labels_on_one_line (labelled v s).
Proof.
  intro B. induction s as [chain ks IH|f k|] using shown_ind'; intro C; unfold labels_on_one_line;
    rewrite ?(dir_label_text v), ?(file_label_text v) by assumption.
  - inversion C as [? ? Cn Cc Ck| |]; subst. apply (rows_labels (fun l => ~ In c_nl l)).
    + intro H. apply in_concat in H. destruct H as (x & Hx & H). apply in_map_iff in Hx. destruct Hx as (n & <- & Hn).
      apply in_map_iff in Hn. destruct Hn as (d & <- & Hd). apply in_app_or in H. destruct H as [H|[H|[]]]; [now apply (proj2 (proj2 (Cc d Hd)))|discriminate H].
    + intros t r Ht. apply in_map_iff in Ht. destruct Ht as (s & <- & Hs). rewrite Forall_forall in IH. apply (IH s Hs (Ck s Hs)).
  - inversion C as [|? ? Cf Cu|]; subst. apply (rows_labels (fun l => ~ In c_nl l)); [|intros ? ? []].
    intro H. apply in_app_or in H. destruct H as [H|H]; [now apply (proj2 (proj2 Cf))|]. destruct k; cbn in H; intuition discriminate.
  - cbn [labelled]. apply (rows_labels (fun l => ~ In c_nl l)); [|intros ? ? []]. cbn. intuition discriminate.
Qed.

Theorem C85_lemma : forall o1 o2 v1 v2 w1 w2 p1 p2 s1 s2 out,
  o_tree_format o1 = o_tree_format o2 -> distinguishable (o_tree_format o1) -> bare v1 -> bare v2 ->
  displays o1 v1 w1 p1 s1 out -> displays o2 v2 w2 p2 s2 out ->
  clear_names s1 -> clear_names s2 -> outline_of s1 = outline_of s2.
Proof.
  intros o1 o2 v1 v2 w1 w2 p1 p2 s1 s2 out Htf Hd B1 B2 (S1 & e1 & h1 & k1 & Hs1 & Sh1 & P1) (S2 & e2 & h2 & k2 & Hs2 & Sh2 & P2) C1 C2.
  destruct (C02_lemma o1 o2 p1 p2 w1 w2 [] [] k1 k2 v1 v2 out Htf Hd S1 S2 P1 P2) as (e1' & e2' & s1' & s2' & x1 & x2 & A & B & C & D & E).
  rewrite Hs1 in A. injection A as <- _. rewrite Hs2 in C. injection C as <- _.
  pose proof (shows_fun _ _ _ _ _ Sh1 B). pose proof (shows_fun _ _ _ _ _ Sh2 D). subst s1' s2'.
  apply (outline_inj s1 v1 v2); try assumption. apply E; now apply clear_one_line.
Qed.
