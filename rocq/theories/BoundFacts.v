(** * The size of the output: proofs *)

From Verif Require Import SpecScan SpecBound RenderFacts ScanFacts PathFacts TreeFacts ShownFacts LayoutFacts PrintFacts HistFacts.
Open Scope Z_scope.

Lemma list_sum_le {A} (f : A -> nat) b l : (forall x, In x l -> (f x <= b)%nat) -> (list_sum (map f l) <= length l * b)%nat.
Proof.
  induction l as [|x l IH]; intro H; cbn; [lia|]. pose proof (H x (or_introl eq_refl)). specialize (IH (fun y Hy => H y (or_intror Hy))).
  unfold list_sum in IH. lia.
Qed.

Lemma same_length {A B} (R : A -> B -> Prop) l l' : Forall2 R l l' -> length l = length l'.
Proof. induction 1; cbn; congruence. Qed.

Lemma most_lines_pos n k : (2 <= most_lines n k)%nat.
Proof. destruct k; cbn; lia. Qed.

Lemma handle_small n fuel : forall o d p flt w h e h', limited_to w o n ->
  handle fuel o d p flt w h = (Ok (Some e), h') -> (entry_count e <= most_lines n (Z.to_nat (o_max_depth o - d)))%nat.
Proof.
  induction fuel as [|fuel IH]; intros o d p flt w h e h' Hn H; apply handle_ok in H;
    destruct H as [(k & E & _)|[(_ & Hm & Hd & E)|(f' & dl & es & h1 & h2 & Ef & _ & Hlt & _ & _ & Hc & _ & _ & E)]];
    try (injection E as ->); try discriminate;
    try (pose proof (most_lines_pos n (Z.to_nat (o_max_depth o - d))); cbn; lia).
  injection Ef as <-. apply hdc_ok in Hc; [|intros; apply handle_not_none].
  destruct Hc as (mc & h3 & acc & h4 & order & h4' & new & shown & rest & h5 & Hl & _ & _ & _ & _ & _ & _ & HF & Hsh & ->).
  apply Hn in Hl. replace (Z.to_nat (o_max_depth o - d)) with (S (Z.to_nat (o_max_depth o - (d + 1)))) by lia.
  cbn [entry_count most_lines]. rewrite map_app, list_sum_app.
  assert (L : (length new <= n)%nat).
  { rewrite <- (same_length _ _ _ HF), Hsh. unfold limited. destruct (Z.ltb_spec mc 0); [lia|]. rewrite firstn_length. lia. }
  assert (S1 : (list_sum (map entry_count new) <= length new * most_lines n (Z.to_nat (o_max_depth o - (d + 1))))%nat).
  { apply list_sum_le. intros x Hx. clear -HF Hx IH Hn. induction HF as [|c y cs ys (h1 & h2 & He) HF IHF]; [destruct Hx|].
    destruct Hx as [->|Hx]; [eapply IH; eassumption|auto]. }
  assert (S2 : (list_sum (map entry_count (marker mc order p)) <= 1)%nat) by (unfold marker; destruct (_ && _); cbn; lia).
  assert (S3 : (length new * most_lines n (Z.to_nat (o_max_depth o - (d + 1))) <= n * most_lines n (Z.to_nat (o_max_depth o - (d + 1))))%nat)
    by now apply Nat.mul_le_mono_r.
  lia.
Qed.

Lemma chain_count v e ds es : chain_of v e ds es -> (S (list_sum (map entry_count es)) <= entry_count e)%nat.
Proof. induction 1 as [|d c ds es _ _ IH]; cbn in *; lia. Qed.

Lemma shows_count v s : forall top e, shows v top e s -> (length (rows (labelled v s)) <= entry_count e)%nat.
Proof.
  induction s as [c ks IH| |] using shown_ind'; intros top e H;
    [|inversion H; subst; cbn; lia..].
  assert (K : forall es, Forall2 (shows v false) es ks -> (list_sum (map (fun k => length (rows k)) (map (labelled v) ks)) <= list_sum (map entry_count es))%nat).
  { clear H. induction ks as [|k ks IHk]; intros es HF; inversion HF as [|x y l l' Hx HF']; subst; [cbn; lia|].
    inversion IH as [|a b Ha Hb]; subst. specialize (IHk Hb _ HF'). specialize (Ha _ _ Hx). cbn. unfold list_sum in IHk. lia. }
  cbn [labelled]. rewrite rows_eq. cbn [length]. rewrite rows_below_length.
  inversion H as [| | |t d es ks' Ht HF|e0 ds es ks' Hcp Hch HF]; subst; specialize (K _ HF).
  - cbn [entry_count]. lia.
  - apply chain_count in Hch. lia.
Qed.

Lemma C130_lemma : forall o p w h out h' v n,
  sees w o v -> distinguishable (o_tree_format o) -> limited_to w o n -> pretty_print o p w h = (Ok out, h') ->
  exists e h0 s, scan o (location w p) w h = (Ok e, h0) /\ shows v true e s /\ out = text (o_tree_format o) (labelled v s) /\
    (labels_on_one_line (labelled v s) -> (length (split_on c_nl out) <= most_lines n (Z.to_nat (o_max_depth o)))%nat).
Proof.
  intros o p w h out h' v n Hs Hd Hn H. destruct (print_displays _ _ _ _ _ _ _ Hs H) as (e & h0 & E & s & Hsh & Ho).
  exists e, h0, s. repeat split; auto. intro Hl. rewrite Ho, text_line_count by assumption.
  apply scan_handle in E. apply (handle_small n) in E; [|exact Hn]. rewrite Z.sub_0_r in E.
  pose proof (shows_count _ _ _ _ Hsh). lia.
Qed.
