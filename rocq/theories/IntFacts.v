(** * The arithmetic of int makes no difference: proofs *)

From Coq Require Import Permutation.
From Verif Require Import SpecInts SortFacts ScanFacts.
Open Scope Z_scope.

Lemma int_add_exact a b : is_int (a + b) -> int_add a b = a + b.
Proof. unfold is_int, int_add. intro H. rewrite Z.mod_small by lia. lia. Qed.

Lemma bind_same A B (m1 m2 : M A) (f1 f2 : A -> M B) w h : m1 w h = m2 w h ->
  (forall a h', m2 w h = (Ok a, h') -> f1 a w h' = f2 a w h') -> bind m1 f1 w h = bind m2 f2 w h.
Proof. intros E H. unfold bind. rewrite E. destruct (m2 w h) as [[a|x] h']; auto. Qed.

Lemma with_close_same A p x (m1 m2 : M A) w h : m1 w h = m2 w h -> with_close p x m1 w h = with_close p x m2 w h.
Proof. intro E. unfold with_close. now rewrite E. Qed.

Lemma filterM_length A (f : A -> M bool) w : forall l h r h', filterM f l w h = (Ok r, h') -> (length r <= length l)%nat.
Proof.
  induction l as [|a l IH]; intros h r h' E; cbn [filterM] in E.
  - injection E as <- _. auto.
  - unfold bind in E. destruct (f a w h) as [[b|] h1]; [|discriminate].
    destruct (filterM f l w h1) as [[r'|] h2] eqn:E2; [|discriminate]. injection E as <- _. apply IH in E2. destruct b; cbn [length]; lia.
Qed.
Lemma stream_length dir dl f w h l h' : stream_paths dir dl f w h = (Ok l, h') -> (length l <= length (dl_names dl))%nat.
Proof.
  unfold stream_paths, bind. intro E. destruct (filterM f (map (resolve_name dir) (dl_names dl)) w h) as [[r|] h1] eqn:F; [|discriminate].
  apply filterM_length in F. rewrite map_length in F. destruct (dl_fail dl); [discriminate|]. injection E as <- _. exact F.
Qed.

Lemma loop_same w hc1 hc2 hl mc : (forall c h, hc1 c w h = hc2 c w h) -> forall it count acc h,
  0 <= count -> count + Z.of_nat (length it) <= 2147483647 ->
  int_children_loop hc1 hl mc count acc it w h = children_loop hc2 hl mc count acc it w h.
Proof.
  intro Hc. induction it as [|c it IH]; intros count acc h H0 H; [reflexivity|]. cbn [int_children_loop children_loop length] in *.
  assert (E : int_add count 1 = count + 1) by (apply int_add_exact; unfold is_int; lia). rewrite E.
  assert (E' : int_add (count + 1) (-1) = count + 1 - 1) by (rewrite int_add_exact; unfold is_int; lia). rewrite E'.
  destruct (hl && (mc <? count + 1)); [reflexivity|]. apply bind_same; [apply Hc|]. intros [e|] h' _; apply IH; lia.
Qed.

Lemma children_same w o hc1 hc2 dir dl f h : (forall c h, hc1 c w h = hc2 c w h) -> is_int (Z.of_nat (length (dl_names dl))) ->
  int_handle_directory_children o hc1 dir dl f w h = handle_directory_children o hc2 dir dl f w h.
Proof.
  intros Hc Hl. unfold int_handle_directory_children, handle_directory_children.
  apply bind_same; [reflexivity|]. intros mc h1 _. apply bind_same; [reflexivity|]. intros l h2 E2.
  apply bind_same; [reflexivity|]. intros it h3 E3. apply stream_length in E2. apply sorted_perm in E3. apply Permutation_length in E3.
  unfold is_int in Hl. apply bind_same; [|reflexivity]. apply loop_same; [exact Hc|lia|lia].
Qed.

Lemma handle_same w o f : listings_fit w -> is_int (o_max_depth o) -> forall fuel d p h, is_int d ->
  int_handle fuel o d p f w h = handle fuel o d p f w h.
Proof.
  intros Hw Hm. induction fuel as [|fuel IH]; intros d p h Hd; cbn [int_handle handle]; [reflexivity|].
  apply bind_same; [reflexivity|]. intros [] h1 _; [|reflexivity].
  destruct (Z.leb_spec (o_max_depth o) d) as [|Hlt]; [reflexivity|].
  assert (Hd1 : is_int (d + 1)) by (unfold is_int in *; lia). rewrite (int_add_exact d 1 Hd1).
  apply bind_same; [reflexivity|]. intros [dl|] h2' Eo; [|reflexivity].
  assert (Ew : w_open w h1 p = Some dl) by (unfold open_dir in Eo; destruct (w_open w h1 p); inversion Eo; reflexivity).
  apply bind_same; [|reflexivity]. apply with_close_same. apply children_same; [|eapply Hw; exact Ew].
  intros c h2. apply IH. exact Hd1.
Qed.

Lemma C138_lemma : forall o p w h, listings_fit w -> is_int (o_max_depth o) -> int_pretty_print o p w h = pretty_print o p w h.
Proof.
  intros o p w h Hw Hm. unfold int_pretty_print, pretty_print, pretty_print_with.
  apply bind_same; [reflexivity|]. intros j h1 _. apply bind_same; [|reflexivity]. unfold int_scan, scan.
  apply bind_same; [reflexivity|]. intros r h2 _. apply bind_same; [|reflexivity]. apply handle_same; auto. unfold is_int. lia.
Qed.
