(** * Proofs about devices *)

From Verif Require Import SpecStream CharsetFacts CharsetCases.
Close Scope Z_scope.

(** Without trouble so far nothing is in the buffer and everything has arrived. *)
Definition calm (done : list N) (s : pstream) : Prop := ps_trouble s = false /\ ps_buffer s = [] /\ ps_arrived s = done.

Lemma device_write_calm dev b s s' : device_write dev b s = (s', true) -> ps_arrived s' = ps_arrived s ++ b /\ ps_buffer s' = ps_buffer s /\ ps_trouble s' = ps_trouble s.
Proof.
  unfold device_write. intro H. injection H as <- E. apply Nat.eqb_eq in E. cbn. rewrite E, firstn_all. auto.
Qed.

Lemma device_write_trouble dev b s : ps_trouble (fst (device_write dev b s)) = ps_trouble s.
Proof. reflexivity. Qed.

Lemma flush_trouble dev s : ps_trouble (fst (flush_buffer dev s)) = ps_trouble s.
Proof. unfold flush_buffer. destruct (ps_buffer s) eqn:E; [reflexivity|]. unfold device_write. now destruct (_ =? _). Qed.

Lemma buffer_trouble dev size b s : ps_trouble (fst (buffer_write dev size b s)) = ps_trouble s.
Proof.
  pose proof (flush_trouble dev s) as F. unfold buffer_write. destruct (size <=? length b); [destruct (flush_buffer dev s) as [s' []]; [now rewrite device_write_trouble|exact F]|].
  destruct (_ <? _); [destruct (flush_buffer dev s) as [s' []]; exact F|reflexivity].
Qed.

Lemma print_trouble dev size s b : ps_trouble s = true -> ps_trouble (print_bytes dev size s b) = true.
Proof.
  intro H. unfold print_bytes. pose proof (buffer_trouble dev size b s) as F. destruct (buffer_write dev size b s) as [s' []]; [|reflexivity].
  pose proof (flush_trouble dev s') as F'. destruct (flush_buffer dev s') as [s'' []]; [|reflexivity]. cbn in F, F'. congruence.
Qed.

Lemma flush_empty dev s : ps_buffer s = [] -> flush_buffer dev s = (s, true).
Proof. unfold flush_buffer. now intros ->. Qed.

(** One attempt: all the bytes of a piece in one write. *)
Lemma print_calm dev size s b done : calm done s -> b <> [] ->
  let k := Nat.min (dev (ps_attempts s) done (length b)) (length b) in
  exists buf, print_bytes dev size s b = mkPStream (done ++ firstn k b) (S (ps_attempts s)) buf (negb (k =? length b)) /\ (k = length b -> buf = []).
Proof.
  intros (Ht & Hb & Ha) Hn k. unfold print_bytes, buffer_write. rewrite (flush_empty dev s Hb), Hb. cbn [app length]. rewrite Nat.sub_0_r.
  destruct (size <=? length b) eqn:E.
  - unfold device_write. rewrite Ha. fold k. destruct (k =? length b) eqn:Ek.
    + rewrite flush_empty by (cbn; exact Hb). exists []. rewrite Hb, Ht. split; reflexivity.
    + exists []. cbn. rewrite Hb. split; [reflexivity|]. reflexivity.
  - destruct (size <? length b) eqn:E'; [apply Nat.leb_gt in E; apply Nat.ltb_lt in E'; lia|].
    unfold flush_buffer. cbn [ps_buffer]. destruct b as [|c b]; [easy|]. unfold device_write. cbn [ps_attempts ps_arrived ps_buffer ps_trouble]. rewrite Ha. fold k.
    destruct (k =? length (c :: b)) eqn:Ek.
    + exists []. cbn [negb]. rewrite Ht. split; reflexivity.
    + exists (c :: b). cbn [negb]. split; [reflexivity|]. apply Nat.eqb_neq in Ek. easy.
Qed.

Lemma print_nothing dev size s done : 0 < size -> calm done s -> print_bytes dev size s [] = s.
Proof.
  intros Hs (Ht & Hb & Ha). unfold print_bytes, buffer_write. rewrite Hb. cbn [app length]. destruct (size <=? 0) eqn:E; [apply Nat.leb_le in E; lia|].
  destruct (size - 0 <? 0) eqn:E'; [apply Nat.ltb_lt in E'; lia|]. unfold flush_buffer. cbn. destruct s as [sa sn sb st]. cbn in *. now subst.
Qed.

Lemma calm_from dev size pieces : 0 < size -> forall s done, calm done s -> ps_trouble (fold_left (print_bytes dev size) pieces s) = false ->
  calm (done ++ concat pieces) (fold_left (print_bytes dev size) pieces s).
Proof.
  intro Hs. assert (T : forall l s, ps_trouble s = true -> ps_trouble (fold_left (print_bytes dev size) l s) = true).
  { induction l as [|b l IH]; intros s H; [exact H|]. cbn. apply IH. now apply print_trouble. }
  induction pieces as [|b l IH]; intros s done Hc H; [now rewrite app_nil_r|]. cbn [fold_left concat] in *.
  destruct b as [|c b]; [rewrite (print_nothing dev size s done Hs Hc) in *; now apply IH|].
  destruct (print_calm dev size s (c :: b) done Hc ltac:(discriminate)) as (buf & E & Hbuf). rewrite E in *.
  destruct (Nat.min _ _ =? _) eqn:Ek; cbn [negb] in *; [|rewrite T in H by reflexivity; discriminate].
  apply Nat.eqb_eq in Ek. rewrite Ek, firstn_all in *. rewrite app_assoc. apply IH; [|exact H]. split; [reflexivity|]. split; [now apply Hbuf|reflexivity].
Qed.

Lemma no_trouble dev size pieces : 0 < size -> ps_trouble (print_all dev size pieces) = false -> ps_arrived (print_all dev size pieces) = concat pieces.
Proof. intros Hs H. destruct (calm_from dev size pieces Hs ps_start [] (conj eq_refl (conj eq_refl eq_refl)) H) as (_ & _ & E). exact E. Qed.

Lemma reliable_calm dev size pieces : 0 < size -> reliable dev -> ps_trouble (print_all dev size pieces) = false.
Proof.
  intros Hs Hr. unfold print_all. assert (C : calm [] ps_start) by (repeat split). revert C. generalize ps_start. generalize (@nil N).
  induction pieces as [|b l IH]; intros done s Hc; [apply Hc|]. cbn [fold_left].
  destruct b as [|c b]; [rewrite (print_nothing dev size s done Hs Hc); now apply (IH done)|].
  destruct (print_calm dev size s (c :: b) done Hc ltac:(discriminate)) as (buf & E & Hbuf). rewrite E.
  assert (Ek : Nat.min (dev (ps_attempts s) done (length (c :: b))) (length (c :: b)) = length (c :: b)) by (apply Nat.min_r, Hr).
  rewrite Ek, Nat.eqb_refl, firstn_all in *. apply (IH (done ++ c :: b)). split; [reflexivity|]. split; [now apply Hbuf|reflexivity].
Qed.

(** A full device takes nothing. *)
Definition full (room : nat) (done : list N) (s : pstream) : Prop := ps_trouble s = true /\ ps_arrived s = firstn room done /\ room < length done.

Lemma full_write room dev b s done : takes_only room dev -> full room done s -> ps_arrived (fst (device_write dev b s)) = ps_arrived s.
Proof.
  intros Hd (_ & Ha & Hl). unfold device_write. cbn. rewrite Hd, Ha, firstn_length, (Nat.min_l room (length done)) by lia. rewrite Nat.sub_diag. cbn. now rewrite app_nil_r.
Qed.

Lemma full_flush room dev s done : takes_only room dev -> full room done s -> ps_arrived (fst (flush_buffer dev s)) = ps_arrived s.
Proof.
  intros Hd Hf. unfold flush_buffer. destruct (ps_buffer s) as [|c b]; [reflexivity|]. pose proof (full_write room dev (c :: b) s done Hd Hf) as E.
  destruct (device_write dev (c :: b) s) as [s' []]; exact E.
Qed.

Lemma full_print room dev size s b done : takes_only room dev -> full room done s -> full room (done ++ b) (print_bytes dev size s b).
Proof.
  intros Hd Hf. pose proof (print_trouble dev size s b (proj1 Hf)) as Ht.
  assert (Hl : room < length (done ++ b)) by (destruct Hf as (_ & _ & Hf); rewrite app_length; lia).
  assert (He : firstn room (done ++ b) = firstn room done) by (destruct Hf as (_ & _ & Hf); rewrite firstn_app; replace (room - length done) with 0 by lia; cbn; now rewrite app_nil_r).
  split; [exact Ht|]. split; [|exact Hl]. rewrite He. destruct Hf as (Hst & Ha & Hlen).
  assert (K : forall s', ps_trouble s' = true -> ps_arrived s' = firstn room done -> full room done s') by (intros; repeat split; assumption).
  assert (Hb : ps_arrived (fst (buffer_write dev size b s)) = firstn room done).
  { unfold buffer_write. pose proof (full_flush room dev s done Hd (K s Hst Ha)) as E. pose proof (flush_trouble dev s) as Et.
    destruct (size <=? length b).
    - destruct (flush_buffer dev s) as [s' []]; cbn [fst] in E, Et |- *; [|congruence]. rewrite (full_write room dev b s' done Hd); [congruence|apply K; congruence].
    - destruct (_ <? _); [|exact Ha]. destruct (flush_buffer dev s) as [s' []]; cbn in E, Et |- *; congruence. }
  unfold print_bytes. pose proof (buffer_trouble dev size b s) as Et. destruct (buffer_write dev size b s) as [s' []]; cbn in Hb, Et; [|exact Hb].
  pose proof (full_flush room dev s' done Hd (K s' ltac:(congruence) Hb)) as E. destruct (flush_buffer dev s') as [s'' []]; cbn in E |- *; congruence.
Qed.

Lemma room_lemma room dev size pieces : 0 < size -> takes_only room dev -> ps_arrived (print_all dev size pieces) = firstn room (concat pieces).
Proof.
  intros Hs Hd.
  assert (F : forall l s done, full room done s -> ps_arrived (fold_left (print_bytes dev size) l s) = firstn room (done ++ concat l)).
  { induction l as [|b l IH]; intros s done Hf; cbn [fold_left concat]; [rewrite app_nil_r; apply Hf|]. rewrite app_assoc. apply IH. now apply full_print. }
  assert (G : forall l s done, calm done s -> length done <= room -> ps_arrived (fold_left (print_bytes dev size) l s) = firstn room (done ++ concat l)).
  { induction l as [|b l IH]; intros s done Hc Hr; cbn [fold_left concat]; [rewrite app_nil_r, firstn_all2 by exact Hr; apply Hc|].
    destruct b as [|c b]; [rewrite (print_nothing dev size s done Hs Hc); now apply IH|].
    destruct (print_calm dev size s (c :: b) done Hc ltac:(discriminate)) as (buf & E & Hbuf). rewrite E, app_assoc. rewrite Hd in *.
    destruct (Nat.le_gt_cases (length (c :: b)) (room - length done)) as [L|L].
    - rewrite (Nat.min_r _ _ L), firstn_all, Nat.eqb_refl in *. apply IH; [|rewrite app_length; lia]. split; [reflexivity|]. split; [now apply Hbuf|reflexivity].
    - rewrite (Nat.min_l _ _ (Nat.lt_le_incl _ _ L)) in *. apply F. split; [cbn [ps_trouble]; apply negb_true_iff, Nat.eqb_neq; lia|]. split; [|rewrite app_length; lia].
      cbn [ps_arrived]. now rewrite firstn_app, (firstn_all2 done) by exact Hr. }
  unfold print_all. apply (G pieces ps_start []); [repeat split|apply Nat.le_0_l].
Qed.

Lemma enough_room room dev size pieces : 0 < size -> takes_only room dev -> length (concat pieces) <= room -> ps_trouble (print_all dev size pieces) = false.
Proof.
  intros Hs Hd. unfold print_all. assert (C : calm [] ps_start) by (repeat split). change (length (concat pieces)) with (length ([] ++ concat pieces)). revert C. generalize ps_start. generalize (@nil N).
  induction pieces as [|b l IH]; intros done s Hc Hl; [apply Hc|]. cbn [fold_left concat] in *.
  destruct b as [|c b]; [rewrite (print_nothing dev size s done Hs Hc); now apply (IH done)|].
  destruct (print_calm dev size s (c :: b) done Hc ltac:(discriminate)) as (buf & E & Hbuf). rewrite E. rewrite Hd in *.
  assert (Ek : Nat.min (room - length done) (length (c :: b)) = length (c :: b)) by (apply Nat.min_r; rewrite !app_length in Hl; lia).
  rewrite Ek, Nat.eqb_refl, firstn_all in *. apply (IH (done ++ c :: b)); [|now rewrite <- app_assoc]. split; [reflexivity|]. split; [now apply Hbuf|reflexivity].
Qed.

Lemma arrival dev size cs w a pieces : 0 < size -> written_in cs w a pieces ->
  let out := encode cs (cs_out (snd (run_cli a w cli_start))) in let r := print_all dev size pieces in
  (ps_trouble r = false -> ps_arrived r = out) /\
  (reliable dev -> ps_trouble r = false) /\
  (forall room, takes_only room dev -> ps_arrived r = firstn room out /\ (ps_trouble r = true <-> room < length out)).
Proof.
  intros Hs Hw out r. unfold written_in in Hw. fold out in Hw. subst r. rewrite <- Hw. split; [now apply no_trouble|]. split; [now apply reliable_calm|].
  intros room Hd. pose proof (room_lemma room dev size pieces Hs Hd) as E. split; [exact E|]. split; intro H.
  - destruct (Nat.le_gt_cases (length (concat pieces)) room) as [L|L]; [|exact L]. rewrite (enough_room room dev size pieces Hs Hd L) in H. discriminate.
  - destruct (ps_trouble (print_all dev size pieces)) eqn:T; [reflexivity|]. exfalso. rewrite (no_trouble dev size pieces Hs T) in E. apply (f_equal (@length N)) in E. rewrite firstn_length in E. lia.
Qed.

Lemma tree_arrival dev size cs w a t pieces : 0 < size -> extends_ascii cs -> asks_for w a t -> written_in cs w a pieces -> ps_trouble (print_all dev size pieces) = false ->
  exists tf r, legible_format cs UNICODE_BOX_DRAWING tf /\ legible_tree cs t r /\ ps_arrived (print_all dev size pieces) = flat_map (bytes_of cs) (text tf r ++ cw_linesep w).
Proof.
  intros Hs He Ha Hw Ht. destruct (what_arrives cs w a t He Ha) as (_ & tf & r & H1 & H2 & H3 & _). exists tf, r. split; [exact H1|]. split; [exact H2|].
  destruct (arrival dev size cs w a pieces Hs Hw) as (A & _). rewrite (A Ht). exact H3.
Qed.

Definition no_room : device := fun _ _ _ => 0.

Lemma exit_counterexample size : exists dev w a t pieces, asks_for w a t /\ written_in UTF_8 w a pieces /\ fst (run_cli a w cli_start) = 0%Z /\
  cs_err (snd (run_cli a w cli_start)) = [] /\ ps_arrived (print_all dev size pieces) = [] /\ concat pieces <> [].
Proof.
  exists no_room, (one_cli smile), target_args, (one_tree smile), [encode UTF_8 (cs_out (snd (run_cli target_args (one_cli smile) cli_start)))].
  split; [exact smile_asked|]. split; [unfold written_in; cbn [concat]; apply app_nil_r|]. split; [vm_compute; reflexivity|]. split; [vm_compute; reflexivity|].
  split; [|vm_compute; discriminate].
  destruct (print_calm no_room size ps_start (encode UTF_8 (cs_out (snd (run_cli target_args (one_cli smile) cli_start)))) []) as (buf & E & _); [repeat split|vm_compute; discriminate|].
  unfold print_all. cbn [fold_left]. rewrite E. reflexivity.
Qed.
