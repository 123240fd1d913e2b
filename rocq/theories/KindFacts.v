(** * Proofs about reading paths together with what they are *)

From Coq Require Import Lia Arith.
From Verif Require Import SpecKinds PathFacts RenderFacts ShownFacts PrintFacts OutlineFacts TreeFacts ScanFacts ScanPrintFacts ReadFacts.
Open Scope nat_scope.

Fixpoint entry_items (e : entry) : list (path * option jstring) :=
  match e with
  | EDir d es => (d, None) :: flat_map entry_items es
  | EFile f k => [(f, Some (kind_mark k))]
  | _ => []
  end.

Lemma items_paths e : map fst (entry_items e) = entry_paths e.
Proof.
  induction e as [d es IH|f k|q|n] using entry_ind'; try reflexivity. cbn [entry_items entry_paths map]. f_equal.
  induction IH as [|c es Hc IH IHl]; [reflexivity|]. cbn [flat_map]. now rewrite map_app, Hc, IHl.
Qed.

Lemma chain_items v : forall e ds es, chain_of v e ds es -> entry_items e = map (fun d => (d, None)) ds ++ flat_map entry_items es.
Proof.
  induction 1 as [d es Hm|d c ds es Hm Hc IH]; [reflexivity|]. cbn [entry_items flat_map map]. now rewrite app_nil_r, IH.
Qed.

Lemma shows_items v : forall top e s, shows v top e s -> forall base, placed e -> sits_in base e -> outline_items base (outline_of s) = entry_items e.
Proof.
  fix IH 4. intros top e s H base Hp Hs. destruct H as [t f k|t q|t q|t q es ks Hc HF|e ds es ks Hc Hch HF].
  - cbn. now rewrite <- (Hs f eq_refl).
  - reflexivity.
  - reflexivity.
  - apply placed_dir in Hp. cbn [outline_of outline_items map steps fold_left entry_items app]. rewrite <- (Hs q eq_refl). f_equal.
    clear Hc Hs. induction HF as [|x y es ks Hx HF IHF]; [reflexivity|]. inversion Hp as [|? ? [Hp1 Hs1] Hp2]; subst. cbn [map flat_map].
    rewrite (IH _ _ _ Hx q Hp1 Hs1), IHF by exact Hp2. reflexivity.
  - destruct (chain_steps _ _ _ _ Hch base Hp Hs) as (E1 & E2 & _). rewrite (chain_items _ _ _ _ Hch). cbn [outline_of outline_items]. rewrite E1. f_equal.
    clear E1 Hc Hch Hp Hs. induction HF as [|x y es ks Hx HF IHF]; [reflexivity|]. inversion E2 as [|? ? [Hp1 Hs1] Hp2]; subst. cbn [map flat_map].
    rewrite (IH _ _ _ Hx _ Hp1 Hs1), IHF by exact Hp2. reflexivity.
Qed.

Lemma tree_items st dk e : forall d p, tree_at st dk d p e -> forall q m, In (q, m) (entry_items e) -> is_marked dk q m.
Proof.
  induction e as [r es IH|f k|r|n] using entry_ind'; intros d p H q m Hq;
    inversion H as [? ? ? Hnd Hk|? ? Hd Hm|? ? names order es0 Hd Hm Hl Ho HF]; subst.
  - destruct Hq as [E|[]]. injection E as <- <-. exact Hd.
  - destruct Hq as [E|Hq]; [injection E as <- <-; exact Hd|]. apply in_flat_map in Hq as (c & Hc & Hq). apply in_app_or in Hc as [Hc|Hc].
    + destruct (Forall2_in_r _ _ _ _ _ _ HF Hc) as (x & _ & Ht). rewrite Forall_forall in IH. eapply (IH c); eauto. apply in_or_app. now left.
    + unfold marker in Hc. destruct (_ && _)%bool; [|destruct Hc]. destruct Hc as [<-|[]]. destruct Hq.
  - destruct Hq as [E|[]]. injection E as <- <-. split; [exact Hnd|]. exists k. split; [exact Hk|]. now destruct k.
Qed.

Lemma marked_fun dk q m1 m2 : is_marked dk q m1 -> is_marked dk q m2 -> m1 = m2.
Proof.
  destruct m1 as [m1|], m2 as [m2|]; cbn; try tauto. intros (_ & k1 & E1 & ->) (_ & k2 & E2 & ->). rewrite E1 in E2. now injection E2 as ->.
Qed.

Theorem run_items o p w h out h' v dk st :
  steady w dk -> distinct_names dk -> uses w o st -> sees w o v -> (forall q, (s_limit st q < 0)%Z) -> bare v -> distinguishable (o_tree_format o) ->
  pretty_print o p w h = (Ok out, h') ->
  exists e s, tree_at st dk 0 (location w p) e /\ shows v true e s /\
    (clear_names s -> exists items, read_items (o_tree_format o) (location w p) out = Some items /\ NoDup (map fst items) /\
       (forall q m, In (q, m) items <-> (exists d, reach st dk 0 (location w p) d q) /\ is_marked dk q m) /\
       forall q d, reach st dk 0 (location w p) d q -> exists m, In (q, m) items).
Proof.
  intros Hw Hdn Hu Hs Hl B Hd H. destruct (print_tree _ _ _ _ _ _ _ _ _ Hw Hu Hs H) as (e & s & Ht & Hsh & ->). exists e, s. split; [exact Ht|]. split; [exact Hsh|].
  intro C. exists (entry_items e).
  assert (G : forall q d, reach st dk 0 (location w p) d q -> exists m, In (q, m) (entry_items e)).
  { intros q d Hr. pose proof (tree_reach_paths _ _ _ Hl _ _ Ht _ _ Hr) as Hq. rewrite <- items_paths in Hq. apply in_map_iff in Hq as ([q' m] & E & Hq). cbn in E. subst q'. now exists m. }
  split; [|split; [|split; [|exact G]]].
  - unfold read_items. rewrite read_text_text; [|exact Hd|now apply clear_one_line]. cbn [option_map]. rewrite read_names_labelled by assumption.
    f_equal. eapply shows_items; [exact Hsh|eapply tree_placed; exact Ht|]. intros q Hq. pose proof (clear_root _ _ _ Hsh C q Hq) as Hn.
    rewrite (tree_at_path _ _ _ _ _ Ht) in Hq. injection Hq as <-. now apply directory_child.
  - rewrite items_paths. eapply tree_paths_NoDup; eauto.
  - intros q m. split.
    + intro Hq. split; [|eapply tree_items; eauto]. eapply tree_paths_reach; [exact Ht|]. rewrite <- items_paths. change q with (fst (q, m)). now apply in_map.
    + intros [[d Hr] Hm]. destruct (G q d Hr) as [m' Hq]. rewrite (marked_fun dk q m m' Hm); [exact Hq|]. eapply tree_items; eauto.
Qed.

Theorem equal_texts o1 o2 p1 p2 w1 w2 h1 h2 out h1' h2' v1 v2 dk1 dk2 st1 st2 :
  steady w1 dk1 -> distinct_names dk1 -> uses w1 o1 st1 -> sees w1 o1 v1 -> (forall q, (s_limit st1 q < 0)%Z) -> bare v1 ->
  steady w2 dk2 -> distinct_names dk2 -> uses w2 o2 st2 -> sees w2 o2 v2 -> (forall q, (s_limit st2 q < 0)%Z) -> bare v2 ->
  o_tree_format o1 = o_tree_format o2 -> distinguishable (o_tree_format o1) -> location w1 p1 = location w2 p2 ->
  pretty_print o1 p1 w1 h1 = (Ok out, h1') -> pretty_print o2 p2 w2 h2 = (Ok out, h2') ->
  exists e1 s1 e2 s2, tree_at st1 dk1 0 (location w1 p1) e1 /\ shows v1 true e1 s1 /\ tree_at st2 dk2 0 (location w2 p2) e2 /\ shows v2 true e2 s2 /\
    (clear_names s1 -> clear_names s2 ->
       forall q, ((exists d, reach st1 dk1 0 (location w1 p1) d q) <-> (exists d, reach st2 dk2 0 (location w2 p2) d q)) /\
         ((exists d, reach st1 dk1 0 (location w1 p1) d q) -> forall m, is_marked dk1 q m <-> is_marked dk2 q m)).
Proof.
  intros A1 A2 A3 A4 A5 A6 B1 B2 B3 B4 B5 B6 Et Hd El H1 H2.
  destruct (run_items _ _ _ _ _ _ _ _ _ A1 A2 A3 A4 A5 A6 Hd H1) as (e1 & s1 & T1 & S1 & R1).
  rewrite Et in Hd. destruct (run_items _ _ _ _ _ _ _ _ _ B1 B2 B3 B4 B5 B6 Hd H2) as (e2 & s2 & T2 & S2 & R2).
  exists e1, s1, e2, s2. split; [exact T1|]. split; [exact S1|]. split; [exact T2|]. split; [exact S2|].
  intros C1 C2. destruct (R1 C1) as (l1 & Q1 & _ & I1 & G1). destruct (R2 C2) as (l2 & Q2 & _ & I2 & G2).
  rewrite Et, El in Q1. rewrite Q1 in Q2. injection Q2 as <-.
  assert (F : forall q, (exists d, reach st1 dk1 0 (location w1 p1) d q) <-> (exists d, reach st2 dk2 0 (location w2 p2) d q)).
  { intro q. split; intros [d Hr].
    - destruct (G1 q d Hr) as [m Hm]. now apply I2 in Hm.
    - destruct (G2 q d Hr) as [m Hm]. now apply I1 in Hm. }
  intro q. split; [apply F|]. intros Hr m. split; intro Hm.
  - apply (I2 q m). apply I1. now split.
  - apply (I1 q m). apply I2. split; [now apply F|exact Hm].
Qed.
