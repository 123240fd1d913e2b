(** * Proofs about comparing two outputs of the program *)

From Coq Require Import Lia Arith.
From Verif Require Import SpecKinds SpecReadCli RenderFacts ShownFacts OutlineFacts PrintFacts TreeFacts ScanFacts ScanPrintFacts ReadFacts KindFacts MetaFacts ReadCliFacts Cases MetaCases.
Open Scope nat_scope.

Lemma plain_items pc w args dk r s : plain_run w args dk r ->
  exists s' out items, execute pc args w s = (0%Z, s') /\ cs_out s' = cs_out s ++ out ++ cw_linesep w /\ cs_err s' = cs_err s /\
    read_items UNICODE_BOX_DRAWING r out = Some items /\
    (forall q m, In (q, m) items -> (exists ns, listed dk r ns /\ length ns <= 20 /\ q = deeper r ns) /\ is_marked dk q m) /\
    (forall ns, listed dk r ns -> length ns <= 20 -> exists m, In (deeper r ns, m) items) /\
    forall h, exists h', pretty_print default_options r (cw_world w) h = (Ok out, h').
Proof.
  intros (fs & t & f & tp & fp & T & ex & Ht & Hf & Hw & Hfs & Hls & Hres & Hex & Hch & Hst & Hdn & Hrl & HT & Hne & -> & Hread & Hroot & Hnames).
  destruct (words_shown pc w fs t f tp fp args T ex dk s Ht Hf Hw Hfs Hls Hres Hex Hch Hst Hdn Hrl HT Hne Hread Hroot Hnames)
    as (s' & out & e & sh & E1 & E2 & E3 & Htr & Hsh & C & -> & _ & Hp).
  assert (B : bare plain_view) by (split; reflexivity).
  eexists s', _, (entry_items e). split; [exact E1|]. split; [exact E2|]. split; [exact E3|]. split; [|split; [|split; [|exact Hp]]].
  - unfold read_items. rewrite read_text_text; [|exact (proj2 C02_builtin_lemma)|now apply clear_one_line]. cbn [option_map]. rewrite read_names_labelled by assumption.
    f_equal. eapply shows_items; [exact Hsh|eapply tree_placed; exact Htr|]. intros q Hq. pose proof (clear_root _ _ _ Hsh C q Hq) as Hn.
    rewrite (tree_at_path _ _ _ _ _ Htr) in Hq. injection Hq as <-. now apply directory_child.
  - intros q m Hq. split; [|eapply tree_items; eauto]. apply reach_default. eapply tree_paths_reach; [exact Htr|]. rewrite <- items_paths.
    change q with (fst (q, m)). now apply in_map.
  - intros ns Hns L. destruct (proj2 (reach_default dk _ (deeper _ ns)) (ex_intro _ ns (conj Hns (conj L eq_refl)))) as [d Hr].
    assert (Hq : In (deeper (mkPath true (p_names T)) ns) (entry_paths e)) by (refine (tree_reach_paths _ _ _ _ _ _ Htr _ _ Hr); intro x; cbn; lia).
    rewrite <- items_paths in Hq. apply in_map_iff in Hq as ([q m] & E & Hq). cbn in E. subst q. now exists m.
Qed.

Lemma deeper_inj r a b : deeper r a = deeper r b -> a = b.
Proof. unfold deeper. intro H. injection H as H. now apply app_inv_head in H. Qed.

Theorem equal_outputs pc w1 w2 args1 args2 dk1 dk2 r s1 s2 : plain_run w1 args1 dk1 r -> plain_run w2 args2 dk2 r ->
  exists s1' s2' out1 out2,
    execute pc args1 w1 s1 = (0%Z, s1') /\ cs_out s1' = cs_out s1 ++ out1 ++ cw_linesep w1 /\
    execute pc args2 w2 s2 = (0%Z, s2') /\ cs_out s2' = cs_out s2 ++ out2 ++ cw_linesep w2 /\
    (out1 = out2 -> forall ns, length ns <= 20 ->
       (listed dk1 r ns <-> listed dk2 r ns) /\
       (listed dk1 r ns -> forall m, is_marked dk1 (deeper r ns) m <-> is_marked dk2 (deeper r ns) m)).
Proof.
  intros P1 P2. destruct (plain_items pc _ _ _ _ s1 P1) as (s1' & o1 & l1 & A1 & A2 & _ & A3 & A4 & A5 & _).
  destruct (plain_items pc _ _ _ _ s2 P2) as (s2' & o2 & l2 & B1 & B2 & _ & B3 & B4 & B5 & _).
  exists s1', s2', o1, o2. split; [exact A1|]. split; [exact A2|]. split; [exact B1|]. split; [exact B2|].
  intros <- ns L. rewrite A3 in B3. injection B3 as <-.
  assert (F : listed dk1 r ns -> listed dk2 r ns).
  { intro H. destruct (A5 ns H L) as [m Hm]. destruct (B4 _ _ Hm) as [(ns' & H' & _ & E) _]. apply deeper_inj in E. now subst. }
  split; [split; [exact F|]|].
  - intro H. destruct (B5 ns H L) as [m Hm]. destruct (A4 _ _ Hm) as [(ns' & H' & _ & E) _]. apply deeper_inj in E. now subst.
  - intros H m. destruct (A5 ns H L) as [k Hk]. destruct (A4 _ _ Hk) as [_ K1]. destruct (B4 _ _ Hk) as [_ K2]. split; intro M.
    + now rewrite (marked_fun _ _ _ _ M K1).
    + now rewrite (marked_fun _ _ _ _ M K2).
Qed.

Theorem same_outputs pc w1 w2 args1 args2 dk1 dk2 r1 r2 s1 s2 : plain_run w1 args1 dk1 r1 -> plain_run w2 args2 dk2 r2 ->
  last_name r1 = last_name r2 -> same_content dk1 r1 dk2 r2 ->
  exists s1' s2' out,
    execute pc args1 w1 s1 = (0%Z, s1') /\ cs_out s1' = cs_out s1 ++ out ++ cw_linesep w1 /\
    execute pc args2 w2 s2 = (0%Z, s2') /\ cs_out s2' = cs_out s2 ++ out ++ cw_linesep w2.
Proof.
  intros P1 P2 El Hc. destruct (plain_items pc _ _ _ _ s1 P1) as (s1' & o1 & l1 & A1 & A2 & _ & _ & _ & _ & A3).
  destruct (plain_items pc _ _ _ _ s2 P2) as (s2' & o2 & l2 & B1 & B2 & _ & _ & _ & _ & B3).
  destruct P1 as (fs1 & t1 & f1 & tp1 & fp1 & T1 & ex1 & _ & _ & _ & _ & _ & _ & _ & _ & S1 & _ & _ & R1 & _ & -> & _).
  destruct P2 as (fs2 & t2 & f2 & tp2 & fp2 & T2 & ex2 & _ & _ & _ & _ & _ & _ & _ & _ & S2 & D2 & _ & R2 & N2 & -> & _).
  destruct (A3 []) as (h1 & H1).
  assert (G : exists h', pretty_print default_options (mkPath true (p_names T2)) (cw_world w2) [] = (Ok o1, h')).
  { pose proof (DocTreeFacts.location_real (cw_world w1) (p_names T1) R1) as L1. pose proof (DocTreeFacts.location_real (cw_world w2) (p_names T2) R2) as L2.
    pose proof (configured_of _ _ _ (default_uses (cw_world w1)) (or_introl eq_refl)) as O.
    refine (C91_lemma default_options default_options (mkPath true (p_names T1)) (mkPath true (p_names T2)) (cw_world w1) (cw_world w2) [] o1 h1
      plain_view plain_view dk1 dk2 default_settings default_settings S1 S2 D2 (default_uses _) (default_uses _) (default_sees _) (default_sees _)
      O O eq_refl _ _ eq_refl _ _ _ H1 []); rewrite ?L1, ?L2; try assumption; [apply default_moves|apply plain_moves]. }
  destruct G as (h2 & H2). destruct (B3 []) as (h3 & H3). rewrite H2 in H3. injection H3 as <- _. exists s1', s2', o1. auto.
Qed.
