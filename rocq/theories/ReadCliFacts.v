(** * Proofs about reading what the command line program writes *)

From Coq Require Import Lia Arith.
From Verif Require Import SpecWhole WholeFacts SpecReadCli Arguments SpecArgs RenderFacts ShownFacts OutlineFacts PrintFacts ReadFacts TreeFacts ScanFacts SortFacts ScanPrintFacts MetaFacts DocTreeFacts CharsetFacts CharsetCases ArgsFacts ArgsDocFacts Cases.
Open Scope nat_scope.

Lemma tellable_chain v : forall e ds es, chain_of v e ds es -> ds <> [] /\ entry_paths e = ds ++ flat_map entry_paths es.
Proof.
  induction 1 as [d es Hm|d c ds es Hm Hc [IH1 IH2]]; (split; [discriminate|]); [reflexivity|]. cbn [entry_paths flat_map]. now rewrite app_nil_r, IH2.
Qed.

Lemma tellable_clear v : forall top e s, shows v top e s -> (forall q, In q (entry_paths e) -> tellable (last_name q)) -> clear_names s.
Proof.
  fix IH 4. intros top e s H Hn. destruct H as [t f k|t q|t q|t q es ks Hc HF|e ds es ks Hc Hch HF].
  - destruct (Hn f (or_introl eq_refl)) as (H1 & H2 & _). now constructor.
  - constructor.
  - constructor.
  - constructor; [discriminate| |].
    + intros d [<-|[]]. apply (Hn q). now left.
    + assert (Hk : forall x, In x (flat_map entry_paths es) -> tellable (last_name x)) by (intros; apply Hn; now right). clear Hc Hn.
      induction HF as [|x y es ks Hx HF IHF]; [intros ? []|]. cbn [flat_map] in Hk. intros k [<-|Hi].
      * eapply IH; [exact Hx|]. intros; apply Hk, in_or_app; now left.
      * apply IHF; [|exact Hi]. intros; apply Hk, in_or_app; now right.
  - destruct (tellable_chain _ _ _ _ Hch) as [Hne Ep]. constructor; [exact Hne| |].
    + intros d Hd. apply (Hn d). rewrite Ep. apply in_or_app. now left.
    + assert (Hk : forall x, In x (flat_map entry_paths es) -> tellable (last_name x)) by (intros; apply Hn; rewrite Ep; apply in_or_app; now right). clear Hc Hch Hn Ep Hne.
      induction HF as [|x y es ks Hx HF IHF]; [intros ? []|]. cbn [flat_map] in Hk. intros k [<-|Hi].
      * eapply IH; [exact Hx|]. intros; apply Hk, in_or_app; now left.
      * apply IHF; [|exact Hi]. intros; apply Hk, in_or_app; now right.
Qed.

Lemma tellable_percent v s : bare v -> (forall q, In q (shown_paths s) -> tellable (last_name q)) -> forall r, In r (rows (labelled v s)) -> ~ In c_percent (snd r).
Proof.
  intro B. induction s as [chain ks IH|f k|] using shown_ind'; intro C; rewrite ?(dir_label_text v), ?(file_label_text v) by assumption.
  - apply (rows_labels (fun l => ~ In c_percent l)).
    + intro H. apply in_concat in H. destruct H as (x & Hx & H). apply in_map_iff in Hx. destruct Hx as (n & <- & Hn).
      apply in_map_iff in Hn. destruct Hn as (d & <- & Hd). apply in_app_or in H. destruct H as [H|[H|[]]]; [|discriminate H].
      apply (proj2 (proj2 (C d (in_or_app _ _ _ (or_introl Hd)))) H).
    + intros t r Ht. apply in_map_iff in Ht. destruct Ht as (s & <- & Hs). rewrite Forall_forall in IH. apply (IH s Hs).
      intros q Hq. apply C. cbn [shown_paths]. apply in_or_app. right. apply in_flat_map. now exists s.
  - apply (rows_labels (fun l => ~ In c_percent l)); [|intros ? ? []].
    intro H. apply in_app_or in H. destruct H as [H|H]; [exact (proj2 (proj2 (C f (or_introl eq_refl))) H)|]. destruct k; cbn in H; intuition discriminate.
  - cbn [labelled]. apply (rows_labels (fun l => ~ In c_percent l)); [|intros ? ? []]. cbn. intuition discriminate.
Qed.

Lemma reach_default dk r q : (exists d, reach default_settings dk 0 r d q) <-> exists ns, listed dk r ns /\ length ns <= 20 /\ q = deeper r ns.
Proof.
  split.
  - intros [d H]. assert (G : exists ns, listed dk r ns /\ length ns <= 20 /\ q = deeper r ns /\ Z.of_nat (length ns) = d); [|destruct G as (ns & ?); exists ns; tauto].
    induction H as [|d q names n Hr IH Hd Hlt Hl Hin Ha].
    + exists []. repeat split; [constructor|cbn; lia|symmetry; apply under_nil].
    + destruct IH as (ns & H1 & H2 & -> & H4). exists (ns ++ [n]). rewrite app_length. cbn [length s_depth default_settings] in *.
      split; [eapply listed_entry; eauto|]. split; [lia|]. split; [apply under_child|lia].
  - intros (ns & H & Hlen & ->). exists (Z.of_nat (length ns)). induction H as [|ns l n H IH Hd Hl Hin].
    + rewrite under_nil. constructor.
    + rewrite app_length in *. cbn [length] in *. specialize (IH ltac:(lia)).
      replace (Z.of_nat (length ns + 1)) with (Z.of_nat (length ns) + 1)%Z by lia.
      rewrite <- under_child. eapply reach_child; eauto; [cbn; lia|]. unfold accepts. now destruct (is_dirb _ _).
Qed.

Lemma words_shown pc w fs t f tp fp args T ex dk s :
  target_part t tp -> options_part f fp -> written (tp ++ fp) args ->
  let a := mkArgs (option_map path_of t) (option_map path_of f) false in
  steady_files w fs -> usual_linesep (cw_linesep w) ->
  resolved (jv_cwd (w_jvm (cw_world w))) (asked_target a) T -> f_exists fs T = true ->
  chooses w fs a T ex UseDefault ->
  steady (cw_world w) dk -> distinct_names dk -> real_listings dk -> Forall real_name (p_names T) -> p_names T <> [] ->
  let r := mkPath true (p_names T) in
  all_can_be_read dk r -> tellable (last_name r) -> (forall ns n, listed dk r (ns ++ [n]) -> tellable n) ->
  exists s' out e sh, execute pc args w s = (0%Z, s') /\ cs_out s' = cs_out s ++ out ++ cw_linesep w /\ cs_err s' = cs_err s /\
    tree_at default_settings dk 0 r e /\ shows plain_view true e sh /\ clear_names sh /\ out = text UNICODE_BOX_DRAWING (labelled plain_view sh) /\
    read_paths UNICODE_BOX_DRAWING r out = Some (entry_paths e) /\
    forall h, exists h', pretty_print default_options r (cw_world w) h = (Ok out, h').
Proof.
  intros Ht Hf Hw a Hfs Hls Hres Hex Hch Hst Hdn Hrl HT Hne r Hread Hroot Hnames.
  pose proof (words_document pc w fs t f tp fp args T ex UseDefault bare_document dk s Ht Hf Hw Hfs Hls Hres Hex Hch (or_intror (conj eq_refl eq_refl)) Hst Hdn Hrl HT Hne
    ltac:(discriminate)) as [HD _].
  destruct (pretty_print_returns default_options r (cw_world w) dk default_settings plain_view Hst (default_uses _) (default_sees _)) as (out & Hout).
  - unfold r. rewrite location_real by exact HT. intros d p Hp. apply reach_listed in Hp as (ns & Hns & ->). destruct (Hread ns Hns) as [H1 H2]. split.
    + intros Hd _. destruct (d_list dk _) as [l|]; [|now destruct (H1 Hd)]. exists l. split; [reflexivity|left]. apply contract_alphabetical.
    + intro Hd. destruct (d_attr dk _) as [k|]; [now exists k|]. now destruct (H2 Hd).
  - unfold r. now rewrite location_real.
  - destruct (Hout []) as (h' & P).
    assert (B : bare plain_view) by (split; reflexivity).
    destruct (run_paths default_options r (cw_world w) [] out h' plain_view dk default_settings Hst (default_uses _) (default_sees _) B (proj2 C02_builtin_lemma) P)
      as (e & sh & Htr & Hsh & Eo & R).
    unfold r in Htr, R. rewrite location_real in Htr, R by exact HT. fold r in Htr, R.
    assert (Hall : forall q, In q (entry_paths e) -> tellable (last_name q)).
    { intros q Hq. pose proof (tree_listed _ _ _ _ _ Htr) as HL. rewrite Forall_forall in HL. destruct (HL q Hq) as (ns & Hns & ->).
      destruct ns as [|n ns] using rev_ind; [now rewrite under_nil|]. replace (last_name (deeper r (ns ++ [n]))) with n; [now apply (Hnames ns)|].
      unfold deeper, last_name. cbn [p_names]. now rewrite app_assoc, last_last. }
    specialize (R (tellable_clear _ _ _ _ Hsh Hall)).
    destruct (HD out) as [HW _].
    + intros g [].
    + exists default_settings, plain_view, e, sh. split; [apply bare_follows|]. auto.
    + destruct (HW out) as (E1 & E2 & E3).
      * apply plain_written. rewrite Eo. apply text_percent. apply tellable_percent; [exact B|]. rewrite (shows_paths _ _ _ _ Hsh). exact Hall.
      * exists (snd (execute pc args w s)), out, e, sh. split; [rewrite <- E1; apply surjective_pairing|]. split; [exact E2|]. split; [exact E3|].
        split; [exact Htr|]. split; [exact Hsh|]. split; [exact (tellable_clear _ _ _ _ Hsh Hall)|]. split; [exact Eo|]. split; [exact R|exact Hout].
Qed.

Theorem words_paths pc w fs t f tp fp args T ex dk s :
  target_part t tp -> options_part f fp -> written (tp ++ fp) args ->
  let a := mkArgs (option_map path_of t) (option_map path_of f) false in
  steady_files w fs -> usual_linesep (cw_linesep w) ->
  resolved (jv_cwd (w_jvm (cw_world w))) (asked_target a) T -> f_exists fs T = true ->
  chooses w fs a T ex UseDefault ->
  steady (cw_world w) dk -> distinct_names dk -> real_listings dk -> Forall real_name (p_names T) -> p_names T <> [] ->
  let r := mkPath true (p_names T) in
  all_can_be_read dk r -> tellable (last_name r) -> (forall ns n, listed dk r (ns ++ [n]) -> tellable n) ->
  exists s' out paths, execute pc args w s = (0%Z, s') /\ cs_out s' = cs_out s ++ out ++ cw_linesep w /\ cs_err s' = cs_err s /\
    read_paths UNICODE_BOX_DRAWING r out = Some paths /\ NoDup paths /\
    forall q, In q paths <-> exists ns, listed dk r ns /\ length ns <= 20 /\ q = deeper r ns.
Proof.
  intros Ht Hf Hw a Hfs Hls Hres Hex Hch Hst Hdn Hrl HT Hne r Hread Hroot Hnames.
  destruct (words_shown pc w fs t f tp fp args T ex dk s Ht Hf Hw Hfs Hls Hres Hex Hch Hst Hdn Hrl HT Hne Hread Hroot Hnames)
    as (s' & out & e & sh & E1 & E2 & E3 & Htr & _ & _ & _ & R & _).
  exists s', out, (entry_paths e). split; [exact E1|]. split; [exact E2|]. split; [exact E3|].
  split; [exact R|]. split; [eapply tree_paths_NoDup; eauto|]. intro q. rewrite <- reach_default. split.
  - apply (tree_paths_reach _ _ _ _ _ Htr).
  - intros [d Hr]. refine (tree_reach_paths _ _ _ _ _ _ Htr _ _ Hr). intro x. cbn. lia.
Qed.

Lemma nothing_cut_default dk r : nothing_cut default_settings dk r <-> forall ns, listed dk r ns -> is_dir dk (deeper r ns) -> length ns < 20.
Proof.
  split.
  - intros N ns H. assert (G : reach default_settings dk 0 r (Z.of_nat (length ns)) (deeper r ns)).
    { induction H as [|ns l n H IH Hd Hl Hin]; [rewrite under_nil; constructor|]. rewrite app_length. cbn [length].
      replace (Z.of_nat (length ns + 1)) with (Z.of_nat (length ns) + 1)%Z by lia.
      rewrite <- under_child. eapply reach_child; eauto; [now apply (N _ _ IH)|]. unfold accepts. now destruct (is_dirb _ _). }
    intro Hd. destruct (N _ _ G Hd) as [K _]. cbn in K. lia.
  - intros G d q Hr Hq. split; [|intros ? _; left; cbn; lia].
    assert (K : exists ns, listed dk r ns /\ q = deeper r ns /\ d = Z.of_nat (length ns)).
    { clear Hq G. induction Hr as [|d q names n Hr (ns & H1 & -> & ->) Hd Hlt Hl Hin Ha]; [exists []; split; [constructor|]; split; [symmetry; apply under_nil|reflexivity]|].
      exists (ns ++ [n]). split; [eapply listed_entry; eauto|]. split; [apply under_child|]. rewrite app_length. cbn [length]. lia. }
    destruct K as (ns & H1 & -> & ->). specialize (G ns H1 Hq). cbn. lia.
Qed.

Theorem words_whole pc w fs t f tp fp args T ex dk s :
  target_part t tp -> options_part f fp -> written (tp ++ fp) args ->
  let a := mkArgs (option_map path_of t) (option_map path_of f) false in
  steady_files w fs -> usual_linesep (cw_linesep w) ->
  resolved (jv_cwd (w_jvm (cw_world w))) (asked_target a) T -> f_exists fs T = true ->
  chooses w fs a T ex UseDefault ->
  steady (cw_world w) dk -> distinct_names dk -> real_listings dk -> Forall real_name (p_names T) -> p_names T <> [] ->
  let r := mkPath true (p_names T) in
  all_can_be_read dk r -> tellable (last_name r) -> (forall ns n, listed dk r (ns ++ [n]) -> tellable n) ->
  exists s' out tr paths, execute pc args w s = (0%Z, s') /\ cs_out s' = cs_out s ++ out ++ cw_linesep w /\ cs_err s' = cs_err s /\
    read_text UNICODE_BOX_DRAWING out = Some tr /\ read_paths UNICODE_BOX_DRAWING r out = Some paths /\
    (has_dots (read_names tr) = false <-> forall ns, listed dk r ns -> is_dir dk (deeper r ns) -> length ns < 20) /\
    (has_dots (read_names tr) = false -> NoDup paths /\ forall q, In q paths <-> exists ns, listed dk r ns /\ q = deeper r ns).
Proof.
  intros Ht Hf Hw a Hfs Hls Hres Hex Hch Hst Hdn Hrl HT Hne r Hread Hroot Hnames.
  destruct (words_shown pc w fs t f tp fp args T ex dk s Ht Hf Hw Hfs Hls Hres Hex Hch Hst Hdn Hrl HT Hne Hread Hroot Hnames)
    as (s' & out & e & sh & E1 & E2 & E3 & Htr & Hsh & C & -> & R & _). fold r in Htr.
  assert (B : bare plain_view) by (split; reflexivity).
  exists s', (text UNICODE_BOX_DRAWING (labelled plain_view sh)), (labelled plain_view sh), (entry_paths e).
  split; [exact E1|]. split; [exact E2|]. split; [exact E3|].
  split; [apply read_text_text; [exact (proj2 C02_builtin_lemma)|now apply clear_one_line]|]. split; [exact R|].
  rewrite read_names_labelled by assumption. rewrite (shows_dots _ _ _ _ Hsh).
  assert (D : entry_dots e = false <-> forall ns, listed dk r ns -> is_dir dk (deeper r ns) -> length ns < 20).
  { rewrite <- nothing_cut_default. now apply tree_dots. }
  split; [exact D|]. intro E. split; [eapply tree_paths_NoDup; eauto|]. intro q. split.
  - intro Hq. destruct (tree_paths_reach _ _ _ _ _ Htr _ Hq) as [d Hr]. apply reach_listed in Hr as (ns & Hns & ->). now exists ns.
  - intros (ns & Hns & ->). assert (L : length ns <= 20).
    { destruct Hns as [|ns l n H Hd Hl Hin]; [cbn; lia|]. pose proof (proj1 D E ns H Hd). rewrite app_length. cbn. lia. }
    destruct (proj2 (reach_default dk r (deeper r ns)) (ex_intro _ ns (conj Hns (conj L eq_refl)))) as [d Hr]. eapply tree_whole; eauto.
Qed.
