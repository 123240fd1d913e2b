(** * Proofs about the displayed order for the built-in comparators and the sort builder *)

From Verif Require Import SpecOrder SortFacts ScanFacts TreeFacts ScanPrintFacts BuilderFacts.
Open Scope Z_scope.

(** A list sorted by [R] is split by a test that goes down along [R]. *)
Lemma sorted_split A (R : A -> A -> Prop) (f : A -> bool) l :
  (forall a b, In a l -> In b l -> R a b -> f b = true -> f a = true) -> StronglySorted R l ->
  exists l1 l2, l = l1 ++ l2 /\ Forall (fun a => f a = true) l1 /\ Forall (fun a => f a = false) l2 /\
    StronglySorted R l1 /\ StronglySorted R l2.
Proof.
  intros H HS. induction HS as [|x l HS IH Hx]; [exists [], []; repeat split; constructor|].
  destruct (f x) eqn:E.
  - destruct IH as (l1 & l2 & -> & H1 & H2 & S1 & S2); [intros; eapply H; eauto; now right|].
    exists (x :: l1), l2. split; [reflexivity|]. split; [now constructor|]. split; [exact H2|]. split; [|exact S2].
    constructor; [exact S1|]. apply Forall_app in Hx. tauto.
  - exists [], (x :: l). split; [reflexivity|]. split; [constructor|]. split; [|split; [constructor|now constructor]].
    constructor; [exact E|]. rewrite Forall_forall in *. intros y Hy. destruct (f y) eqn:Ey; [|reflexivity].
    rewrite (H x y) in E; auto; [now left|now right].
Qed.

Definition path_or (e : entry) : path := match entry_path e with Some p => p | None => mkPath true [] end.

Lemma child_paths_map es : Forall (fun e => entry_path e <> None) es -> child_paths es = map path_or es.
Proof.
  intro H. induction H as [|e es He H IH]; [reflexivity|]. unfold child_paths in *. cbn [flat_map map]. rewrite IH.
  unfold path_or. destruct (entry_path e); [reflexivity|congruence].
Qed.

Lemma StronglySorted_map A B (f : A -> B) (R : B -> B -> Prop) l : StronglySorted R (map f l) <-> StronglySorted (fun a b => R (f a) (f b)) l.
Proof.
  induction l as [|a l IH]; simpl; [split; constructor|]. split; intro H; inversion H as [|? ? Hs Hf]; subst; constructor; try now apply IH.
  - now rewrite Forall_map in Hf.
  - now rewrite Forall_map.
Qed.

(** The entries of a displayed directory: real entries in the order [R], then marks. *)
Lemma shown_children st dk d q es (R : path -> path -> Prop) :
  tree_at st dk d q (EDir q es) -> StronglySorted R (child_paths es) ->
  exists real marks, es = real ++ marks /\ Forall is_mark marks /\
    Forall (fun e => entry_path e <> None /\ p_names (path_or e) <> [] /\ (is_dir dk (path_or e) <-> is_dir_entry e)) real /\
    StronglySorted (fun a b => R (path_or a) (path_or b)) real.
Proof.
  intros Ht HS. pose proof Ht as Hnamed. inversion Ht as [|? ? Hd Hm|? ? names order es0 Hd Hm Hli Hord HF]; subst.
  - exists [], [EMaxDepth d]. split; [reflexivity|]. split; [constructor; [exact I|constructor]|]. split; constructor.
  - exists es0, (marker (s_limit st q) order q). split; [reflexivity|].
    assert (Hmk : Forall is_mark (marker (s_limit st q) order q)).
    { unfold marker. destruct (_ && _); constructor; [exact I|constructor]. }
    split; [exact Hmk|].
    assert (Hreal : Forall (fun e => entry_path e <> None /\ p_names (path_or e) <> [] /\ (is_dir dk (path_or e) <-> is_dir_entry e)) es0).
    { apply Forall_forall. intros e He. destruct (Forall2_in_r _ _ _ _ _ _ HF He) as (c & Hc & Htc).
      assert (Ep : entry_path e = Some c) by (eapply tree_at_path; eauto).
      split; [congruence|]. unfold path_or. rewrite Ep. split.
      - eapply tree_children_named; [exact Hnamed|]. apply in_flat_map. exists e. split; [apply in_or_app; now left|].
        rewrite Ep. now left.
      - inversion Htc; subst; split; intro; cbn; auto; contradiction. }
    split; [exact Hreal|].
    rewrite child_paths_app, child_paths_marker, app_nil_r, child_paths_map in HS.
    + exact (proj1 (StronglySorted_map _ _ path_or R es0) HS).
    + eapply Forall_impl; [|exact Hreal]. cbn. tauto.
Qed.

Definition dir_entryb (e : entry) : bool := match e with EDir _ _ => true | _ => false end.

Lemma group_sorted (R : path -> path -> Prop) (S : path -> path -> Prop) part :
  Forall (fun e => entry_path e <> None) part ->
  (forall a b, In a part -> In b part -> R (path_or a) (path_or b) -> S (path_or a) (path_or b)) ->
  StronglySorted (fun a b => R (path_or a) (path_or b)) part -> StronglySorted S (child_paths part).
Proof.
  intros Hp H HS. rewrite (child_paths_map _ Hp). apply StronglySorted_map.
  eapply StronglySorted_impl_in; [|exact HS]. exact H.
Qed.

Lemma real_file e : entry_path e <> None -> dir_entryb e = false -> is_file_entry e.
Proof. destruct e; cbn; intros H H'; try congruence; exact I. Qed.

Lemma is_dir_b dk p : is_dir dk p <-> is_dirb dk p = true.
Proof. unfold is_dir, is_dirb. destruct (d_kind dk p) as [[]|]; split; congruence. Qed.

Section Displayed.
  Context (o : options) (p : path) (w : world) (h : hist) (out : jstring) (h' : hist) (v : view) (dk : disk) (st : settings).
  Hypothesis Hw : steady w dk.
  Hypothesis Hd : distinct_names dk.
  Hypothesis Hu : uses w o st.
  Hypothesis Hs : sees w o v.
  Hypothesis Hrun : pretty_print o p w h = (Ok out, h').

  Definition shown_in (G : list entry -> Prop) : Prop := prints_with G o p w out v dk st.

  Lemma shown_by c g (G : list entry -> Prop) : sorts_by c o -> (forall a, answers w (c a) (g a)) -> contract g ->
    (forall real marks, Forall is_mark marks ->
       Forall (fun e => entry_path e <> None /\ p_names (path_or e) <> [] /\ (is_dir dk (path_or e) <-> is_dir_entry e)) real ->
       StronglySorted (fun a b => refined g (path_or a) (path_or b)) real -> G (real ++ marks)) ->
    shown_in G.
  Proof.
    intros Hso Hg Hc HG. destruct (C06_sort_lemma _ _ _ _ _ _ _ _ _ _ _ Hw Hd Hu Hs Hso Hg Hc Hrun) as (e & s & Ht & Hsh & Ho & Hsd).
    exists e, s. split; [exact Ht|]. split; [exact Hsh|]. split; [exact Ho|]. intros k q es Hat.
    pose proof (tree_sub _ _ _ _ _ _ _ _ Ht Hat) as Hsub.
    destruct (shown_children _ _ _ _ _ _ Hsub (Hsd k q es Hat)) as (real & marks & -> & Hm & Hr & HS). eauto.
  Qed.

  Lemma split_parts (R : path -> path -> Prop) real (f : entry -> bool) :
    (forall a b, In a real -> In b real -> R (path_or a) (path_or b) -> f b = true -> f a = true) ->
    StronglySorted (fun a b => R (path_or a) (path_or b)) real ->
    exists l1 l2, real = l1 ++ l2 /\ Forall (fun a => f a = true) l1 /\ Forall (fun a => f a = false) l2 /\
      StronglySorted (fun a b => R (path_or a) (path_or b)) l1 /\ StronglySorted (fun a b => R (path_or a) (path_or b)) l2.
  Proof. intros H HS. exact (sorted_split _ _ f real H HS). Qed.

  Lemma dirb_of real a : Forall (fun e => entry_path e <> None /\ p_names (path_or e) <> [] /\ (is_dir dk (path_or e) <-> is_dir_entry e)) real ->
    In a real -> is_dirb dk (path_or a) = dir_entryb a.
  Proof.
    intros Hr Ha. rewrite Forall_forall in Hr. destruct (Hr a Ha) as (_ & _ & Hi). rewrite is_dir_b in Hi.
    destruct a; cbn in *; destruct (is_dirb dk _); try reflexivity; exfalso; try (apply Hi; reflexivity); destruct Hi as [H1 H2]; auto;
      (discriminate (H2 I)).
  Qed.

  Lemma C92_first : sorts_by DIRECTORY_FIRST o ->
    shown_in (in_groups [(is_dir_entry, by_name); (is_file_entry, by_name)]).
  Proof.
    intro Hso. apply (shown_by _ _ _ Hso (directory_first_answers w dk Hw) (contract_dirs_first _)). intros real marks Hm Hr HS.
    assert (Hlt : forall a b, In a real -> In b real -> refined (dirs_first (is_dirb dk)) (path_or a) (path_or b) ->
              (dir_entryb a = true /\ dir_entryb b = false) \/ (dir_entryb a = dir_entryb b /\ by_name (path_or a) (path_or b))).
    { intros a b Ha Hb. unfold refined, dirs_first. rewrite (dirb_of real a Hr Ha), (dirb_of real b Hr Hb).
      destruct (dir_entryb a), (dir_entryb b); cbn; intros [H|[H1 H2]]; try lia; auto. }
    destruct (split_parts (refined (dirs_first (is_dirb dk))) real dir_entryb) with (2 := HS) as (l1 & l2 & -> & F1 & F2 & S1 & S2).
    { intros a b Ha Hb H E. destruct (Hlt a b Ha Hb H) as [[H1 H2]|[H1 H2]]; congruence. }
    apply Forall_app in Hr. destruct Hr as [R1 R2].
    exists [l1; l2], marks. cbn [concat]. rewrite app_nil_r. split; [reflexivity|]. split; [exact Hm|].
    constructor; [|constructor; [|constructor]]; cbn [fst snd]; split.
    - eapply Forall_impl; [|exact F1]. intros [] E; try discriminate; exact I.
    - eapply group_sorted; [|  |exact S1]; [eapply Forall_impl; [|exact R1]; cbn; tauto|].
      intros a b Ha Hb H. rewrite Forall_forall in F1.
      destruct (Hlt a b (in_or_app _ _ _ (or_introl Ha)) (in_or_app _ _ _ (or_introl Hb)) H) as [[_ E]|[_ E]]; [|exact E].
      rewrite (F1 b Hb) in E. discriminate.
    - rewrite Forall_forall in *. intros e He. apply real_file; [apply (R2 e He)|auto].
    - eapply group_sorted; [|  |exact S2]; [eapply Forall_impl; [|exact R2]; cbn; tauto|].
      intros a b Ha Hb H. rewrite Forall_forall in F2.
      destruct (Hlt a b (in_or_app _ _ _ (or_intror Ha)) (in_or_app _ _ _ (or_intror Hb)) H) as [[E _]|[_ E]]; [|exact E].
      rewrite (F2 a Ha) in E. discriminate.
  Qed.

  Lemma C92_last : sorts_by DIRECTORY_LAST o ->
    shown_in (in_groups [(is_file_entry, by_name); (is_dir_entry, by_name)]).
  Proof.
    intro Hso. apply (shown_by _ _ _ Hso (directory_last_answers w dk Hw) (contract_flipped _ (contract_dirs_first _))). intros real marks Hm Hr HS.
    assert (Hlt : forall a b, In a real -> In b real -> refined (flipped (dirs_first (is_dirb dk))) (path_or a) (path_or b) ->
              (dir_entryb a = false /\ dir_entryb b = true) \/ (dir_entryb a = dir_entryb b /\ by_name (path_or a) (path_or b))).
    { intros a b Ha Hb. unfold refined, flipped, dirs_first. rewrite (dirb_of real a Hr Ha), (dirb_of real b Hr Hb).
      destruct (dir_entryb a), (dir_entryb b); cbn; intros [H|[H1 H2]]; try lia; auto. }
    destruct (split_parts (refined (flipped (dirs_first (is_dirb dk)))) real (fun e => negb (dir_entryb e))) with (2 := HS) as (l1 & l2 & -> & F1 & F2 & S1 & S2).
    { intros a b Ha Hb H E. destruct (Hlt a b Ha Hb H) as [[H1 H2]|[H1 H2]]; [now rewrite H1|congruence]. }
    apply Forall_app in Hr. destruct Hr as [R1 R2].
    exists [l1; l2], marks. cbn [concat]. rewrite app_nil_r. split; [reflexivity|]. split; [exact Hm|].
    constructor; [|constructor; [|constructor]]; cbn [fst snd]; split.
    - rewrite Forall_forall in *. intros e He. apply real_file; [apply (R1 e He)|]. apply negb_true_iff. auto.
    - eapply group_sorted; [|  |exact S1]; [eapply Forall_impl; [|exact R1]; cbn; tauto|].
      intros a b Ha Hb H. rewrite Forall_forall in F1.
      destruct (Hlt a b (in_or_app _ _ _ (or_introl Ha)) (in_or_app _ _ _ (or_introl Hb)) H) as [[_ E]|[_ E]]; [|exact E].
      specialize (F1 b Hb). cbn in F1. rewrite E in F1. discriminate.
    - eapply Forall_impl; [|exact F2]. intros [] E; try discriminate; exact I.
    - eapply group_sorted; [|  |exact S2]; [eapply Forall_impl; [|exact R2]; cbn; tauto|].
      intros a b Ha Hb H. rewrite Forall_forall in F2.
      destruct (Hlt a b (in_or_app _ _ _ (or_intror Ha)) (in_or_app _ _ _ (or_intror Hb)) H) as [[E _]|[_ E]]; [|exact E].
      specialize (F2 a Ha). cbn in F2. rewrite E in F2. discriminate.
  Qed.

  Definition plain_nameb (e : entry) : bool := (length (jsplit_dot (last_name (path_or e))) =? 1)%nat.

  Lemma plain_name_true e : plain_nameb e = true -> no_extension (last_name (path_or e)).
  Proof.
    unfold plain_nameb. rewrite Nat.eqb_eq. intro H. destruct (name_classes (last_name (path_or e))) as [Hn|[exts Hp]]; [exact Hn|].
    apply has_parts_split in Hp. destruct Hp. contradiction.
  Qed.

  Lemma plain_name_false e : plain_nameb e = false -> exists exts, has_parts (last_name (path_or e)) exts.
  Proof.
    unfold plain_nameb. rewrite Nat.eqb_neq. intro H. destruct (name_classes (last_name (path_or e))) as [Hn|Hp]; [|exact Hp].
    apply no_extension_split in Hn. contradiction.
  Qed.

  Lemma C92_extension : let fold := jv_fold (w_jvm w) in sorts_by BY_EXTENSION o ->
    shown_in (in_groups [(is_dir_entry, by_name); (file_named no_extension, by_name_ci fold);
                         (file_named (fun n => exists exts, has_parts n exts), by_parts fold)]).
  Proof.
    intros fold Hso. apply (shown_by _ _ _ Hso (by_extension_answers w dk Hw) (contract_by_ext _ _)). fold fold. intros real marks Hm Hr HS.
    set (R := refined (by_ext (is_dirb dk) fold)) in *.
    assert (Hdir : forall a b, In a real -> In b real -> R (path_or a) (path_or b) ->
              (dir_entryb b = true -> dir_entryb a = true) /\
              (dir_entryb a = true -> dir_entryb b = true -> by_name (path_or a) (path_or b))).
    { intros a b Ha Hb. unfold R, refined, by_ext. rewrite (dirb_of real a Hr Ha), (dirb_of real b Hr Hb).
      destruct (dir_entryb a), (dir_entryb b); intros [H|[H1 H2]]; split; intros; try lia; try congruence; auto. }
    assert (Hfile : forall a b, In a real -> In b real -> R (path_or a) (path_or b) -> dir_entryb a = false -> dir_entryb b = false ->
              (no_extension (last_name (path_or b)) -> no_extension (last_name (path_or a))) /\
              (no_extension (last_name (path_or a)) -> no_extension (last_name (path_or b)) -> by_name_ci fold (path_or a) (path_or b)) /\
              by_parts fold (path_or a) (path_or b)).
    { intros a b Ha Hb HR Ea Eb. rewrite <- (dirb_of real a Hr Ha) in Ea. rewrite <- (dirb_of real b Hr Hb) in Eb.
      destruct (by_ext_order (is_dirb dk) fold (path_or a) (path_or b) Ea Eb) as (P1 & P2 & P3).
      destruct (by_ext_order (is_dirb dk) fold (path_or b) (path_or a) Eb Ea) as (_ & P2' & _).
      destruct (contract_by_ext (is_dirb dk) fold) as [Anti _].
      split; [|split].
      - intro Hn. destruct (name_classes (last_name (path_or a))) as [H|[exts Hp]]; [exact H|]. exfalso.
        pose proof (P2' exts Hn Hp) as Hlt. pose proof (Anti (path_or a) (path_or b)) as HA. unfold R, refined in HR.
        destruct HR as [HR|[HR _]]; lia.
      - intros Hna Hnb. destruct (P3 Hna Hnb) as [Q1 Q2]. destruct HR as [HR|[HR HN]]; [left; now apply Q1|right].
        split; [now apply Q2|exact HN].
      - intros ea eb Hea Heb. destruct (P1 ea eb Hea Heb) as [Q1 Q2]. destruct HR as [HR|[HR HN]]; [left; now apply Q1|right].
        split; [now apply Q2|exact HN]. }
    destruct (split_parts R real dir_entryb) with (2 := HS) as (l1 & l2 & -> & F1 & F2 & S1 & S2).
    { intros a b Ha Hb H. now apply Hdir. }
    rewrite Forall_forall in F1, F2.
    destruct (split_parts R l2 plain_nameb) with (2 := S2) as (l3 & l4 & -> & F3 & F4 & S3 & S4).
    { intros a b Ha Hb H E. destruct (plain_nameb a) eqn:Ea; [reflexivity|]. apply plain_name_true in E. apply plain_name_false in Ea.
      destruct Ea as [exts Ea]. exfalso.
      destruct (Hfile a b) as (Q & _); auto using in_or_app.
      apply Q in E. apply no_extension_split in E. apply has_parts_split in Ea. destruct Ea. contradiction. }
    rewrite Forall_forall in F3, F4.
    apply Forall_app in Hr. destruct Hr as [R1 Hr]. apply Forall_app in Hr. destruct Hr as [R3 R4].
    assert (Hpth : forall l, Forall (fun e => entry_path e <> None /\ p_names (path_or e) <> [] /\ (is_dir dk (path_or e) <-> is_dir_entry e)) l ->
              Forall (fun e => entry_path e <> None) l) by (intros l; apply Forall_impl; cbn; tauto).
    assert (Hnamed : forall e (P : jstring -> Prop), entry_path e <> None -> dir_entryb e = false -> P (last_name (path_or e)) -> file_named P e).
    { intros e P He Hd' HP. destruct e; cbn in *; try congruence; exact HP. }
    exists [l1; l3; l4], marks. cbn [concat]. rewrite app_nil_r. split; [reflexivity|]. split; [exact Hm|].
    constructor; [|constructor; [|constructor; [|constructor]]]; cbn [fst snd]; split.
    - apply Forall_forall. intros e He. specialize (F1 e He). destruct e; try discriminate; exact I.
    - eapply group_sorted; [now apply Hpth| |exact S1]. intros a b Ha Hb H.
      apply (Hdir a b); auto using in_or_app.
    - apply Forall_forall. intros e He. apply Hpth in R3. rewrite Forall_forall in R3.
      apply Hnamed; [auto|auto using in_or_app|]. apply plain_name_true. auto.
    - eapply group_sorted; [now apply Hpth| |exact S3]. intros a b Ha Hb H.
      destruct (Hfile a b) as (_ & Q & _); auto using in_or_app. apply Q; apply plain_name_true; auto.
    - apply Forall_forall. intros e He. apply Hpth in R4. rewrite Forall_forall in R4.
      apply Hnamed; [auto|auto using in_or_app|]. apply plain_name_false. auto.
    - eapply group_sorted; [now apply Hpth| |exact S4]. intros a b Ha Hb H.
      destruct (Hfile a b) as (_ & _ & Q); auto using in_or_app.
  Qed.

  (** *** The sort builder *)
  Lemma by_prec_refined prec a b : refined (by_prec prec) a b -> by_precedence prec a b.
  Proof.
    unfold refined, by_prec, then_by, zcompare, by_precedence, by_name. destruct (Z.ltb_spec (prec a) (prec b)); [auto|].
    destruct (Z.ltb_spec (prec b) (prec a)); cbn [Z.eqb]; [intros [H1|[H1 H2]]; lia|].
    intros [H1|[H1 H2]]; right; (split; [lia|]); [|exact H2]. now apply alphabetical_lt.
  Qed.

  Lemma C93_lemma cmds later prec : give w (sort_ops cmds) prec ->
    sorts_by (sort_call (sort_run sort_start (cmds ++ SBuild :: later)) (sort_builds cmds)) o ->
    shown_in (fun es => StronglySorted (by_precedence prec) (child_paths es)).
  Proof.
    intros Hg Hso.
    destruct (C06_sort_lemma _ _ _ _ _ _ _ _ _ _ _ Hw Hd Hu Hs Hso (answers_built w cmds later prec Hg) (contract_by_prec _) Hrun)
      as (e & s & Ht & Hsh & Ho & Hsd).
    exists e, s. split; [exact Ht|]. split; [exact Hsh|]. split; [exact Ho|]. intros k q es Hat.
    eapply StronglySorted_impl; [|exact (Hsd k q es Hat)]. apply by_prec_refined.
  Qed.

  (** A rule that is tried first. *)
  Lemma give_ranked r m mp z cmds prec : ranks r m z -> z <> 0 -> answers w m mp -> give w (sort_ops cmds) prec ->
    give w (sort_ops (SOp r :: cmds)) (fun q => if mp q then z else prec q).
  Proof.
    intros Hr Hz Ha Hg q h0. cbn [sort_ops]. destruct (Ha q h0) as [h1 E1]. destruct (mp q).
    - exists h1. apply fnz_here; [eapply pv_match; eassumption|exact Hz].
    - destruct (Hg q h1) as [h2 E2]. exists h2. eapply fnz_next; [eapply pv_no_match; eassumption|exact E2].
  Qed.

  Lemma C93_first m mp cmds later prec :
    answers w m mp -> give w (sort_ops cmds) prec ->
    sorts_by (sort_call (sort_run sort_start ((SOp (SAddFirst m) :: cmds) ++ SBuild :: later)) (sort_builds cmds)) o ->
    (forall q, mp q = false -> -2147483648 < prec q) ->
    shown_in (in_groups [(of_path (fun q => mp q = true), by_name); (of_path (fun q => mp q = false), by_precedence prec)]).
  Proof.
    intros Ha Hgv Hso Hmin. set (pr := fun q => if mp q then -2147483648 else prec q).
    assert (Hg : give w (sort_ops (SOp (SAddFirst m) :: cmds)) pr).
    { apply give_ranked with (m := m); auto; [right; now left|lia]. }
    apply (shown_by _ _ _ Hso (answers_built w (SOp (SAddFirst m) :: cmds) later pr Hg) (contract_by_prec _)). intros real marks Hm Hr HS.
    assert (Hp : forall a b, refined (by_prec pr) a b -> by_precedence pr a b) by apply by_prec_refined.
    assert (Hyes : forall q, mp q = true -> pr q = -2147483648) by (intros q Hq; unfold pr; now rewrite Hq).
    assert (Hno : forall q, mp q = false -> pr q = prec q) by (intros q Hq; unfold pr; now rewrite Hq).
    destruct (split_parts (refined (by_prec pr)) real (fun e => mp (path_or e))) with (2 := HS) as (l1 & l2 & -> & F1 & F2 & S1 & S2).
    { intros a b Hia Hib H E. destruct (mp (path_or a)) eqn:Ea; [reflexivity|exfalso]. pose proof (Hmin _ Ea).
      destruct (Hp _ _ H) as [HH|[HH _]]; rewrite (Hyes _ E), (Hno _ Ea) in HH; lia. }
    apply Forall_app in Hr. destruct Hr as [R1 R2].
    assert (Hpth : forall l, Forall (fun e => entry_path e <> None /\ p_names (path_or e) <> [] /\ (is_dir dk (path_or e) <-> is_dir_entry e)) l ->
              Forall (fun e => entry_path e <> None) l) by (intros l; apply Forall_impl; cbn; tauto).
    apply Hpth in R1, R2. clear Hpth.
    exists [l1; l2], marks. cbn [concat]. rewrite app_nil_r. split; [reflexivity|]. split; [exact Hm|].
    constructor; [|constructor; [|constructor]]; cbn [fst snd]; split.
    - rewrite Forall_forall in *. intros x Hx. specialize (R1 x Hx). specialize (F1 x Hx). unfold of_path, path_or in *.
      destruct (entry_path x); [exact F1|congruence].
    - eapply group_sorted; [exact R1| |exact S1]. intros a b Hia Hib H. rewrite Forall_forall in F1.
      destruct (Hp _ _ H) as [HH|[_ HH]]; [|exact HH]. rewrite !Hyes in HH by auto. lia.
    - rewrite Forall_forall in *. intros x Hx. specialize (R2 x Hx). specialize (F2 x Hx). unfold of_path, path_or in *.
      destruct (entry_path x); [exact F2|congruence].
    - eapply group_sorted; [exact R2| |exact S2]. intros a b Hia Hib H. rewrite Forall_forall in F2.
      pose proof (Hp _ _ H) as HH. unfold by_precedence in *. rewrite !Hno in HH by auto. exact HH.
  Qed.

  Lemma C93_last m mp cmds later prec :
    answers w m mp -> give w (sort_ops cmds) prec ->
    sorts_by (sort_call (sort_run sort_start ((SOp (SAddLast m) :: cmds) ++ SBuild :: later)) (sort_builds cmds)) o ->
    (forall q, mp q = false -> prec q < 2147483647) ->
    shown_in (in_groups [(of_path (fun q => mp q = false), by_precedence prec); (of_path (fun q => mp q = true), by_name)]).
  Proof.
    intros Ha Hgv Hso Hmax. set (pr := fun q => if mp q then 2147483647 else prec q).
    assert (Hg : give w (sort_ops (SOp (SAddLast m) :: cmds)) pr).
    { apply give_ranked with (m := m); auto; [right; now right|lia]. }
    apply (shown_by _ _ _ Hso (answers_built w (SOp (SAddLast m) :: cmds) later pr Hg) (contract_by_prec _)). intros real marks Hm Hr HS.
    assert (Hp : forall a b, refined (by_prec pr) a b -> by_precedence pr a b) by apply by_prec_refined.
    assert (Hyes : forall q, mp q = true -> pr q = 2147483647) by (intros q Hq; unfold pr; now rewrite Hq).
    assert (Hno : forall q, mp q = false -> pr q = prec q) by (intros q Hq; unfold pr; now rewrite Hq).
    destruct (split_parts (refined (by_prec pr)) real (fun e => negb (mp (path_or e)))) with (2 := HS) as (l1 & l2 & -> & F1 & F2 & S1 & S2).
    { intros a b Hia Hib H E. apply negb_true_iff in E. destruct (mp (path_or a)) eqn:Ea; [exfalso|reflexivity]. pose proof (Hmax _ E).
      destruct (Hp _ _ H) as [HH|[HH _]]; rewrite (Hyes _ Ea), (Hno _ E) in HH; lia. }
    apply Forall_app in Hr. destruct Hr as [R1 R2].
    assert (Hpth : forall l, Forall (fun e => entry_path e <> None /\ p_names (path_or e) <> [] /\ (is_dir dk (path_or e) <-> is_dir_entry e)) l ->
              Forall (fun e => entry_path e <> None) l) by (intros l; apply Forall_impl; cbn; tauto).
    apply Hpth in R1, R2. clear Hpth.
    assert (F1' : Forall (fun a => mp (path_or a) = false) l1) by (eapply Forall_impl; [|exact F1]; intros x Hx; now apply negb_true_iff).
    assert (F2' : Forall (fun a => mp (path_or a) = true) l2) by (eapply Forall_impl; [|exact F2]; intros x Hx; now apply negb_false_iff).
    exists [l1; l2], marks. cbn [concat]. rewrite app_nil_r. split; [reflexivity|]. split; [exact Hm|].
    constructor; [|constructor; [|constructor]]; cbn [fst snd]; split.
    - rewrite Forall_forall in *. intros x Hx. specialize (R1 x Hx). specialize (F1' x Hx). unfold of_path, path_or in *.
      destruct (entry_path x); [exact F1'|congruence].
    - eapply group_sorted; [exact R1| |exact S1]. intros a b Hia Hib H. rewrite Forall_forall in F1'.
      pose proof (Hp _ _ H) as HH. unfold by_precedence in *. rewrite !Hno in HH by auto. exact HH.
    - rewrite Forall_forall in *. intros x Hx. specialize (R2 x Hx). specialize (F2' x Hx). unfold of_path, path_or in *.
      destruct (entry_path x); [exact F2'|congruence].
    - eapply group_sorted; [exact R2| |exact S2]. intros a b Hia Hib H. rewrite Forall_forall in F2'.
      destruct (Hp _ _ H) as [HH|[_ HH]]; [|exact HH]. rewrite !Hyes in HH by auto. lia.
  Qed.
End Displayed.
