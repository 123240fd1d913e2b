(** * Documents that keep one directory and what is below it *)

From Verif Require Import SpecDoc DocTreeFacts DocGlobFacts PathFacts RenderFacts GlobFacts GlobMatchFacts TreeFacts ScanPrintFacts MetaFacts ShownFacts.
From Coq Require Import Lia.
Close Scope Z_scope.

(** ** The filter *)

Lemma glob_literal j g s q : (forall g, jv_glob j g = jdk_glob g) -> literal g s -> glob_says j g q = true <-> path_str q = s.
Proof. intros U H. unfold glob_says. rewrite U. destruct (jdk_literal g s H) as (f & -> & Hf). apply Hf. Qed.

Lemma glob_below j g s q : (forall g, jv_glob j g = jdk_glob g) -> literal g s ->
  glob_says j (g ++ js "/**") q = true <-> exists t, path_str q = s ++ c_slash :: t /\ no_terminator t.
Proof. intros U H. unfold glob_says. rewrite U. destruct (jdk_below g s H) as (f & -> & Hf). apply Hf. Qed.

Lemma not_star g : g <> js "*" -> jeqb g (js "*") = false.
Proof. intro H. destruct (jeqb g (js "*")) eqn:E; [|reflexivity]. apply SortFacts.jeqb_eq in E. contradiction. Qed.

Lemma way_meaning j T d l rest : (forall g, jv_glob j g = jdk_glob g) -> names_the_way d l -> Forall real_name d -> d <> [] ->
  Forall real_name rest -> rest <> [] ->
  meaning j T rest (XmAnyOf (Some (map (fun g => XmPath (Some g)) l))) = true <-> on_the_way d rest.
Proof.
  intros U [W1 W2 W3] Hd Hne Hr Hrne. cbn [meaning]. rewrite existsb_exists. split.
  - intros (m & Hm & E). apply in_map_iff in Hm as (g & <- & Hg). cbn [meaning] in E.
    destruct (W1 g Hg) as [(b & r & Hb & -> & Lg)|(g' & -> & Lg)].
    + rewrite not_star in E by exact (literal_star _ _ Lg). cbn [orb] in E. apply (glob_literal j g _ _ U Lg) in E. rewrite str_relative in E.
      apply Forall_app in Hd as [Hd _]. apply slashed_inj in E; [|now apply real_good..]. left. exists r. now rewrite E.
    + rewrite not_star in E by (destruct g' as [|? [|? ?]]; discriminate). cbn [orb] in E. apply (glob_below j g' _ _ U Lg) in E as (t & E & Ht).
      rewrite str_relative in E. symmetry in E. apply slashed_prefix in E as (r & _ & Er & ->); [|exact Hne|now apply real_good..]. right. now exists r.
  - intros [(r & E)|(r & -> & Ht)].
    + destruct (W2 rest r Hrne E) as (g & Hg & Lg). exists (XmPath (Some g)). split; [apply in_map_iff; now exists g|]. cbn [meaning].
      rewrite (proj2 (glob_literal j g _ _ U Lg)) by apply str_relative. apply orb_true_r.
    + destruct r as [|n r].
      * destruct (W2 d [] Hne) as (g & Hg & Lg); [now rewrite app_nil_r|]. exists (XmPath (Some g)). split; [apply in_map_iff; now exists g|]. cbn [meaning].
        rewrite (proj2 (glob_literal j g _ _ U Lg)); [apply orb_true_r|]. rewrite str_relative. now rewrite app_nil_r.
      * destruct W3 as (g & Hg & Lg). exists (XmPath (Some (g ++ js "/**"))). split; [apply in_map_iff; now exists (g ++ js "/**")|]. cbn [meaning].
        rewrite (proj2 (glob_below j g _ _ U Lg)); [apply orb_true_r|]. exists (slashed (n :: r)). split; [|exact Ht]. rewrite str_relative.
        apply slashed_app; [exact Hne|discriminate].
Qed.

(** ** The tree *)

Definition no_limits (st : settings) : settings := mkSettings (s_dirs st) (s_files st) (fun _ => (-1)%Z) (s_cmp st) (s_depth st).

Lemma tree_no_limits st dk r : (forall ns, listed dk r ns -> (s_limit st (deeper r ns) < 0)%Z) ->
  forall e d ns, listed dk r ns -> tree_at st dk d (deeper r ns) e -> tree_at (no_limits st) dk d (deeper r ns) e.
Proof.
  intro Hl. induction e as [p es IH|f k|p|n] using entry_ind'; intros d ns Hns H;
    inversion H as [? ? ? Hnd Hk|? ? Hd Hm|? ? names order es0 Hd Hm Hli Hord HF]; subst; [now apply tree_cut| |now apply tree_file].
  specialize (Hl ns Hns). assert (El : limited (s_limit st (deeper r ns)) order = order)
    by (unfold limited; destruct (Z.ltb_spec (s_limit st (deeper r ns)) 0); [reflexivity|lia]).
  assert (Em : marker (s_limit st (deeper r ns)) order (deeper r ns) = marker (s_limit (no_limits st) (deeper r ns)) order (deeper r ns)).
  { unfold marker. cbn [s_limit no_limits]. destruct (Z.leb_spec 0 (s_limit st (deeper r ns))); [lia|reflexivity]. }
  rewrite Em. apply (tree_dir (no_limits st) dk d (deeper r ns) names order es0); auto. rewrite El in HF. cbn [s_limit no_limits].
  assert (Hin : forall c, In c order -> exists n, c = deeper r (ns ++ [n]) /\ listed dk r (ns ++ [n])).
  { intros c Hc. destruct Hord as [Hp _]. apply (Permutation_in c (Permutation_sym Hp)) in Hc. apply filter_In in Hc as [Hc _].
    apply in_map_iff in Hc as (n & <- & Hn). exists n. split; [unfold child, deeper; cbn; now rewrite app_assoc|]. now apply listed_entry with names. }
  change (limited (-1)%Z order) with order. clear -HF IH Hin. apply Forall_app in IH as [IH _]. revert IH Hin.
  induction HF as [|c e l es Hc HF IH']; intros IH Hin; constructor.
  - destruct (Hin c (or_introl eq_refl)) as (n & -> & Hn). inversion IH; subst. auto.
  - apply IH'; [now inversion IH|]. intros c' Hc'. apply Hin. now right.
Qed.

Lemma folders_listed dk r ns : folders dk r ns -> listed dk r ns /\ is_dir dk (deeper r ns).
Proof.
  induction 1 as [H|ns l n H (IH & Hd0) Hl Hn Hd]; [split; [constructor|]|split; [now apply listed_entry with l|exact Hd]].
  unfold deeper. rewrite app_nil_r. now destruct r.
Qed.

Section Kept.
  Context (j : jvm) (dk : disk) (T d : list jstring) (x : xoptions) (f : xfilter) (l : list jstring) (st : settings) (v : view).
  Hypothesis U : forall g, jv_glob j g = jdk_glob g.
  Hypothesis Hr : real_listings dk.
  Hypothesis F : follows j dk T x st v.
  Hypothesis Hx : x_filter x = Some f.
  Hypothesis Hf : xf_dir f = XmAnyOf (Some (map (fun g => XmPath (Some g)) l)).
  Hypothesis Hw : names_the_way d l.
  Hypothesis Hd : Forall real_name d.
  Hypothesis Hne : d <> [].
  Let root := mkPath true T.
  Hypothesis HT : is_dir dk root.

  (** What is displayed: directories on the way, and the accepted files in them. *)
  Definition kept (z : Z) (q : path) : Prop :=
    exists rest, q = mkPath true (T ++ rest) /\ z = Z.of_nat (length rest) /\
      (rest = [] \/ exists ns names n, rest = ns ++ [n] /\ folders dk root ns /\ on_the_way d ns /\ (Z.of_nat (length ns) < depth_of x)%Z /\
        d_list dk (deeper root ns) = Some names /\ In n names /\
        (is_dir dk q -> on_the_way d rest) /\ (~ is_dir dk q -> meaning j T rest (xf_file f) = true)).

  Lemma on_the_way_start : on_the_way d [].
  Proof. left. now exists d. Qed.

  Lemma dir_dec q : is_dir dk q \/ ~ is_dir dk q.
  Proof. unfold is_dir. destruct (d_kind dk q) as [[]|]; [right; discriminate|now left|right; discriminate..]. Qed.

  Lemma is_dirb_iff q : is_dirb dk q = true <-> is_dir dk q.
  Proof. unfold is_dirb, is_dir. destruct (d_kind dk q) as [[]|]; split; congruence. Qed.

  Lemma accepts_kept rest : Forall real_name rest -> rest <> [] -> accepts st dk (mkPath true (T ++ rest)) = true <->
    (is_dir dk (mkPath true (T ++ rest)) -> on_the_way d rest) /\ (~ is_dir dk (mkPath true (T ++ rest)) -> meaning j T rest (xf_file f) = true).
  Proof.
    intros H1 H2. unfold accepts. destruct (is_dirb dk (mkPath true (T ++ rest))) eqn:E.
    - apply is_dirb_iff in E. rewrite (fo_dirs _ _ _ _ _ _ F rest H1), Hx, Hf, (way_meaning j T d l rest U Hw Hd Hne H1 H2). tauto.
    - assert (N : ~ is_dir dk (mkPath true (T ++ rest))) by (rewrite <- is_dirb_iff; congruence).
      rewrite (fo_files _ _ _ _ _ _ F rest H1), Hx. tauto.
  Qed.

  Lemma reach_kept z q : reach st dk 0 root z q <-> kept z q.
  Proof.
    split.
    - intro H. assert (K : kept z q /\ (is_dir dk q -> exists rest, q = mkPath true (T ++ rest) /\ folders dk root rest /\ on_the_way d rest)).
      { induction H as [|z p names n H IH Hp Hz Hl Hn Ha].
        - split; [exists []; rewrite app_nil_r; split; [reflexivity|split; [reflexivity|now left]]|]. intros _. exists [].
          rewrite app_nil_r. split; [reflexivity|]. split; [now constructor|apply on_the_way_start].
        - destruct IH as [(rest' & E' & Ez & _) IH]. destruct (IH Hp) as (rest & -> & Hfo & Hway). injection E' as E'. apply app_inv_head in E'. subst rest'.
          assert (Hc : child (mkPath true (T ++ rest)) n = mkPath true (T ++ rest ++ [n])) by (unfold child; cbn; now rewrite app_assoc). rewrite Hc in *.
          assert (Hreal : Forall real_name (rest ++ [n])).
          { apply Forall_app. split; [exact (listed_real _ _ _ Hr (proj1 (folders_listed _ _ _ Hfo)))|]. constructor; [|constructor].
            apply Hr in Hl. rewrite Forall_forall in Hl. auto. }
          apply accepts_kept in Ha as [A1 A2]; [|exact Hreal|now destruct rest].
          assert (Hdep : s_depth st = depth_of x) by exact (fo_depth _ _ _ _ _ _ F). split.
          + exists (rest ++ [n]). split; [reflexivity|]. split; [rewrite app_length; cbn; lia|]. right. exists rest, names, n.
            split; [reflexivity|]. split; [exact Hfo|]. split; [exact Hway|]. split; [lia|]. split; [exact Hl|]. split; [exact Hn|]. now split.
          + intro D. exists (rest ++ [n]). split; [reflexivity|]. split; [|now apply A1]. apply fd_down with names; auto. }
      exact (proj1 K).
    - intros (rest & -> & -> & [->|(ns & names & n & -> & Hfo & Hway & Hz & Hl & Hn & A1 & A2)]).
      + rewrite app_nil_r. constructor.
      + assert (Hdep : s_depth st = depth_of x) by exact (fo_depth _ _ _ _ _ _ F).
        assert (K : reach st dk 0 root (Z.of_nat (length ns)) (deeper root ns)).
        { clear n Hn A1 A2 names Hl. induction Hfo as [_|ns names n Hfo IH Hl Hn D].
          - unfold deeper. cbn. rewrite app_nil_r. constructor.
          - rewrite app_length, Nat2Z.inj_add in Hz |- *. cbn [length] in *. change (Z.of_nat 1) with 1%Z in *.
            assert (Hc : deeper root (ns ++ [n]) = child (deeper root ns) n) by (unfold child, deeper; cbn; now rewrite app_assoc). rewrite Hc.
            assert (Hway' : on_the_way d ns).
            { destruct Hway as [(r & ->)|(r & E & Ht)]; [left; exists (n :: r); now rewrite <- app_assoc|].
              destruct r as [|m r _] using rev_ind; [rewrite app_nil_r in E; left; exists [n]; now symmetry|].
              rewrite app_assoc in E. apply app_inj_tail in E as [-> ->]. right. exists r. split; [reflexivity|].
              destruct r as [|a r]; [constructor|]. rewrite slashed_app in Ht by discriminate. apply Forall_app in Ht. apply Ht. }
            destruct (folders_listed _ _ _ Hfo) as [Hli Hdir].
            eapply reach_child; [apply IH; [exact Hway'|lia]|exact Hdir|lia|exact Hl|exact Hn|]. rewrite <- Hc.
            apply accepts_kept; [|now destruct ns|].
            + apply Forall_app. split; [exact (listed_real _ _ _ Hr Hli)|]. constructor; [|constructor]. apply Hr in Hl. rewrite Forall_forall in Hl. auto.
            + split; [now intros _|]. intro N. contradiction. }
        destruct (folders_listed _ _ _ Hfo) as [Hli Hdir].
        assert (Hc : mkPath true (T ++ ns ++ [n]) = child (deeper root ns) n) by (unfold child, deeper; cbn; now rewrite app_assoc).
        rewrite app_length, Nat2Z.inj_add. cbn [length]. change (Z.of_nat 1) with 1%Z. rewrite Hc.
        eapply reach_child; [exact K|exact Hdir|lia|exact Hl|exact Hn|]. rewrite <- Hc. apply accepts_kept; [|now destruct ns|now split].
        apply Forall_app. split; [exact (listed_real _ _ _ Hr Hli)|]. constructor; [|constructor]. apply Hr in Hl. rewrite Forall_forall in Hl. auto.
  Qed.
End Kept.

Lemma reach_no_limits st dk d p d' q : reach st dk d p d' q <-> reach (no_limits st) dk d p d' q.
Proof. split; (induction 1; [constructor|]); (eapply reach_child; eauto). Qed.

Theorem kept_displayed : forall w dk T x f d l out, unix_globs w ->
  steady w dk -> distinct_names dk -> real_listings dk -> Forall real_name T -> T <> [] -> is_dir dk (mkPath true T) -> acceptable x ->
  (x_emojis x = Some true -> forall k v, default_names k v \/ default_exts k v -> jv_lower (w_jvm w) k = k) ->
  x_filter x = Some f -> xf_dir f = XmAnyOf (Some (map (fun g => XmPath (Some g)) l)) -> names_the_way d l -> Forall real_name d -> d <> [] ->
  x_child_limit x = None ->
  document_displayed w T x out ->
  exists st v e s, follows (w_jvm w) dk T x st v /\ tree_at st dk 0 (mkPath true T) e /\ shows v true e s /\
    out = text (o_tree_format default_options) (labelled v s) /\
    (forall q, is_dir dk q -> In q (shown_paths s) <->
       exists rest, q = mkPath true (T ++ rest) /\ folders dk (mkPath true T) rest /\ on_the_way d rest /\
         (rest = [] \/ (Z.of_nat (length rest) <= depth_of x)%Z)) /\
    (forall q, ~ is_dir dk q -> In q (shown_paths s) <->
       exists rest names n, q = mkPath true (T ++ rest ++ [n]) /\ folders dk (mkPath true T) rest /\ on_the_way d rest /\
         (Z.of_nat (length rest) < depth_of x)%Z /\ d_list dk (mkPath true (T ++ rest)) = Some names /\ In n names /\
         meaning (w_jvm w) T (rest ++ [n]) (xf_file f) = true).
Proof.
  intros w dk T x f d l out U Hw Hdn Hr HT Hne Hdir Hx Hl Hxf Hf Hway Hd Hdne Hlim D.
  destruct (displayed_tree w dk T x out Hw Hdn Hr HT Hne Hx Hl D) as (st & v & e & s & F & Ht & Hsh & Ho). exists st, v, e, s.
  split; [exact F|]. split; [exact Ht|]. split; [exact Hsh|]. split; [exact Ho|]. set (root := mkPath true T) in *.
  assert (Hneg : forall ns, listed dk root ns -> (s_limit st (deeper root ns) < 0)%Z).
  { intros ns Hns. apply (listed_real _ _ _ Hr) in Hns. pose proof (fo_limit _ _ _ _ _ _ F ns Hns) as [_ H]. rewrite Hlim in H. now apply H. }
  assert (Ht' : tree_at (no_limits st) dk 0 root e).
  { pose proof (tree_no_limits st dk root Hneg e 0%Z [] (listed_start dk root)) as K. unfold deeper in K. cbn in K. rewrite app_nil_r in K. now apply K. }
  assert (K : forall q, In q (shown_paths s) <-> exists z, kept (w_jvm w) dk T d x f z q).
  { intro q. rewrite (shows_paths _ _ _ _ Hsh). split.
    - intro Hq. destruct (tree_paths_reach _ _ _ _ _ Ht q Hq) as (z & Hz). exists z.
      now apply (reach_kept (w_jvm w) dk T d x f l st v U Hr F Hxf Hf Hway Hd Hdne Hdir).
    - intros (z & Hz). apply (reach_kept (w_jvm w) dk T d x f l st v U Hr F Hxf Hf Hway Hd Hdne Hdir) in Hz. apply reach_no_limits in Hz.
      exact (tree_reach_paths (no_limits st) dk e (fun _ => eq_refl) 0%Z root Ht' z q Hz). }
  split; intros q Hq; rewrite K; split.
  - intros (z & rest & -> & -> & [->|(ns & names & n & -> & Hfo & Hw' & Hz & Hli & Hn & A1 & _)]).
    + exists []. split; [reflexivity|]. split; [now constructor|]. split; [left; now exists d|now left].
    + exists (ns ++ [n]). split; [reflexivity|]. split; [now apply fd_down with names|]. split; [now apply A1|]. right. rewrite app_length. cbn. lia.
  - intros (rest & -> & Hfo & Hw' & Hz). exists (Z.of_nat (length rest)), rest. split; [reflexivity|]. split; [reflexivity|].
    destruct Hfo as [_|ns names n Hfo Hli Hn D']; [now left|]. right. exists ns, names, n. split; [reflexivity|]. split; [exact Hfo|].
    assert (on_the_way d ns).
    { destruct Hw' as [(r & ->)|(r & E & Hn')]; [left; exists (n :: r); now rewrite <- app_assoc|].
      destruct r as [|m r _] using rev_ind; [rewrite app_nil_r in E; left; exists [n]; now symmetry|].
      rewrite app_assoc in E. apply app_inj_tail in E as [-> ->]. right. exists r. split; [reflexivity|].
      destruct r as [|a r]; [constructor|]. rewrite slashed_app in Hn' by discriminate. apply Forall_app in Hn'. apply Hn'. }
    split; [assumption|]. split; [destruct Hz as [E|Hz]; [now destruct ns|]; rewrite app_length in Hz; cbn in Hz; lia|].
    split; [exact Hli|]. split; [exact Hn|]. split; [now intros _|]. intro N. contradiction.
  - intros (z & rest & -> & -> & [->|(ns & names & n & -> & Hfo & Hw' & Hz & Hli & Hn & _ & A2)]).
    + exfalso. apply Hq. rewrite app_nil_r. exact Hdir.
    + exists ns, names, n. split; [reflexivity|]. split; [exact Hfo|]. split; [exact Hw'|]. split; [exact Hz|]. split; [exact Hli|]. split; [exact Hn|]. now apply A2.
  - intros (rest & names & n & -> & Hfo & Hw' & Hz & Hli & Hn & A2). exists (Z.of_nat (length (rest ++ [n]))), (rest ++ [n]). split; [reflexivity|].
    split; [reflexivity|]. right. exists rest, names, n. do 6 (split; [assumption||reflexivity|]). split; [intro; contradiction|now intros _].
Qed.
