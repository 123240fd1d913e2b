(** * What documents with particular globs show *)

From Verif Require Import SpecDoc DocTreeFacts DocFacts PathFacts RenderFacts MatcherFacts PointFacts GlobFacts GlobMatchFacts ScanPrintFacts.
From Coq Require Import Lia.
Close Scope Z_scope.

(** ** Directory filters *)

(** If the filter rejects the directories in the root, no directory is shown in it. *)
Lemma no_directories st dk d p e : tree_at st dk d p e ->
  (forall names n, d_list dk p = Some names -> In n names -> is_dir dk (child p n) -> s_dirs st (child p n) = false) ->
  forall k q es, at_depth k e (EDir q es) -> k = 0.
Proof.
  intros Ht Hno k q es Ha. inversion Ha as [|k' d' l c x Hc Hk]; subst; [reflexivity|]. exfalso.
  inversion Ht as [| |? ? names order l' Hd Hs Hl Ho Hf]; subst.
  - destruct Hc as [<-|[]]. inversion Hk.
  - apply in_app_iff in Hc as [Hc|Hc].
    + assert (exists p', In p' order /\ tree_at st dk (d + 1)%Z p' c) as (p' & Hp & Hc').
      { clear - Hf Hc. revert Hf. unfold limited. assert (G : forall (l : list path) es, Forall2 (tree_at st dk (d + 1)%Z) l es -> In c es -> exists p', In p' l /\ tree_at st dk (d + 1)%Z p' c).
        { intros l es F. induction F as [|a b l l2 H F IH]; [intros []|]. intros [<-|H']; [exists a; split; [now left|exact H]|].
          destruct (IH H') as (p' & H1 & H2). exists p'. split; [now right|exact H2]. }
        intro F. destruct (G _ _ F Hc) as (p' & H1 & H2). exists p'. split; [|exact H2]. destruct (s_limit st d' <? 0)%Z; [exact H1|].
        rewrite <- (firstn_skipn (Z.to_nat (s_limit st d')) order). apply in_app_iff. now left. }
      destruct Ho as [Ho _]. apply Permutation_sym in Ho. apply (Permutation_in _ Ho) in Hp. apply filter_In in Hp as [Hp Hacc].
      apply in_map_iff in Hp as (n & <- & Hn). inversion Hc' as [| |]; subst.
      * inversion Hk.
      * unfold accepts, is_dirb in Hacc. rewrite H in Hacc. rewrite (Hno names n Hl Hn H) in Hacc. discriminate.
      * unfold accepts, is_dirb in Hacc. rewrite H in Hacc. rewrite (Hno names n Hl Hn H) in Hacc. discriminate.
    + unfold marker in Hc. destruct ((0 <=? s_limit st d') && (s_limit st d' <? Z.of_nat (length order)))%Z; [|destruct Hc].
      destruct Hc as [<-|[]]. inversion Hk.
Qed.

(** A glob with a '/' is false of a single name. *)
Lemma slash_says j g n : (forall g, jv_glob j g = jdk_glob g) -> In c_slash g -> ~ In 91%N g -> ~ In 123%N g -> ~ In c_slash n ->
  glob_says j g (mkPath false [n]) = false.
Proof.
  intros U Hs H1 H2 Hn. unfold glob_says. rewrite U. destruct (jdk_glob g) as [f|] eqn:E; [|reflexivity].
  destruct (f (mkPath false [n])) eqn:Ef; [|reflexivity]. exfalso. apply Hn. exact (needs_slash g f (mkPath false [n]) Hs H1 H2 E Ef).
Qed.

Lemma slash_not_star g : In c_slash g -> jeqb g (js "*") = false.
Proof. intro H. destruct (jeqb_spec g (js "*")) as [->|]; [|reflexivity]. destruct H as [H|[]]. discriminate. Qed.

Theorem flat_document : forall j dk T x f g st v e, (forall g, jv_glob j g = jdk_glob g) -> real_listings dk ->
  x_filter x = Some f -> xf_dir f = XmName (Some g) \/ xf_dir f = XmPath (Some g) ->
  In c_slash g -> ~ In 91%N g -> ~ In 123%N g ->
  follows j dk T x st v -> tree_at st dk 0 (mkPath true T) e ->
  forall k q es, at_depth k e (EDir q es) -> k = 0.
Proof.
  intros j dk T x f g st v e U Hr Hx Hg Hs H1 H2 F Ht. apply (no_directories _ _ _ _ _ Ht). intros names n Hl Hn _.
  assert (Hn' : real_name n) by (apply Hr in Hl; rewrite Forall_forall in Hl; now apply Hl).
  change (child (mkPath true T) n) with (mkPath true (T ++ [n])). rewrite (fo_dirs _ _ _ _ _ _ F [n]) by (constructor; [exact Hn'|constructor]).
  rewrite Hx. apply real_no_slash in Hn'. destruct Hg as [-> | ->]; cbn [meaning]; rewrite (slash_not_star g Hs); cbn [orb].
  - rewrite rev_app_distr. cbn. now apply slash_says.
  - now apply slash_says.
Qed.

(** ** The example in the README *)

Lemma java_says j n : (forall g, jv_glob j g = jdk_glob g) -> ~ In c_slash n ->
  glob_says j (js "*.java") (mkPath false [n]) = true <-> ending n (js ".java").
Proof.
  intros U Hn. unfold glob_says. rewrite U.
  assert (V : verbatim (js ".java")) by (repeat constructor; cbn; intuition discriminate).
  destruct (jdk_pieces [[]; js ".java"] ltac:(discriminate) (pieces2 [] _ ltac:(constructor) V) (Forall_cons _ (pr_nil) (Forall_cons _ (pairedb_ok (js ".java") eq_refl) (Forall_nil _)))) as (f & E & Hf).
  change (join [42%N] [[]; js ".java"]) with (js "*.java") in E. rewrite E. rewrite Hf by exact Hn. rewrite gaps2. reflexivity.
Qed.

Lemma children_files st dk d es : forall l, (forall p, In p l -> ~ is_dir dk p) -> Forall2 (tree_at st dk d) l es ->
  Forall2 (fun p c => exists k, c = EFile p k) l es.
Proof.
  intros l Hl F. induction F as [|p c l es H F IH]; [constructor|]. constructor; [|apply IH; intros; apply Hl; now right].
  inversion H; subst; [now exists k|exfalso; apply (Hl p); [now left|assumption]|exfalso; apply (Hl p); [now left|assumption]].
Qed.

Theorem readme_tree : forall j dk T st v e, (forall g, jv_glob j g = jdk_glob g) -> real_listings dk -> is_dir dk (mkPath true T) ->
  follows j dk T readme_document st v -> tree_at st dk 0 (mkPath true T) e ->
  exists names order es, d_list dk (mkPath true T) = Some names /\
    (forall p, In p order <-> exists n, In n names /\ p = mkPath true (T ++ [n]) /\ ~ is_dir dk p /\ ending n (js ".java")) /\
    (NoDup names -> NoDup order) /\
    StronglySorted (fun a b => ~ name_lt (last_name b) (last_name a)) order /\
    Forall2 (fun p c => exists k, c = EFile p k) (firstn 3 order) es /\
    e = EDir (mkPath true T) (es ++ if (3 <? length order) then [ESkipped (mkPath true T)] else []).
Proof.
  intros j dk T st v e U Hr Hd F Ht. assert (Edepth : s_depth st = 2%Z) by exact (fo_depth _ _ _ _ _ _ F).
  assert (Elim : s_limit st (mkPath true T) = 3%Z).
  { pose proof (fo_limit _ _ _ _ _ _ F [] ltac:(constructor)) as H. rewrite app_nil_r in H. apply H. lia. }
  inversion Ht as [? ? ? Hnd|? ? _ Hcut|? ? names order es _ Hs Hl Ho Hf]; subst; [contradiction|lia|].
  rewrite Elim in Hf |- *. change (limited 3 order) with (firstn 3 order) in Hf.
  assert (Hacc : forall n, In n names -> accepts st dk (mkPath true (T ++ [n])) = true <-> ~ is_dir dk (mkPath true (T ++ [n])) /\ ending n (js ".java")).
  { intros n Hn. assert (Hn' : real_name n) by (apply Hr in Hl; rewrite Forall_forall in Hl; now apply Hl). pose proof (real_no_slash n Hn') as Hns.
    assert (HF : Forall real_name [n]) by (constructor; [exact Hn'|constructor]). unfold accepts, is_dirb, is_dir.
    rewrite (fo_dirs _ _ _ _ _ _ F [n] HF), (fo_files _ _ _ _ _ _ F [n] HF). cbn [x_filter readme_document xf_dir xf_file meaning].
    rewrite rev_app_distr. cbn [rev app]. replace (jeqb (js "src/main/**") (js "*")) with false by reflexivity. replace (jeqb (js "*.java") (js "*")) with false by reflexivity.
    cbn [orb]. rewrite (slash_says j (js "src/main/**") n U) by (first [exact Hns | vm_compute; intuition discriminate]).
    pose proof (java_says j n U Hns) as J. destruct (d_kind dk (mkPath true (T ++ [n]))) as [[]|]; try (rewrite J; intuition discriminate).
    split; [discriminate|]. intros [H _]. now contradict H. }
  destruct Ho as [Hp Hsort].
  assert (Hin : forall p, In p order <-> exists n, In n names /\ p = mkPath true (T ++ [n]) /\ ~ is_dir dk p /\ ending n (js ".java")).
  { intro p. split.
    - intro H. apply (Permutation_in _ (Permutation_sym Hp)) in H. apply filter_In in H as [H Ha]. apply in_map_iff in H as (n & <- & Hn).
      change (child (mkPath true T) n) with (mkPath true (T ++ [n])) in *. exists n. split; [exact Hn|]. split; [reflexivity|]. now apply Hacc.
    - intros (n & Hn & -> & H). apply (Permutation_in _ Hp). apply filter_In. split; [|now apply Hacc]. apply in_map_iff. now exists n. }
  exists names, order, es. split; [exact Hl|]. split; [exact Hin|]. split.
  - intro Hnd. apply (Permutation_NoDup Hp). apply NoDup_filter. apply FinFun.Injective_map_NoDup; [|exact Hnd].
    intros a b E. injection E as E. now apply app_inv_head in E as [= ->].
  - split; [|split].
    + specialize (Hsort (fo_order _ _ _ _ _ _ F)). clear - Hsort F. induction Hsort as [|a l H IH Hall]; constructor; [exact IH|].
      eapply Forall_impl; [|exact Hall]. intros b Hab Hlt. apply (fo_names _ _ _ _ _ _ F) in Hlt.
      destruct (fo_order _ _ _ _ _ _ F) as [Hsgn _]. specialize (Hsgn a b). cbn in Hab. pose proof (Z.sgn_spec (s_cmp st a b)). pose proof (Z.sgn_spec (s_cmp st b a)). lia.
    + apply (children_files st dk (0 + 1)%Z); [|exact Hf]. intros p H. assert (H' : In p order).
      { rewrite <- (firstn_skipn 3 order). apply in_app_iff. now left. }
      apply Hin in H' as (n & _ & _ & H' & _). exact H'.
    + do 2 f_equal. unfold marker. change (0 <=? 3)%Z with true. cbn [andb]. destruct (Z.ltb_spec 3 (Z.of_nat (length order))) as [H|H];
        destruct (Nat.ltb_spec 3 (length order)) as [H'|H']; try reflexivity; lia.
Qed.

(** ** What is printed *)

Lemma displayed_tree w dk T x out : steady w dk -> distinct_names dk -> real_listings dk -> Forall real_name T -> T <> [] -> acceptable x ->
  (x_emojis x = Some true -> forall k v, default_names k v \/ default_exts k v -> jv_lower (w_jvm w) k = k) ->
  document_displayed w T x out ->
  exists st v e s, follows (w_jvm w) dk T x st v /\ tree_at st dk 0 (mkPath true T) e /\ shows v true e s /\
    out = text (o_tree_format default_options) (labelled v s).
Proof.
  intros Hw Hd Hr HT Hne Hx Hl (h & o & h1 & h2 & E & P).
  exact (proj1 (document_text w dk T x h o h1 out Hw Hd Hr HT Hne Hx Hl E) (ex_intro _ h2 P)).
Qed.

Theorem flat_displayed : forall w dk T x f g out, unix_globs w ->
  steady w dk -> distinct_names dk -> real_listings dk -> Forall real_name T -> T <> [] -> acceptable x ->
  (x_emojis x = Some true -> forall k v, default_names k v \/ default_exts k v -> jv_lower (w_jvm w) k = k) ->
  x_filter x = Some f -> xf_dir f = XmName (Some g) \/ xf_dir f = XmPath (Some g) ->
  In c_slash g -> ~ In 91%N g -> ~ In 123%N g ->
  document_displayed w T x out ->
  exists e, shows_document_as (w_jvm w) dk T x e out /\ forall k q es, at_depth k e (EDir q es) -> k = 0.
Proof.
  intros w dk T x f g out U Hw Hd Hr HT Hne Hx Hl Hf Hg Hs H1 H2 D.
  destruct (displayed_tree w dk T x out Hw Hd Hr HT Hne Hx Hl D) as (st & v & e & s & F & Ht & Hsh & Ho). exists e.
  split; [exists st, v, s; split; [exact F|split; [exact Ht|split; [exact Hsh|exact Ho]]]|].
  exact (flat_document (w_jvm w) dk T x f g st v e U Hr Hf Hg Hs H1 H2 F Ht).
Qed.

Theorem readme_displayed : forall w dk T out, unix_globs w ->
  steady w dk -> distinct_names dk -> real_listings dk -> Forall real_name T -> T <> [] -> is_dir dk (mkPath true T) ->
  (forall k v, default_names k v \/ default_exts k v -> jv_lower (w_jvm w) k = k) ->
  document_displayed w T readme_document out ->
  exists names order es e, d_list dk (mkPath true T) = Some names /\
    (forall p, In p order <-> exists n, In n names /\ p = mkPath true (T ++ [n]) /\ ~ is_dir dk p /\ ending n (js ".java")) /\
    (NoDup names -> NoDup order) /\
    StronglySorted (fun a b => ~ name_lt (last_name b) (last_name a)) order /\
    Forall2 (fun p c => exists k, c = EFile p k) (firstn 3 order) es /\
    e = EDir (mkPath true T) (es ++ if (3 <? length order) then [ESkipped (mkPath true T)] else []) /\
    shows_document_as (w_jvm w) dk T readme_document e out.
Proof.
  intros w dk T out U Hw Hd Hr HT Hne Hk Hl D. assert (Hx : acceptable readme_document) by now apply DocFacts.valid_options_iff.
  destruct (displayed_tree w dk T readme_document out Hw Hd Hr HT Hne Hx (fun _ => Hl) D) as (st & v & e & s & F & Ht & Hsh & Ho).
  destruct (readme_tree (w_jvm w) dk T st v e U Hr Hk F Ht) as (names & order & es & H1 & H2 & H3 & H4 & H5 & H6).
  exists names, order, es, e. do 6 (split; [assumption|]). exists st, v, s. split; [exact F|split; [exact Ht|split; [exact Hsh|exact Ho]]].
Qed.
