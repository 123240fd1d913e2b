(** * A directory with Java files for the properties about globs and documents, and the counterexamples *)

From Verif Require Export SpecDoc CliCases.
From Verif Require Import MetaFacts DocTreeFacts GlobMatchFacts DocGlobFacts ScanFacts SortFacts MapFacts DocFacts.
Close Scope Z_scope.

Definition project_table : table := [
  ([], IDir [js "home"]); (names_of "home", IDir [js "u"]); (names_of "home/u", IDir [js "p"]);
  (names_of "home/u/p", IDir [js "src"; js "D.java"; js "README.md"; js "B.java"; js "FileTreePrettyPrinter.java"; js "C.java"]);
  (names_of "home/u/p/D.java", IReg 1); (names_of "home/u/p/README.md", IReg 1); (names_of "home/u/p/B.java", IReg 1);
  (names_of "home/u/p/FileTreePrettyPrinter.java", IReg 1); (names_of "home/u/p/C.java", IReg 1);
  (names_of "home/u/p/src", IDir [js "main"]); (names_of "home/u/p/src/main", IDir [js "java"]);
  (names_of "home/u/p/src/main/java", IDir [js "api"; js "App.java"]);
  (names_of "home/u/p/src/main/java/App.java", IReg 1); (names_of "home/u/p/src/main/java/api", IDir [])
].

(** The globs are those of the JDK. *)
Definition unix_jvm : jvm := mkJvm (names_of "home/u") (map ascii_lower) ascii_lower jdk_glob.
Definition project_world : world := static_world (table_fs project_table) unix_jvm.
Definition project_disk : disk := static_disk (table_fs project_table) unix_jvm.
Definition project_names : list jstring := names_of "home/u/p".
Definition project_paths : list path := map (fun e => mkPath true (fst e)) project_table.

Lemma project_unix : unix_globs project_world.
Proof. intro g. reflexivity. Qed.
Lemma project_steady : steady project_world project_disk.
Proof. apply static_steady. Qed.
Lemma project_distinct : distinct_names project_disk.
Proof. apply table_distinct. vm_compute. reflexivity. Qed.

Definition realb (n : jstring) : bool :=
  match n with [] => false | _ => true end && negb (existsb (N.eqb c_slash) n) && negb (jeqb n n_dot) && negb (jeqb n n_dotdot).
Lemma realb_real n : realb n = true -> real_name n.
Proof.
  unfold realb. intro H. repeat (apply andb_prop in H as [H ?]). apply negb_true_iff in H0, H1, H2. split; [split|split].
  - now destruct n.
  - intro Hin. assert (existsb (N.eqb c_slash) n = true) by (apply existsb_exists; exists c_slash; split; [exact Hin|apply N.eqb_refl]). congruence.
  - intros ->. discriminate.
  - intros ->. discriminate.
Qed.
Lemma all_real l : forallb realb l = true -> Forall real_name l.
Proof. intro H. apply Forall_forall. intros n Hn. rewrite forallb_forall in H. apply realb_real. now apply H. Qed.

Lemma table_real t j : forallb (fun e => match snd e with IDir l => forallb realb l | _ => true end) t = true ->
  real_listings (static_disk (table_fs t) j).
Proof.
  intros H p l Hl. cbn in Hl. unfold fs_lookup in Hl. destruct (table_fs t _) as [i|] eqn:E; [|discriminate].
  apply table_fs_in in E. rewrite forallb_forall in H. specialize (H _ E). cbn in *. destruct i; try discriminate.
  injection Hl as ->. now apply all_real.
Qed.

Lemma project_real : real_listings project_disk.
Proof. apply table_real. vm_compute. reflexivity. Qed.

Lemma listed_closed dk r l ns : closed_under_listing l dk = true -> In r l -> listed dk r ns -> In (deeper r ns) l.
Proof.
  intros Hc Hr. induction 1 as [|ns ls n Hl IH _ E Hn]; [unfold deeper; rewrite app_nil_r; destruct r; exact Hr|].
  unfold closed_under_listing in Hc. rewrite forallb_forall in Hc. specialize (Hc _ IH). rewrite E, forallb_forall in Hc.
  specialize (Hc n Hn). apply path_inb_In in Hc. unfold child, deeper in *. cbn in Hc. now rewrite app_assoc.
Qed.

Lemma closed_readable dk r l : closed_under_listing l dk = true -> all_readable l dk = true -> In r l -> all_can_be_read dk r.
Proof.
  intros Hc Ha Hr ns Hns. apply (listed_closed dk r l ns Hc Hr) in Hns. unfold all_readable in Ha. rewrite forallb_forall in Ha.
  specialize (Ha _ Hns). unfold is_dir, is_dirb in *. split.
  - intros Hk. rewrite Hk in Ha. destruct (d_list dk _); discriminate.
  - intro Hk. destruct (d_kind dk _) as [[]|]; try congruence; (destruct (d_attr dk _); discriminate).
Qed.

Lemma project_readable : all_can_be_read project_disk (mkPath true project_names).
Proof.
  apply (closed_readable _ _ project_paths); [vm_compute; reflexivity|vm_compute; reflexivity|apply path_inb_In; vm_compute; reflexivity].
Qed.

Lemma project_real_names : Forall real_name project_names.
Proof. apply all_real. vm_compute. reflexivity. Qed.

Lemma unix_lower : forall k v, default_names k v \/ default_exts k v -> jv_lower unix_jvm k = k.
Proof.
  assert (H : forallb (fun e => jeqb (map ascii_lower (fst e)) (fst e)) (DEFAULT_FILENAME_EMOJIS ++ DEFAULT_FILEEXTENSIONS_EMOJIS) = true)
    by (vm_compute; reflexivity).
  intros k v Hk. rewrite forallb_forall in H. apply SortFacts.jeqb_eq. apply (H (k, v)). apply in_or_app. exact Hk.
Qed.

(** A document keeping the directories of README.md:495. *)
Definition path_filter_document : xoptions :=
  mkXOptions None None None None (Some (mkXFilter (XmPath (Some (js "src/main/java/**"))) XmNull)) None.

Lemma readme_acceptable : acceptable readme_document.
Proof. now apply valid_options_iff. Qed.
Lemma path_filter_acceptable : acceptable path_filter_document.
Proof. now apply valid_options_iff. Qed.

Lemma good_globs x : forallb (fun g => jeqb g (js "*") || match jdk_glob g with Some _ => true | None => false end) (all_globs x) = true ->
  forall g, In g (all_globs x) -> good_glob unix_jvm g.
Proof.
  intros H g Hg. rewrite forallb_forall in H. specialize (H g Hg). apply orb_prop in H as [H|H].
  - left. now apply SortFacts.jeqb_eq.
  - right. cbn. now destruct (jdk_glob g).
Qed.

Lemma project_shown x : acceptable x ->
  forallb (fun g => jeqb g (js "*") || match jdk_glob g with Some _ => true | None => false end) (all_globs x) = true ->
  exists out, shows_document unix_jvm project_disk project_names x out.
Proof.
  intros Hx Hg. apply (document_shown project_world project_disk project_names x project_steady project_real_names).
  - vm_compute. discriminate.
  - exact Hx.
  - intros _. exact unix_lower.
  - now apply good_globs.
  - exact project_readable.
Qed.

(** What a document prints for the project. *)
Definition document_prints (x : xoptions) : option jstring :=
  match map_to_options (mkPath true project_names) x project_world [] with
  | (Ok o, h) => match pretty_print o (mkPath true project_names) project_world h with (Ok out, _) => Some out | _ => None end
  | _ => None
  end.

(** A document that keeps src/main and what is below it. *)
Definition way_globs : list jstring := [js "src"; js "src/main"; js "src/main/**"].
Definition way_document : xoptions :=
  mkXOptions None None None None (Some (mkXFilter (XmAnyOf (Some (map (fun g => XmPath (Some g)) way_globs))) (XmName (Some (js "*.java"))))) None.

Lemma way_acceptable : acceptable way_document.
Proof. now apply valid_options_iff. Qed.

Lemma way_named : names_the_way (names_of "src/main") way_globs.
Proof.
  assert (L1 : literal (js "src") (slashed [js "src"])) by (repeat (apply lit_plain; [vm_compute; intuition discriminate|]); constructor).
  assert (L2 : literal (js "src/main") (slashed (names_of "src/main"))) by (repeat (apply lit_plain; [vm_compute; intuition discriminate|]); constructor).
  split.
  - intros g [<-|[<-|[<-|[]]]]; [left; exists [js "src"], [js "main"]|left; exists (names_of "src/main"), []|right; exists (js "src/main")].
    + split; [discriminate|]. split; [reflexivity|exact L1].
    + split; [discriminate|]. split; [reflexivity|exact L2].
    + split; [reflexivity|exact L2].
  - intros b r Hb E. destruct b as [|a [|a' [|a2 b]]]; [contradiction| | |discriminate].
    + injection E as <- <-. exists (js "src"). split; [now left|exact L1].
    + injection E as <- <- <-. exists (js "src/main"). split; [right; now left|exact L2].
  - exists (js "src/main"). split; [right; right; now left|exact L2].
Qed.

(** ** Counterexamples *)

Lemma project_displayed x : acceptable x ->
  forallb (fun g => jeqb g (js "*") || match jdk_glob g with Some _ => true | None => false end) (all_globs x) = true ->
  exists out st v e s, document_displayed project_world project_names x out /\ follows unix_jvm project_disk project_names x st v /\
    tree_at st project_disk 0 (mkPath true project_names) e /\ shows v true e s /\ out = text (o_tree_format default_options) (labelled v s).
Proof.
  intros Hx Hg. destruct (project_shown x Hx Hg) as (out & Hs). pose proof Hs as (st & v & e & s & H). exists out, st, v, e, s. split; [|exact H].
  assert (Hl : x_emojis x = Some true -> forall k v, default_names k v \/ default_exts k v -> jv_lower (w_jvm project_world) k = k)
    by (intros _; exact unix_lower).
  destruct (C55_lemma project_world (mkPath true project_names) x [] eq_refl Hx Hl) as (r & E & (_ & Hok) & _).
  destruct (Hok (good_globs x Hg)) as (o & ->).
  destruct (proj2 (document_text project_world project_disk project_names x [] o _ out project_steady project_distinct project_real project_real_names
    ltac:(vm_compute; discriminate) Hx Hl E) Hs) as (h2 & P).
  exists [], o, [], h2. split; [exact E|exact P].
Qed.

Lemma dir_filter_counterexample : exists w dk T x out e rest,
  unix_globs w /\ steady w dk /\ distinct_names dk /\ real_listings dk /\
  x_filter x = Some (mkXFilter (XmPath (Some (js "src/main/java/**"))) XmNull) /\ x_max_depth x = None /\ x_child_limit x = None /\
  document_displayed w T x out /\ shows_document_as (w_jvm w) dk T x e out /\
  listed dk (mkPath true T) (names_of "src/main/java" ++ rest) /\ rest <> [] /\ is_dir dk (mkPath true (T ++ names_of "src/main/java" ++ rest)) /\
  forall k es, ~ at_depth k e (EDir (mkPath true (T ++ names_of "src/main/java" ++ rest)) es).
Proof.
  destruct (project_displayed path_filter_document path_filter_acceptable ltac:(vm_compute; reflexivity)) as (out & st & v & e & s & D & F & Ht & Hs).
  exists project_world, project_disk, project_names, path_filter_document, out, e, [js "api"].
  split; [exact project_unix|]. split; [exact project_steady|]. split; [exact project_distinct|]. split; [exact project_real|].
  do 3 (split; [reflexivity|]). split; [exact D|]. split; [exists st, v, s; split; [exact F|split; [exact Ht|exact Hs]]|]. split; [|split; [discriminate|split]].
  - change (names_of "src/main/java" ++ [js "api"]) with (((([] ++ [js "src"]) ++ [js "main"]) ++ [js "java"]) ++ [js "api"]).
    repeat (eapply listed_entry; [|vm_compute; reflexivity|vm_compute; reflexivity|repeat first [apply in_eq | apply in_cons]]). constructor.
  - vm_compute. reflexivity.
  - intros k es H. assert (k = 0) as ->.
    { refine (flat_document unix_jvm project_disk project_names path_filter_document _ (js "src/main/java/**") st v e (fun g => eq_refl) project_real eq_refl
        (or_intror eq_refl) _ _ _ F Ht k _ _ H); vm_compute; intuition discriminate. }
    inversion H as [e' E1 E2|]; subst. inversion Ht.
Qed.

Lemma readme_counterexample : exists w dk T out e rest,
  unix_globs w /\ steady w dk /\ distinct_names dk /\ real_listings dk /\
  document_displayed w T readme_document out /\ shows_document_as (w_jvm w) dk T readme_document e out /\
  listed dk (mkPath true T) (names_of "src/main" ++ rest) /\ ~ is_dir dk (mkPath true (T ++ names_of "src/main" ++ rest)) /\
  ending (last_name (mkPath true rest)) (js ".java") /\
  forall k c, ~ at_depth k e (EFile (mkPath true (T ++ names_of "src/main" ++ rest)) c).
Proof.
  destruct (project_displayed readme_document readme_acceptable ltac:(vm_compute; reflexivity)) as (out & st & v & e & s & D & F & Ht & Hs).
  exists project_world, project_disk, project_names, out, e, [js "java"; js "App.java"].
  split; [exact project_unix|]. split; [exact project_steady|]. split; [exact project_distinct|]. split; [exact project_real|].
  split; [exact D|]. split; [exists st, v, s; split; [exact F|split; [exact Ht|exact Hs]]|]. split; [|split; [|split]].
  - change (names_of "src/main" ++ [js "java"; js "App.java"]) with (((([] ++ [js "src"]) ++ [js "main"]) ++ [js "java"]) ++ [js "App.java"]).
    repeat (eapply listed_entry; [|vm_compute; reflexivity|vm_compute; reflexivity|repeat first [apply in_eq | apply in_cons]]). constructor.
  - vm_compute. discriminate.
  - exists (js "App"). vm_compute. reflexivity.
  - intros k c H. destruct (readme_tree unix_jvm project_disk project_names st v e (fun g => eq_refl) project_real ltac:(vm_compute; reflexivity) F Ht)
      as (names & order & es & _ & Hin & _ & _ & Hes & ->).
    inversion H as [|k' d l x y Hx Hy]; subst. apply in_app_iff in Hx as [Hx|Hx].
    + assert (exists p kd, In p order /\ x = EFile p kd) as (p & kd & Hp & ->).
      { assert (Hes' : Forall2 (fun p c => exists k, c = EFile p k) (firstn 3 order) es) by exact Hes.
        assert (G : forall (l : list path) es, Forall2 (fun p c => exists k, c = EFile p k) l es -> In x es -> exists p kd, In p l /\ x = EFile p kd).
        { intros l' es' F'. induction F' as [|a b l' l2 [kd ->] F' IH]; [intros []|]. intros [<-|H']; [exists a, kd; split; [now left|reflexivity]|].
          destruct (IH H') as (p & kd' & H1 & H2). exists p, kd'. split; [now right|exact H2]. }
        destruct (G _ _ Hes' Hx) as (p & kd & Hp & ->). exists p, kd. split; [|reflexivity]. rewrite <- (firstn_skipn 3 order). apply in_app_iff. now left. }
      apply Hin in Hp as (n & _ & -> & _). inversion Hy as [e' E1|].
    + destruct (3 <? length order); [|destruct Hx]. destruct Hx as [<-|[]]. inversion Hy.
Qed.
