(** * The path matchers: C36-C42, C69, C70, C79, C96, C97 *)

From Verif Require Import SpecMatch Cases MatcherFacts.
Close Scope Z_scope.

(** C36. The arguments are asked from left to right; the first decisive answer (false for allOf, true for anyOf and noneOf) ends the
    evaluation, and so does an exception; the matchers behind it are not evaluated. *)
Theorem C36_combinations_evaluate_in_order : forall md m ms, exists c, combination md (map Some (m :: ms)) = Ok c /\
  forall w p h, exists r h', asked w p (decisive md) (m :: ms) h r h' /\
    c p w h = (match r with Ok met => Ok (verdict md met) | Throw e => Throw e end, h').
Proof. exact combine_asked_called. Qed.
Print Assumptions C36_combinations_evaluate_in_order.

(** The evaluation [asked] describes is unique. *)
Theorem C36_evaluation_is_unique : forall w p d ms h r1 h1 r2 h2,
  asked w p d ms h r1 h1 -> asked w p d ms h r2 h2 -> r1 = r2 /\ h1 = h2.
Proof. exact asked_det. Qed.
Print Assumptions C36_evaluation_is_unique.

(** For arguments that do not throw: conjunction, disjunction, negated disjunction. *)
Theorem C36_boolean_meaning : forall md m ms c w p g,
  combination md (map Some (m :: ms)) = Ok c ->
  Forall (fun x => forall h, exists h', x p w h = (Ok (g x), h')) (m :: ms) ->
  forall h, exists h', c p w h =
    (Ok (match md with ALL => forallb g (m :: ms) | ANY => existsb g (m :: ms) | NONE => negb (existsb g (m :: ms)) end), h').
Proof. exact combine_boolean_called. Qed.
Print Assumptions C36_boolean_meaning.

Theorem C36_argument_checks : forall md ms,
  combination md [] = Throw ExIllegalArgument /\ (In None ms -> combination md ms = Throw ExNullPointer).
Proof. exact combine_errors_called. Qed.
Print Assumptions C36_argument_checks.

(** A client changes the collection and combines it, any number of times: the matcher made by one of the calls is determined by the
    contents of the collection at that time ([later] does not matter). *)
Theorem C36_later_changes_have_no_effect : forall l cmds md later,
  nth_error (cs_made (coll_run (mkCollSession l []) (cmds ++ CCombine md :: later))) (combines cmds) =
  Some (combination md (contents l cmds)).
Proof. exact combined_frozen_called. Qed.
Print Assumptions C36_later_changes_have_no_effect.

Theorem C36_not_and_conditional : forall w p m i t e h,
  (forall b h', m p w h = (Ok b, h') -> pm_not m p w h = (Ok (negb b), h')) /\
  (forall x h', m p w h = (Throw x, h') -> pm_not m p w h = (Throw x, h')) /\
  (forall h', i p w h = (Ok true, h') -> pm_if_then_else i t e p w h = t p w h') /\
  (forall h', i p w h = (Ok false, h') -> pm_if_then_else i t e p w h = e p w h') /\
  (forall x h', i p w h = (Throw x, h') -> pm_if_then_else i t e p w h = (Throw x, h')).
Proof. exact not_and_conditional. Qed.
Print Assumptions C36_not_and_conditional.

(** A matcher that throws, behind a decisive one, and before it. *)
Definition case_throws : matcher := fun _ => throw (ExUser 3).
Example C36_case :
  asked sample_world (pth "/home/u/a") true [pm_is_directory; case_throws] [] (Ok true) [EvLstat (pth "/home/u/a") (Some KDir)] /\
  match pm_none_of (map Some [pm_is_directory; case_throws]) with
  | Ok c => c (pth "/home/u/a") sample_world [] = (Ok false, [EvLstat (pth "/home/u/a") (Some KDir)])
  | Throw _ => False
  end /\
  match pm_any_of (map Some [case_throws; pm_is_directory]) with
  | Ok c => c (pth "/home/u/a") sample_world [] = (Throw (ExUser 3), [])
  | Throw _ => False
  end /\
  Forall (fun x : matcher => forall h, exists h', x (pth "/a.txt") sample_world h = (Ok true, h'))
    [pm_name (js "a.txt"); pm_extension (js "txt")].
Proof.
  split; [apply asked_stop; vm_compute; reflexivity|]. split; [vm_compute; reflexivity|]. split; [vm_compute; reflexivity|].
  repeat constructor; intro h; exists h; vm_compute; reflexivity.
Qed.

(** C37. [R] spells the reference's location without "." and "..". The matcher is given the remaining names of a path below the
    reference, and for any other path as many ".." as needed to leave the common part, then the rest. *)
Theorem C37_relative_path : forall w h ref m R,
  same_location (jv_cwd (w_jvm w)) ref (mkPath true R) ->
  exists c, pm_relative_path ref m w h = (Ok c, h) /\
    (forall p rest h', Forall real_name (R ++ rest) ->
       same_location (jv_cwd (w_jvm w)) p (mkPath true (R ++ rest)) -> c p w h' = m (mkPath false rest) w h') /\
    (forall p common x b y h', R = common ++ x :: b -> Forall real_name (common ++ x :: b ++ y) -> hd_error y <> Some x ->
       same_location (jv_cwd (w_jvm w)) p (mkPath true (common ++ y)) ->
       c p w h' = m (mkPath false (repeat n_dotdot (length (x :: b)) ++ y)) w h').
Proof. exact C37_lemma. Qed.
Print Assumptions C37_relative_path.

(** The reference "src/..", i.e. /home/u; the paths "./src/main" and "../v/w". *)
Example C37_case :
  same_location (jv_cwd (w_jvm sample_world)) (pth "src/..") (pth "/home/u") /\
  same_location (jv_cwd (w_jvm sample_world)) (pth "./src/main") (pth "/home/u/src/main") /\
  same_location (jv_cwd (w_jvm sample_world)) (pth "../v/w") (pth "/home/v/w") /\
  match pm_relative_path (pth "src/..") (fun p => fun w h => (Ok true, EvUser 0 p :: h)) sample_world [] with
  | (Ok c, []) => snd (c (pth "./src/main") sample_world []) = [EvUser 0 (pth "src/main")] /\
                  snd (c (pth "../v/w") sample_world []) = [EvUser 0 (pth "../v/w")]
  | _ => False
  end.
Proof.
  split; [|split; [|split; [|vm_compute; split; reflexivity]]].
  - eapply same_trans; [apply same_cwd|]. apply (same_up _ true (names_of "home/u") (js "src") []); discriminate.
  - eapply same_trans; [apply same_cwd|]. apply (same_dot _ true (names_of "home/u") (names_of "src/main")).
  - eapply same_trans; [apply same_cwd|]. apply (same_up _ true (names_of "home") (js "u") (names_of "v/w")); discriminate.
Qed.

(** C38 does not hold: for "../v" the matcher is given "/home/u/../v", not "/home/v" (PathMatchers.java:366 normalises first and
    prefixes the current directory afterwards). *)
Theorem C38_refuted : exists w m p h,
  pm_absolute_path m p w h <> m (normalize (to_absolute (jv_cwd (w_jvm w)) p)) w h.
Proof.
  exists sample_world, (fun p => ret (path_eqb p (pth "/home/v"))), (pth "../v"), [].
  vm_compute. discriminate.
Qed.
Print Assumptions C38_refuted.

Example C38_user_view :
  fst (pm_absolute_path (fun p => ret (path_eqb p (pth "/home/v"))) (pth "../v") sample_world []) = Ok false /\
  fst (pm_absolute_path (fun p => ret (path_eqb p (pth "/home/u/../v"))) (pth "../v") sample_world []) = Ok true.
Proof. vm_compute. split; reflexivity. Qed.

(** C69. The path given to the matcher: it is absolute, names the same location, and is the documented one if the path is absolute or
    does not lead out of the current directory. *)
Theorem C69_path_given_to_the_absolute_matcher : forall w m p,
  exists q, (forall h, pm_absolute_path m p w h = m q w h) /\
    p_abs q = true /\ same_location (jv_cwd (w_jvm w)) p q /\
    (p_abs p = true -> q = normalize p) /\
    (p_abs p = false -> exists l, p_names q = jv_cwd (w_jvm w) ++ l /\ mkPath false l = normalize p) /\
    (Forall real_name (jv_cwd (w_jvm w)) -> (p_abs p = true \/ ~ In n_dotdot (p_names (normalize p))) ->
       q = normalize (to_absolute (jv_cwd (w_jvm w)) p)).
Proof. exact C69_lemma. Qed.
Print Assumptions C69_path_given_to_the_absolute_matcher.

Example C69_case :
  Forall real_name (jv_cwd (w_jvm sample_world)) /\ ~ In n_dotdot (p_names (normalize (pth "src/../a/./b"))) /\
  snd (pm_absolute_path (fun p => fun w h => (Ok true, EvUser 0 p :: h)) (pth "src/../a/./b") sample_world []) = [EvUser 0 (pth "/home/u/a/b")].
Proof.
  split; [|split; [|vm_compute; reflexivity]].
  - assert (H : forall n, negb (jeqb n []) && negb (existsb (N.eqb c_slash) n) && negb (jeqb n n_dot) && negb (jeqb n n_dotdot) = true -> real_name n).
    { intros n H. rewrite !andb_true_iff, !negb_true_iff in H. destruct H as (((H1 & H2) & H3) & H4). split; [split|split]; intro E; subst;
        try discriminate. rewrite <- not_true_iff_false in H2. apply H2. apply existsb_exists. exists c_slash. split; [exact E|reflexivity]. }
    repeat apply Forall_cons; try apply Forall_nil; apply H; vm_compute; reflexivity.
  - vm_compute. intros [H|[H|[]]]; discriminate.
Qed.

(** C39. *)
Theorem C39_direct_parent : forall w m p h,
  (forall q n, (p_abs q = true \/ p_names q <> []) -> p = child q n -> pm_direct_parent m p w h = m q w h) /\
  (p_names p = [] \/ (p_abs p = false /\ length (p_names p) = 1) ->
     pm_direct_parent m p w h = (Ok false, h) /\ pm_any_ancestor m p w h = (Ok false, h)).
Proof. exact C39_parent_lemma. Qed.
Print Assumptions C39_direct_parent.

(** [m] need not be defined elsewhere than on the ancestors. *)
Theorem C39_any_ancestor : forall w m g p h, answers_on w (fun q => is_ancestor q p) m g ->
  exists b h', pm_any_ancestor m p w h = (Ok b, h') /\ (b = true <-> exists q, is_ancestor q p /\ g q = true).
Proof. exact C39_ancestor_lemma. Qed.
Print Assumptions C39_any_ancestor.

(** An accepted ancestor [q] decides whatever [m] does above it. *)
Theorem C39_nearest_ancestor_decides : forall w m g p q h, is_ancestor q p -> g q = true ->
  answers_on w (fun a => is_ancestor a p /\ (a = q \/ is_ancestor q a)) m g ->
  exists h', pm_any_ancestor m p w h = (Ok true, h').
Proof. exact C39_nearest_lemma. Qed.
Print Assumptions C39_nearest_ancestor_decides.

(** The ancestors of "/home/u/src" are "/home/u", "/home" and "/"; the matcher throws on "/". *)
Definition case_above : matcher := fun p => match p_names p with [] => throw (ExUser 1) | _ => ret (jeqb (last_name p) (js "home")) end.
Example C39_case :
  is_ancestor (pth "/home") (pth "/home/u/src") /\
  answers_on sample_world (fun a => is_ancestor a (pth "/home/u/src") /\ (a = pth "/home" \/ is_ancestor (pth "/home") a))
    case_above (fun p => jeqb (last_name p) (js "home")) /\
  pm_any_ancestor case_above (pth "/home/u/src") sample_world [] = (Ok true, []) /\
  pm_any_ancestor case_above (pth "/r/x") sample_world [] = (Throw (ExUser 1), []) /\
  pm_any_ancestor (pm_name (js "u")) (pth "src/main") sample_world [] = (Ok false, []).
Proof.
  split; [|split; [|vm_compute; auto]].
  - split; [reflexivity|]. split; [|now left]. exists [js "u"; js "src"]. split; [discriminate|reflexivity].
  - intros p h [_ [->|(_ & (rest & _ & Hr) & _)]]; [exists h; reflexivity|].
    exists h. unfold case_above. rewrite Hr. vm_compute p_names. destruct p. reflexivity.
Qed.

(** C40. [m] need not be defined elsewhere than strictly below [p]. *)
Theorem C40_any_descendant : forall w dk m g p h, steady w dk -> readable_below dk 2147483647 p ->
  answers_on w (fun q => exists k, (Z.of_nat k <= 2147483647)%Z /\ descends dk p k q) m g ->
  exists b h', pm_any_descendant m p w h = (Ok b, h') /\
    (b = true <-> exists k q, (Z.of_nat k <= 2147483647)%Z /\ descends dk p k q /\ g q = true).
Proof. exact C40_descendant_lemma. Qed.
Print Assumptions C40_any_descendant.

Theorem C40_any_direct_child : forall w dk m g p h, steady w dk -> readable_children dk p ->
  answers_on w (fun q => exists names n, d_list dk p = Some names /\ In n names /\ q = child p n) m g ->
  exists b h', pm_any_direct_child m p w h = (Ok b, h') /\
    (b = true <-> is_dir dk p /\ exists names n, d_list dk p = Some names /\ In n names /\ g (child p n) = true).
Proof. exact C40_child_lemma. Qed.
Print Assumptions C40_any_direct_child.

Lemma sample_below k q : descends sample_disk (pth "/home/u") k q -> In q sample_paths.
Proof.
  intro H. assert (Hc : closed_under_listing sample_paths sample_disk = true) by (vm_compute; reflexivity).
  assert (Hr : In (pth "/home/u") sample_paths) by (apply path_inb_In; vm_compute; reflexivity).
  assert (step : forall p names n, In p sample_paths -> d_list sample_disk p = Some names -> In n names -> In (child p n) sample_paths).
  { intros p names n Hp Hl Hn. unfold closed_under_listing in Hc. rewrite forallb_forall in Hc. specialize (Hc p Hp).
    rewrite Hl, forallb_forall in Hc. apply path_inb_In. now apply Hc. }
  induction H; eauto.
Qed.

Lemma sample_readable_path q : In q sample_paths -> d_kind sample_disk q <> None /\ (is_dir sample_disk q -> exists l, d_list sample_disk q = Some l).
Proof.
  intro Hq. assert (H : forallb (fun q => is_some (d_kind sample_disk q) && (if is_dirb sample_disk q then is_some (d_list sample_disk q) else true)) sample_paths = true)
    by (vm_compute; reflexivity).
  rewrite forallb_forall in H. specialize (H q Hq). apply andb_prop in H. destruct H as [H1 H2]. unfold is_dirb in H2. unfold is_dir. split.
  - intro E. rewrite E in H1. discriminate.
  - intro E. rewrite E in H2. destruct (d_list sample_disk q); [eauto|discriminate].
Qed.

Lemma sample_readable_children q : In q sample_paths -> readable_children sample_disk q.
Proof.
  intros Hq Hd. destruct (sample_readable_path q Hq) as [_ H]. destruct (H Hd) as (l & El). exists l. split; [exact El|]. intros n Hn.
  apply sample_readable_path. assert (Hc : closed_under_listing sample_paths sample_disk = true) by (vm_compute; reflexivity).
  unfold closed_under_listing in Hc. rewrite forallb_forall in Hc. specialize (Hc q Hq). rewrite El, forallb_forall in Hc.
  apply path_inb_In. now apply Hc.
Qed.

Example C40_case :
  steady sample_world sample_disk /\ readable_below sample_disk 2147483647 (pth "/home/u") /\
  answers_on sample_world (fun q => exists k, (Z.of_nat k <= 2147483647)%Z /\ descends sample_disk (pth "/home/u") k q)
    (pm_extension (js "java")) (fun q => jsuffixb (js ".java") (last_name q)) /\
  descends sample_disk (pth "/home/u") 3 (pth "/home/u/src/main/java") /\
  readable_children sample_disk (pth "/home/u") /\
  fst (pm_any_direct_child (pm_name (js "b.txt")) (pth "/home/u") sample_world []) = Ok true /\
  fst (pm_any_direct_child (pm_name (js "main")) (pth "/home/u") sample_world []) = Ok false /\
  fst (pm_any_direct_child (pm_name (js "u")) (pth "/home/u") sample_world []) = Ok false.
Proof.
  assert (Hr : In (pth "/home/u") sample_paths) by (apply path_inb_In; vm_compute; reflexivity).
  split; [apply sample_steady|]. split.
  { split; [apply sample_readable_path; exact Hr|]. intros k q H _. apply sample_below in H. destruct (sample_readable_path q H) as [A B].
    split; [exact A|]. intros C _. now apply B. }
  split.
  { intros q h (k & _ & H). exists h. unfold pm_extension, pm_name_ending_with, pm_name_test, get_file_name, last_name.
    apply descends_inv_names in H. destruct H as (l & n & ->). cbn [p_names]. rewrite rev_app_distr, last_last. reflexivity. }
  split; [|split; [apply sample_readable_children; exact Hr|vm_compute; auto]].
  apply (desc_deeper sample_disk _ 2 (pth "/home/u/src/main") [js "java"] (js "java")); [|vm_compute; reflexivity|vm_compute; reflexivity|now left].
  apply (desc_deeper sample_disk _ 1 (pth "/home/u/src") [js "main"] (js "main")); [|vm_compute; reflexivity|vm_compute; reflexivity|now left].
  eapply (desc_child sample_disk (pth "/home/u") _ (js "src")); [vm_compute; reflexivity|vm_compute; reflexivity|]. cbn. tauto.
Qed.

(** C41. [q] is the parent, [n] the last name of the path; [m] need not be defined elsewhere than on the other entries of [q]. *)
Theorem C41_sibling : forall w dk m g q n h, steady w dk -> (p_abs q = true \/ p_names q <> []) -> readable_children dk q ->
  answers_on w (fun s => exists names n', d_list dk q = Some names /\ In n' names /\ n' <> n /\ s = child q n') m g ->
  exists b h', pm_sibling m (child q n) w h = (Ok b, h') /\
    (b = true <-> is_dir dk q /\ exists names n', d_list dk q = Some names /\ In n' names /\ n' <> n /\ g (child q n') = true).
Proof. exact C41_lemma. Qed.
Print Assumptions C41_sibling.

Theorem C41_no_parent : forall w m p h, p_names p = [] \/ (p_abs p = false /\ length (p_names p) = 1) ->
  pm_sibling m p w h = (Ok false, h).
Proof. exact C41_no_parent_lemma. Qed.
Print Assumptions C41_no_parent.

(** The matcher throws on the path itself. *)
Definition case_sibling : matcher :=
  fun p => if jeqb (last_name p) (js "Zoo") then throw (ExUser 2) else ret (jeqb (last_name p) (js "b.txt")).
Example C41_case :
  readable_children sample_disk (pth "/home/u") /\
  answers_on sample_world (fun s => exists names n', d_list sample_disk (pth "/home/u") = Some names /\ In n' names /\ n' <> js "Zoo" /\ s = child (pth "/home/u") n')
    case_sibling (fun p => jeqb (last_name p) (js "b.txt")) /\
  fst (pm_sibling case_sibling (pth "/home/u/Zoo") sample_world []) = Ok true /\
  fst (pm_sibling (pm_name (js "Zoo")) (pth "/home/u/Zoo") sample_world []) = Ok false /\
  fst (pm_sibling case_sibling (pth "Zoo") sample_world []) = Ok false.
Proof.
  assert (Hr : In (pth "/home/u") sample_paths) by (apply path_inb_In; vm_compute; reflexivity).
  split; [apply sample_readable_children; exact Hr|]. split; [|vm_compute; auto].
  intros s h (names & n & _ & _ & Hn & ->). exists h. unfold case_sibling. change (last_name (child (pth "/home/u") n)) with n.
  destruct (jeqb n (js "Zoo")) eqn:E; [|reflexivity]. apply SortFacts.jeqb_eq in E. contradiction.
Qed.

(** C42. *)
Theorem C42_names : forall w p n x h, ends_with_name p n ->
  (exists b, pm_name x p w h = (Ok b, h) /\ (b = true <-> n = x)) /\
  (exists b, pm_name_ignore_case x p w h = (Ok b, h) /\ (b = true <-> same_ci (jv_fold (w_jvm w)) n x)) /\
  (exists b, pm_name_starting_with x p w h = (Ok b, h) /\ (b = true <-> exists t, n = x ++ t)) /\
  (exists b, pm_name_ending_with x p w h = (Ok b, h) /\ (b = true <-> exists t, n = t ++ x)) /\
  (exists b, pm_extension x p w h = (Ok b, h) /\ (b = true <-> exists t, n = t ++ c_dot :: x)) /\
  (forall pat, pm_name_matching pat p w h = (Ok (pat n), h)).
Proof. exact C42_named_lemma. Qed.
Print Assumptions C42_names.

Theorem C42_no_name : forall w x h pat,
  let root := mkPath true [] in
  pm_name x root w h = (Ok false, h) /\ pm_name_ignore_case x root w h = (Ok false, h) /\
  pm_name_starting_with x root w h = (Ok false, h) /\ pm_name_ending_with x root w h = (Ok false, h) /\
  pm_extension x root w h = (Ok false, h) /\ pm_name_matching pat root w h = (Ok false, h).
Proof. exact C42_no_name_lemma. Qed.
Print Assumptions C42_no_name.

(** A glob is an arbitrary predicate of the path consisting of the last name only; "*" is treated apart. *)
Theorem C42_glob : forall w g h,
  (g = s_star -> exists c, pm_name_glob g w h = (Ok c, h) /\ forall p h', c p w h' = (Ok true, h')) /\
  (g <> s_star -> jv_glob (w_jvm w) g = None -> pm_name_glob g w h = (Throw (ExPatternSyntax g), h)) /\
  (forall f, g <> s_star -> jv_glob (w_jvm w) g = Some f -> exists c, pm_name_glob g w h = (Ok c, h) /\
     (forall a l n h', c (mkPath a (l ++ [n])) w h' = (Ok (f (mkPath false [n])), h')) /\
     (forall h', c (mkPath true []) w h' = (Ok false, h'))).
Proof. exact C42_glob_lemma. Qed.
Print Assumptions C42_glob.

(** A capital letter of two code units, U+10400, and its small letter U+10428. *)
Definition deseret_capital : jstring := [55297; 56320]%N.
Definition deseret_small : jstring := [55297; 56360]%N.
Definition deseret_world : world := static_world sample_fs (mkJvm [] (fun s => s) (fun c => if (c =? 66560)%N then 66600%N else c) (fun _ => None)).
Example C42_case :
  ends_with_name (pth "/home/u/B.JAVA") (js "B.JAVA") /\
  pm_name_ignore_case (js "b.java") (pth "/home/u/B.JAVA") sample_world [] = (Ok true, []) /\
  pm_extension (js "java") (pth "/home/u/.java") sample_world [] = (Ok true, []) /\
  match pm_name_glob (js "*.java") sample_world [] with
  | (Ok c, []) => c (pth "/x/A.java") sample_world [] = (Ok true, []) /\ c (pth "/") sample_world [] = (Ok false, [])
  | _ => False
  end /\ fst (pm_name_glob (js "[") sample_world []) = Throw (ExPatternSyntax (js "[")) /\
  pm_name_ignore_case deseret_small (mkPath true [deseret_capital]) deseret_world [] = (Ok true, []) /\
  pm_name deseret_small (mkPath true [deseret_capital]) deseret_world [] = (Ok false, []).
Proof. split; [apply (ewn_last true (names_of "home/u"))|vm_compute; auto 10]. Qed.

(** C70. In any world, whatever fails: a matcher assembled from the library's matchers and from matchers that close what they open
    closes what it opens, and throws nothing new except an UncheckedIOException. *)
Theorem C70_matchers_close_streams : forall w (base : matcher -> Prop) (E : exn -> Prop) m,
  (forall b, base b -> callback w b balanced E) -> assembled w true base m ->
  callback w m balanced (fun x => E x \/ walk_failure x).
Proof. exact C70_lemma. Qed.
Print Assumptions C70_matchers_close_streams.

(** "has a child that has no child named x"; the listing of every directory breaks off at its end. *)
Definition case_nested : matcher := pm_any_direct_child (pm_not (pm_any_direct_child (pm_name (js "x")))).
Example C70_case :
  assembled iter_fail_world true (fun _ => False) case_nested /\
  case_nested (pth "/r") iter_fail_world [] =
    (Ok true, [EvClose (pth "/r") true; EvLstat (pth "/r/x") (Some KLink); EvLstat (pth "/r/x") (Some KLink); EvOpen (pth "/r");
               EvLstat (pth "/r") (Some KDir); EvLstat (pth "/r") (Some KDir)]) /\
  fst (case_nested (pth "/home") iter_fail_world []) = Throw (ExUncheckedIO WalkNext (pth "/home/u")).
Proof. split; [apply as_child, as_not, as_child, as_name; reflexivity|]. vm_compute. split; reflexivity. Qed.

(** C96. A matcher assembled without the matchers on children, descendants and siblings reads no directory and no attributes: it only asks for
    the kind of paths; and it throws nothing new. *)
Theorem C96_no_directory_is_read : forall w (base : matcher -> Prop) (E : exn -> Prop) m,
  (forall b, base b -> callback w b (modest w) E) -> assembled w false base m -> callback w m (modest w) E.
Proof. exact C96_modest_lemma. Qed.
Print Assumptions C96_no_directory_is_read.

(** Any assembled matcher is told what the world answers at that moment. *)
Theorem C96_nothing_is_remembered : forall w (base : matcher -> Prop) m,
  (forall b, base b -> honest w b) -> assembled w true base m -> honest w m.
Proof. exact C96_honest_lemma. Qed.
Print Assumptions C96_nothing_is_remembered.

(** "is a directory, below a path named x or not named x": only kinds are asked for. With "has a child named x", the directory is read. *)
Example C96_case :
  let m := pm_if_then_else pm_is_directory (pm_any_ancestor (pm_name (js "home"))) (pm_not (pm_name (js "x"))) in
  assembled sample_world false (fun _ => False) m /\
  m (pth "/home/u/src") sample_world [] = (Ok true, [EvLstat (pth "/home/u/src") (Some KDir)]) /\
  assembled sample_world true (fun _ => False) (pm_any_direct_child m) /\
  fst (pm_any_direct_child m (pth "/home/u") sample_world []) = Ok true /\
  In (EvOpen (pth "/home/u")) (snd (pm_any_direct_child m (pth "/home/u") sample_world [])).
Proof.
  split; [apply as_if; [apply as_directory|apply as_ancestor, as_name|apply as_not, as_name]|].
  split; [vm_compute; reflexivity|]. split; [apply as_child; [reflexivity|]; apply as_if; [apply as_directory|apply as_ancestor, as_name|apply as_not, as_name]|].
  vm_compute. repeat split; auto 10.
Qed.

(** C79. The matchers on the kind of a path: one reading of the attributes without following links decides. A path whose attributes cannot be
    read ([w_lstat] gives [None]) is a "file" and nothing else; a symbolic link is never a directory, even if it points to one. *)
Theorem C79_kind_of_path : forall w h p, let k := w_lstat w h p in let h' := EvLstat p k :: h in
  (exists b, pm_is_directory p w h = (Ok b, h') /\ (b = true <-> k = Some KDir)) /\
  (exists b, pm_is_regular_file p w h = (Ok b, h') /\ (b = true <-> k = Some KReg)) /\
  (exists b, pm_is_symbolic_link p w h = (Ok b, h') /\ (b = true <-> k = Some KLink)) /\
  (exists b, pm_is_file p w h = (Ok b, h') /\ (b = true <-> k <> Some KDir)).
Proof. exact C79_lemma. Qed.
Print Assumptions C79_kind_of_path.

(** A link to a directory; a path that does not exist. *)
Example C79_case : let p := pth "/home/u/link" in let q := pth "/home/nobody" in
  w_stat sample_world [] p = Some KDir /\ fst (pm_is_directory p sample_world []) = Ok false /\
  fst (pm_is_symbolic_link p sample_world []) = Ok true /\ fst (pm_is_file p sample_world []) = Ok true /\
  fst (pm_is_regular_file p sample_world []) = Ok false /\
  w_lstat sample_world [] q = None /\ fst (pm_is_directory q sample_world []) = Ok false /\ fst (pm_is_file q sample_world []) = Ok true.
Proof. vm_compute. repeat split. Qed.

(** C97. Globs on whole paths. The glob language is that of the platform: [jv_glob] is an arbitrary function from globs to predicates of
    paths. A malformed glob is reported when the matcher is created, and "*" matches every path. *)
Theorem C97_malformed_globs : forall w ref g h,
  jv_glob (w_jvm w) g = None -> g <> js "*" ->
  pm_absolute_path_glob g w h = (Throw (ExPatternSyntax g), h) /\ pm_relative_path_glob ref g w h = (Throw (ExPatternSyntax g), h).
Proof. exact C97_malformed_lemma. Qed.
Print Assumptions C97_malformed_globs.

Theorem C97_star : forall w ref h,
  (exists c, pm_absolute_path_glob (js "*") w h = (Ok c, h) /\ forall p h', c p w h' = (Ok true, h')) /\
  (exists c, pm_relative_path_glob ref (js "*") w h = (Ok c, h) /\ forall p h', c p w h' = (Ok true, h')).
Proof. exact C97_star_lemma. Qed.
Print Assumptions C97_star.

(** Any other glob is applied to an absolute path naming the same location. It has no "." and no ".." if the current directory has none
    and the path does not lead out of it. *)
Theorem C97_absolute_globs : forall w g f h, jv_glob (w_jvm w) g = Some f -> g <> js "*" ->
  exists c, pm_absolute_path_glob g w h = (Ok c, h) /\
    forall p, exists q, (forall h', c p w h' = (Ok (f q), h')) /\ p_abs q = true /\ same_location (jv_cwd (w_jvm w)) p q /\
      (Forall real_name (jv_cwd (w_jvm w)) -> (p_abs p = true \/ ~ In n_dotdot (p_names (normalize p))) ->
         Forall (fun n => n <> n_dot /\ n <> n_dotdot) (p_names q)).
Proof. exact C97_absolute_lemma. Qed.
Print Assumptions C97_absolute_globs.

(** The glob relative to a reference at the location [R] is applied to what follows [R], or to the ".." leading out of [R] and the rest. *)
Theorem C97_relative_globs : forall w ref g f h R, jv_glob (w_jvm w) g = Some f -> g <> js "*" ->
  same_location (jv_cwd (w_jvm w)) ref (mkPath true R) ->
  exists c, pm_relative_path_glob ref g w h = (Ok c, h) /\
    (forall p rest h', Forall real_name (R ++ rest) ->
       same_location (jv_cwd (w_jvm w)) p (mkPath true (R ++ rest)) -> c p w h' = (Ok (f (mkPath false rest)), h')) /\
    (forall p common x b y h', R = common ++ x :: b -> Forall real_name (common ++ x :: b ++ y) -> hd_error y <> Some x ->
       same_location (jv_cwd (w_jvm w)) p (mkPath true (common ++ y)) ->
       c p w h' = (Ok (f (mkPath false (repeat n_dotdot (length (x :: b)) ++ y))), h')).
Proof. exact C97_relative_lemma. Qed.
Print Assumptions C97_relative_globs.

(** The glob of the sample platform written "/home/u/src" matches the relative path "./src", and "src" does relative to "."; "*.java"
    matches below the reference only at the first level; "*" at all levels; "[" is malformed. *)
Example C97_case :
  let asked (c : M matcher) (p : path) := match c sample_world [] with (Ok c, []) => Some (fst (c p sample_world [])) | _ => None end in
  asked (pm_absolute_path_glob (js "/home/u/src")) (pth "./src") = Some (Ok true) /\
  asked (pm_absolute_path_glob (js "./src")) (pth "./src") = Some (Ok false) /\
  asked (pm_relative_path_glob (pth ".") (js "src")) (pth "/home/u/a/../src") = Some (Ok true) /\
  asked (pm_relative_path_glob (pth "src") (js "*.java")) (pth "src/A.java") = Some (Ok true) /\
  asked (pm_relative_path_glob (pth "src") (js "*.java")) (pth "src/main/A.java") = Some (Ok false) /\
  asked (pm_relative_path_glob (pth "src") (js "*")) (pth "src/main/A.java") = Some (Ok true) /\
  asked (pm_relative_path_glob (pth "src") (js "../a")) (pth "a") = Some (Ok true) /\
  jv_glob (w_jvm sample_world) (js "[") = None /\ asked (pm_absolute_path_glob (js "[")) (pth "a") = None.
Proof. vm_compute. repeat split; reflexivity. Qed.
