(** * The option builders and the built-in comparators: C29-C35, C66-C68, C92, C93 *)

From Verif Require Import SortFacts SpecScan SpecBuild SpecOrder Cases ScanPrintFacts BuilderFacts OrderFacts PointFacts.
Open Scope Z_scope.

(** C29. [cmds] are the calls made on a new builder before one of its [build] calls, [later] those made afterwards;
    the function built by that call is the one numbered [ext_builds cmds]. *)
Theorem C29_first_non_null_rule_wins : forall w p cmds later h,
  exists r h', first_non_null w p (ext_ops cmds) h r h' /\
               ext_call (ext_run ext_start (cmds ++ XBuild :: later)) (ext_builds cmds) p w h = (r, h').
Proof. exact C29_lemma. Qed.
Print Assumptions C29_first_non_null_rule_wins.

Theorem C29_outcome_is_unique : forall w p ops h r1 h1 r2 h2,
  first_non_null w p ops h r1 h1 -> first_non_null w p ops h r2 h2 -> r1 = r2 /\ h1 = h2.
Proof. exact first_non_null_det. Qed.
Print Assumptions C29_outcome_is_unique.

(** The second rule decides; the third, which would throw, is not evaluated; the fourth comes too late. *)
Example C29_case :
  let cmds := [XOp (XAddMatcher (pure (fun _ => false)) (Some (js "no"))); XOp (XAddLineBreak (pure (fun _ => true)));
               XBuild; XOp (XAdd (fun _ => throw (ExUser 1)))] in
  let later := [XOp (XAdd (fun _ => ret (Some (js "late")))); XBuild] in
  ext_builds cmds = 1%nat /\
  ext_call (ext_run ext_start (cmds ++ XBuild :: later)) 1 (pth "x") sample_world [] = (Ok (Some []), []) /\
  ext_call (ext_run ext_start (XBuild :: cmds ++ XBuild :: later)) 0 (pth "x") sample_world [] = (Ok None, []).
Proof. split; [|split]; vm_compute; reflexivity. Qed.

(** C30 does not hold: no rule matches, and the default limit 5 is not what is returned. *)
Theorem C30_refuted : exists d rules p w h,
  Forall (fun r => fst r p = false) rules /\ documented_limit d rules p = d /\ d = 5 /\
  limit_call (limit_run (limit_start d) (map (fun r => LOp (LAddMatcher (pure (fst r)) (snd r))) rules ++ [LBuild])) 0 p w h
  = (Ok (-1), h).
Proof.
  exists 5, [((fun p => jeqb (last_name p) (js "x")), 3)], (pth "y"), sample_world, [].
  split; [constructor; [vm_compute; reflexivity|constructor]|]. split; [vm_compute; reflexivity|].
  split; [reflexivity|vm_compute; reflexivity].
Qed.
Print Assumptions C30_refuted.

(** C31 does not hold: the first matching rule says UNLIMITED, a later matching one wins. *)
Theorem C31_refuted : exists d rules p w h,
  Forall (fun r => fst r p = true) rules /\ documented_limit d rules p = UNLIMITED /\
  limit_call (limit_run (limit_start d) (map (fun r => LOp (LAddMatcher (pure (fst r)) (snd r))) rules ++ [LBuild])) 0 p w h
  = (Ok 3, h).
Proof.
  exists 5, [((fun p => jeqb (last_name p) (js "x")), UNLIMITED); ((fun _ => true), 3)], (pth "x"), sample_world, [].
  split; [repeat constructor; vm_compute; reflexivity|]. split; vm_compute; reflexivity.
Qed.
Print Assumptions C31_refuted.

(** What remains of C31: for limits that are not negative the first matching rule decides. *)
Theorem C31_nonnegative_partial : forall d rules p w h,
  Forall (fun r => 0 <= snd r) rules -> Exists (fun r => fst r p = true) rules ->
  limit_call (limit_run (limit_start d) (map (fun r => LOp (LAddMatcher (pure (fst r)) (snd r))) rules ++ [LBuild])) 0 p w h
  = (Ok (documented_limit d rules p), h).
Proof. exact documented_when_matched. Qed.
Print Assumptions C31_nonnegative_partial.

Example C31_case :
  let rules := [((fun p => jeqb (last_name p) (js "x")), 3); ((fun p => jeqb (last_name p) (js "y")), 7)] in
  Forall (fun r : (path -> bool) * Z => 0 <= snd r) rules /\ Exists (fun r : (path -> bool) * Z => fst r (pth "y") = true) rules /\
  documented_limit 5 rules (pth "y") = 7.
Proof.
  split; [repeat constructor; vm_compute; discriminate|]. split; [|vm_compute; reflexivity].
  apply Exists_cons_tl. apply Exists_cons_hd. vm_compute. reflexivity.
Qed.

(** C32 does not hold: [setDefaultLimit] after [build] changes the function already built. *)
Theorem C32_refuted : exists d cmds later p w h,
  limit_call (limit_run (limit_start d) (cmds ++ [LBuild])) (limit_builds cmds) p w h <>
  limit_call (limit_run (limit_start d) (cmds ++ LBuild :: later)) (limit_builds cmds) p w h.
Proof.
  exists (-1), [], [LOp (LSetDefault 2)], (pth "x"), sample_world, []. vm_compute. discriminate.
Qed.
Print Assumptions C32_refuted.

(** C66: the value computed, for every client, in particular the default is that of the builder at the time of the call. *)
Theorem C66_value_of_a_built_limit : forall w p d cmds later h,
  exists a h', limit_result w p (last_default d (cmds ++ later)) (limit_rules cmds) h a h' /\
    limit_call (limit_run (limit_start d) (cmds ++ LBuild :: later)) (limit_builds cmds) p w h = (a, h').
Proof. exact C66_lemma. Qed.
Print Assumptions C66_value_of_a_built_limit.

Example C66_case :
  let cmds := [LOp (LAddMatcher (pure (fun _ => true)) UNLIMITED); LOp (LAddMatcher (pure (fun _ => false)) 4); LBuild;
               LOp (LAdd (fun _ => ret 0)); LOp (LAdd (fun _ => throw (ExUser 1)))] in
  limit_builds cmds = 1%nat /\ length (limit_rules cmds) = 4%nat /\
  limit_call (limit_run (limit_start 9) (cmds ++ LBuild :: [LOp (LSetDefault 8)])) 1 (pth "x") sample_world [] = (Ok 0, []) /\
  limit_call (limit_run (limit_start 9) (cmds ++ LBuild :: [LOp (LSetDefault 8)])) 0 (pth "x") sample_world [] = (Ok (-1), []).
Proof. split; [|split; [|split]]; vm_compute; reflexivity. Qed.

(** C67: apart from that, a built function does not depend on what is done with its builder afterwards. *)
Theorem C67_built_limit_independent : forall d cmds later,
  (limit_rules cmds <> [] \/ last_default (last_default d cmds) later = last_default d cmds) ->
  forall p w h,
    limit_call (limit_run (limit_start d) (cmds ++ LBuild :: later)) (limit_builds cmds) p w h =
    limit_call (limit_run (limit_start d) (cmds ++ [LBuild])) (limit_builds cmds) p w h.
Proof. exact C67_lemma. Qed.
Print Assumptions C67_built_limit_independent.

Example C67_case : limit_rules [LOp (LAdd (fun _ => ret 4))] <> [] /\
  last_default (last_default 3 [LBuild]) [LOp (LAdd (fun _ => ret 4)); LBuild] = last_default 3 [LBuild].
Proof. split; [discriminate|reflexivity]. Qed.

(** C33. [sort_call … (sort_builds cmds)] is the comparator returned by a [build] call, whatever is done with the builder later. The
    rules may be of any kind: they may access the file system, log or throw. [first_non_zero] is what the rules give for a path: [px]
    for [x], then [py] for [y]. *)
Theorem C33_order : forall cmds later x y w h px h1 py h2,
  first_non_zero w x (sort_ops cmds) h (Ok px) h1 -> first_non_zero w y (sort_ops cmds) h1 (Ok py) h2 ->
  exists z, sort_call (sort_run sort_start (cmds ++ SBuild :: later)) (sort_builds cmds) x y w h = (Ok z, h2) /\
  (px < py -> z < 0) /\ (px > py -> z > 0) /\
  (px = py -> (z < 0 <-> name_lt (last_name x) (last_name y)) /\ (z = 0 <-> last_name x = last_name y)).
Proof. exact C33_order_lemma. Qed.
Print Assumptions C33_order.

(** If a rule throws, so does the comparator: nothing is caught. *)
Theorem C33_throws : forall cmds later x y w h e h',
  (first_non_zero w x (sort_ops cmds) h (Throw e) h' \/
   exists px h1, first_non_zero w x (sort_ops cmds) h (Ok px) h1 /\ first_non_zero w y (sort_ops cmds) h1 (Throw e) h') ->
  sort_call (sort_run sort_start (cmds ++ SBuild :: later)) (sort_builds cmds) x y w h = (Throw e, h').
Proof. exact C33_throws_lemma. Qed.
Print Assumptions C33_throws.

Theorem C33_precedence_exists : forall w p ops h, exists r h', first_non_zero w p ops h r h' /\
  forall r2 h2, first_non_zero w p ops h r2 h2 -> r2 = r /\ h2 = h'.
Proof. exact C33_exists_lemma. Qed.
Print Assumptions C33_precedence_exists.

(** If the precedence of a path does not depend on when it is asked for, the answers of the comparator honour the contract. *)
Theorem C33_contract : forall w cmds later prec, give w (sort_ops cmds) prec ->
  exists g, contract g /\
    forall a, answers w (sort_call (sort_run sort_start (cmds ++ SBuild :: later)) (sort_builds cmds) a) (g a).
Proof. exact C33_contract_lemma. Qed.
Print Assumptions C33_contract.

Theorem C33_add_first : forall m cmds later x y w h h1 h2 py h3,
  says w m x h (Ok true) h1 -> says w m y h1 (Ok false) h2 -> first_non_zero w y (sort_ops cmds) h2 (Ok py) h3 -> -2147483648 < py ->
  exists z, sort_call (sort_run sort_start ((SOp (SAddFirst m) :: cmds) ++ SBuild :: later)) (sort_builds cmds) x y w h = (Ok z, h3) /\ z < 0.
Proof. exact C33_first_lemma. Qed.
Print Assumptions C33_add_first.

Theorem C33_add_last : forall m cmds later x y w h h1 h2 py h3,
  says w m x h (Ok true) h1 -> says w m y h1 (Ok false) h2 -> first_non_zero w y (sort_ops cmds) h2 (Ok py) h3 -> py < 2147483647 ->
  exists z, sort_call (sort_run sort_start ((SOp (SAddLast m) :: cmds) ++ SBuild :: later)) (sort_builds cmds) x y w h = (Ok z, h3) /\ z > 0.
Proof. exact C33_last_lemma. Qed.
Print Assumptions C33_add_last.

(** The extreme precedences do not overflow, and a later rule or [build] does not matter. The last rule puts directories at the end, and throws
    for "Zoo". *)
Definition case_rules : list sort_cmd :=
  [SOp (SAddFirst (pm_name (js "src"))); SOp (SAddLast (pm_name (js "a"))); SOp (SAddMatcher (pm_name (js "src")) 5);
   SOp (SAdd (fun p => if jeqb (last_name p) (js "Zoo") then throw (ExUser 3) else d <- pm_is_directory p; ret (if d then 7 else 0)))].
Example C33_case :
  let at_ n := child (pth "/home/u") (js n) in
  first_non_zero sample_world (at_ "src"%string) (sort_ops case_rules) [] (Ok (-2147483648)) [] /\
  first_non_zero sample_world (at_ "a"%string) (sort_ops case_rules) [] (Ok 2147483647) [] /\
  first_non_zero sample_world (at_ "b.txt"%string) (sort_ops case_rules) [] (Ok 0) [EvLstat (at_ "b.txt"%string) (Some KReg)] /\
  first_non_zero sample_world (at_ "Zoo"%string) (sort_ops case_rules) [] (Throw (ExUser 3)) [] /\
  let c x y := fst (sort_call (sort_run sort_start (case_rules ++ SBuild :: [SOp (SAddFirst (pm_name (js "b.txt"))); SBuild])) (sort_builds case_rules)
                 (at_ x) (at_ y) sample_world []) in
  c "src"%string "a"%string = Ok (-1) /\ c "a"%string "src"%string = Ok 1 /\ c "b.txt"%string "link"%string = Ok (-10) /\
  c "b.txt"%string "src"%string = Ok 1 /\ c "b.txt"%string "Zoo"%string = Throw (ExUser 3) /\ c "src"%string "Zoo"%string = Throw (ExUser 3).
Proof.
  cbv zeta.
  split; [eapply fnz_here; [eapply pv_match; [right; left; auto|vm_compute; reflexivity]|discriminate]|].
  split. { eapply fnz_next; [eapply pv_no_match; [right; left; auto|vm_compute; reflexivity]|].
    eapply fnz_here; [eapply pv_match; [right; right; auto|vm_compute; reflexivity]|discriminate]. }
  split. { eapply fnz_next; [eapply pv_no_match; [right; left; auto|vm_compute; reflexivity]|].
    eapply fnz_next; [eapply pv_no_match; [right; right; auto|vm_compute; reflexivity]|].
    eapply fnz_next; [eapply pv_no_match; [left; reflexivity|vm_compute; reflexivity]|].
    eapply fnz_next; [eapply pv_fun; vm_compute; reflexivity|]. constructor. }
  split. { eapply fnz_next; [eapply pv_no_match; [right; left; auto|vm_compute; reflexivity]|].
    eapply fnz_next; [eapply pv_no_match; [right; right; auto|vm_compute; reflexivity]|].
    eapply fnz_next; [eapply pv_no_match; [left; reflexivity|vm_compute; reflexivity]|].
    eapply fnz_throw. eapply pv_fun. vm_compute. reflexivity. }
  repeat split; vm_compute; reflexivity.
Qed.

(** C34. On a file system that does not change. *)
Theorem C34_contracts : forall w dk c, steady w dk ->
  In c [ALPHABETICAL; DIRECTORY_FIRST; DIRECTORY_LAST; BY_FILE_SIZE; BY_EXTENSION] ->
  exists g, contract g /\ forall a, answers w (c a) (g a).
Proof. exact C34_contracts_lemma. Qed.
Print Assumptions C34_contracts.

Theorem C34_by_extension_order : forall w dk a b h, steady w dk -> is_dirb dk a = false -> is_dirb dk b = false ->
  let fold := jv_fold (w_jvm w) in
  exists z h', BY_EXTENSION a b w h = (Ok z, h') /\
    (forall ea eb, has_parts (last_name a) ea -> has_parts (last_name b) eb ->
       (z < 0 <-> parts_before fold (rev ea) (rev eb)) /\ (z = 0 <-> Forall2 (same_ci fold) (rev ea) (rev eb))) /\
    (forall eb, no_extension (last_name a) -> has_parts (last_name b) eb -> z < 0) /\
    (forall ea, has_parts (last_name a) ea -> no_extension (last_name b) -> z > 0) /\
    (no_extension (last_name a) -> no_extension (last_name b) ->
       (z < 0 <-> before_ci fold (last_name a) (last_name b)) /\ (z = 0 <-> same_ci fold (last_name a) (last_name b))).
Proof. exact C34_extension_lemma. Qed.
Print Assumptions C34_by_extension_order.

Theorem C34_every_name_has_parts_or_no_extension : forall name, no_extension name \/ exists exts, has_parts name exts.
Proof. exact name_classes. Qed.
Print Assumptions C34_every_name_has_parts_or_no_extension.

Theorem C34_directories : forall w dk a b h, steady w dk -> is_dirb dk a = true -> is_dirb dk b = false ->
  (exists z h', BY_EXTENSION a b w h = (Ok z, h') /\ z < 0) /\
  (exists z h', DIRECTORY_FIRST a b w h = (Ok z, h') /\ z < 0) /\
  (exists z h', DIRECTORY_LAST a b w h = (Ok z, h') /\ z > 0) /\
  (exists z h', BY_FILE_SIZE a b w h = (Ok z, h') /\ (0 < d_length dk b -> z < 0)).
Proof. exact C34_directories_lemma. Qed.
Print Assumptions C34_directories.

Example C34_case :
  has_parts (js "a.tar.gz") [js "tar"; js "gz"] /\ has_parts (js ".x..") [js "x"] /\ has_parts (js "...") [] /\
  no_extension (js "Makefile") /\ no_extension (js "x.") /\
  steady sample_world sample_disk /\ is_dirb sample_disk (pth "z.GZ") = false /\ is_dirb sample_disk (pth "a.tar.gz") = false /\
  is_dirb sample_disk (pth "src") = true /\
  result (BY_EXTENSION (pth "z.GZ") (pth "a.tar.gz") sample_world []) = Some (-1) /\
  parts_before ascii_lower (rev [js "GZ"]) (rev [js "tar"; js "gz"]) /\
  (* U+10400 and U+10428, a capital letter and its small letter *)
  let fold c := (if c =? 66560 then 66600 else c)%N in
  same_ci fold [55297; 56320]%N [55297; 56360]%N /\ before_ci fold [65535%N] [55297; 56320]%N /\ ~ before_ci fold [55297; 56320]%N [65535%N] /\
  result (BY_EXTENSION (mkPath false [js "a." ++ [55297; 56320]%N]) (mkPath false [js "b." ++ [55297; 56360]%N])
            (static_world sample_fs (mkJvm [] (fun s => s) fold (fun _ => None))) []) = Some 0.
Proof.
  assert (P : forall l, forallb (fun x => negb (existsb (N.eqb c_dot) x)) l = true -> Forall (fun x => ~ In c_dot x) l).
  { intros l H. rewrite forallb_forall in H. apply Forall_forall. intros x Hx Hin. specialize (H x Hx).
    apply negb_true_iff in H. rewrite <- not_true_iff_false in H. apply H. apply existsb_exists. exists c_dot. auto. }
  split.
  { exists (js "a.tar.gz"), 0%nat. split; [reflexivity|left]. split; [discriminate|]. split; [discriminate|]. exists (js "a").
    split; [discriminate|]. split; [reflexivity|apply P; reflexivity]. }
  split.
  { exists (js ".x"), 2%nat. split; [reflexivity|left]. split; [discriminate|]. split; [discriminate|]. exists [].
    split; [discriminate|]. split; [reflexivity|apply P; reflexivity]. }
  split; [exists [], 3%nat; split; [reflexivity|right]; auto|].
  split; [exists (js "Makefile"), 0%nat; split; [reflexivity|]; split; [apply (Forall_inv (P [js "Makefile"] eq_refl))|auto]|].
  split; [exists (js "x"), 1%nat; split; [reflexivity|]; split; [apply (Forall_inv (P [js "x"] eq_refl))|left; discriminate]|].
  split; [exact sample_steady|]. do 4 (split; [vm_compute; reflexivity|]). split; [apply pb_same; [apply same_points; vm_compute; reflexivity|constructor]|]. cbv zeta.
  split; [apply same_points; reflexivity|]. split; [apply jcompare_ci_neg; reflexivity|]. split; [rewrite <- jcompare_ci_neg; discriminate|].
  vm_compute. reflexivity.
Qed.

(** C35 does not hold: the empty regular file "Zoo" is printed before the directories "a" and "src". *)
Theorem C35_refuted : exists fs j o p,
  sorts_by BY_FILE_SIZE o /\
  fs (names_of "home/u/Zoo") = Some (IReg 0) /\ fs (names_of "home/u/a") = Some (IDir []) /\
  exists below, result (pretty_print o p (static_world fs j) []) =
    Some (js "u/" ++ [c_nl] ++ [9500; 9472]%N ++ js " Zoo" ++ [c_nl] ++ [9500; 9472]%N ++ js " a/" ++ [c_nl] ++ below).
Proof.
  exists sample_fs, sample_jvm, (with_sort BY_FILE_SIZE (with_max_depth 1 default_options)), (pth "/home/u").
  split; [reflexivity|]. split; [vm_compute; reflexivity|]. split; [vm_compute; reflexivity|].
  eexists. vm_compute. reflexivity.
Qed.
Print Assumptions C35_refuted.

(** C68: the order is by size, directories counting as 0, and then by name; so directories do precede the files that
    are not empty. *)
Theorem C68_size_then_name : forall o p w h out h' v dk st,
  steady w dk -> distinct_names dk -> uses w o st -> sees w o v -> sorts_by BY_FILE_SIZE o ->
  pretty_print o p w h = (Ok out, h') ->
  let size q := if is_dirb dk q then 0 else d_length dk q in
  exists e s, tree_at st dk 0 (location w p) e /\ shows v true e s /\ out = text (o_tree_format o) (labelled v s) /\
    forall k q es, at_depth k e (EDir q es) ->
      StronglySorted (fun a b => size a < size b \/ (size a = size b /\ name_lt (last_name a) (last_name b))) (child_paths es).
Proof. exact C68_lemma. Qed.
Print Assumptions C68_size_then_name.

Example C68_case :
  let o := with_sort BY_FILE_SIZE default_options in
  sorts_by BY_FILE_SIZE o /\
  uses sample_world o (mkSettings (fun _ => true) (fun _ => true) (fun _ => -1) (then_by (by_size (is_dirb sample_disk) (d_length sample_disk)) alphabetical) 20) /\
  sees sample_world o plain_view /\
  is_some (result (pretty_print o (pth "/home/u") sample_world [])) = true.
Proof.
  split; [reflexivity|]. split; [exact (sort_uses _ _ _ (by_file_size_answers _ _ sample_steady))|].
  split; [split; [|split]; [intro p; reflexivity|intros a h; exists h; reflexivity|reflexivity]|]. vm_compute. reflexivity.
Qed.

(** C92. What is displayed with the other built-in orders. *)
Theorem C92_directory_first : forall o p w h out h' v dk st,
  steady w dk -> distinct_names dk -> uses w o st -> sees w o v -> pretty_print o p w h = (Ok out, h') ->
  sorts_by DIRECTORY_FIRST o ->
  prints_with (in_groups [(is_dir_entry, by_name); (is_file_entry, by_name)]) o p w out v dk st.
Proof. exact C92_first. Qed.
Print Assumptions C92_directory_first.

Theorem C92_directory_last : forall o p w h out h' v dk st,
  steady w dk -> distinct_names dk -> uses w o st -> sees w o v -> pretty_print o p w h = (Ok out, h') ->
  sorts_by DIRECTORY_LAST o ->
  prints_with (in_groups [(is_file_entry, by_name); (is_dir_entry, by_name)]) o p w out v dk st.
Proof. exact C92_last. Qed.
Print Assumptions C92_directory_last.

Theorem C92_by_extension : forall o p w h out h' v dk st,
  steady w dk -> distinct_names dk -> uses w o st -> sees w o v -> pretty_print o p w h = (Ok out, h') ->
  let fold := jv_fold (w_jvm w) in sorts_by BY_EXTENSION o ->
  prints_with (in_groups [(is_dir_entry, by_name); (file_named no_extension, by_name_ci fold);
                          (file_named (fun n => exists exts, has_parts n exts), by_parts fold)]) o p w out v dk st.
Proof. exact C92_extension. Qed.
Print Assumptions C92_by_extension.

(** Without emojis; "link" is a symbolic link to a directory, which counts as a file. *)
Example C92_case :
  let st g := mkSettings (fun _ => true) (fun _ => true) (fun _ => -1) (then_by g alphabetical) 20 in
  let run c := let o := with_max_depth 1 (with_sort c default_options) in
    names_after (result (pretty_print o (pth "/home/u") sample_world [])) in
  steady sample_world sample_disk /\ distinct_names sample_disk /\
  (forall c, In c [DIRECTORY_FIRST; DIRECTORY_LAST; BY_EXTENSION] -> exists g,
     uses sample_world (with_sort c default_options) (st g) /\ sees sample_world (with_sort c default_options) plain_view /\
     sorts_by c (with_sort c default_options)) /\
  run DIRECTORY_FIRST = map js ["a/"; "src/"; "Zoo"; "b.txt"; "link"]%string /\
  run DIRECTORY_LAST = map js ["Zoo"; "b.txt"; "link"; "a/"; "src/"]%string /\
  run BY_EXTENSION = map js ["a/"; "src/"; "link"; "Zoo"; "b.txt"]%string.
Proof.
  split; [exact sample_steady|]. split; [exact sample_distinct|].
  split. { intros c Hc. destruct (C34_contracts_lemma sample_world sample_disk c sample_steady) as (g & _ & Hg); [cbn in *; tauto|].
    exists g. split; [exact (sort_uses _ _ _ Hg)|].
    split; [|reflexivity]. split; [|split]; [intro q; reflexivity|intros a h; exists h; reflexivity|reflexivity]. }
  vm_compute. repeat split.
Qed.

(** C93. What is displayed with a comparator of the sort builder, if its rules always give a path the same precedence [prec]. *)
Theorem C93_built_order : forall o p w h out h' v dk st,
  steady w dk -> distinct_names dk -> uses w o st -> sees w o v -> pretty_print o p w h = (Ok out, h') ->
  forall cmds later prec, give w (sort_ops cmds) prec ->
  sorts_by (sort_call (sort_run sort_start (cmds ++ SBuild :: later)) (sort_builds cmds)) o ->
  prints_with (fun es => StronglySorted (by_precedence prec) (child_paths es)) o p w out v dk st.
Proof. exact C93_lemma. Qed.
Print Assumptions C93_built_order.

Theorem C93_add_first_shows_first : forall o p w h out h' v dk st,
  steady w dk -> distinct_names dk -> uses w o st -> sees w o v -> pretty_print o p w h = (Ok out, h') ->
  forall m mp cmds later prec, answers w m mp -> give w (sort_ops cmds) prec ->
  sorts_by (sort_call (sort_run sort_start ((SOp (SAddFirst m) :: cmds) ++ SBuild :: later)) (sort_builds cmds)) o ->
  (forall q, mp q = false -> -2147483648 < prec q) ->
  prints_with (in_groups [(of_path (fun q => mp q = true), by_name); (of_path (fun q => mp q = false), by_precedence prec)])
    o p w out v dk st.
Proof. exact C93_first. Qed.
Print Assumptions C93_add_first_shows_first.

Theorem C93_add_last_shows_last : forall o p w h out h' v dk st,
  steady w dk -> distinct_names dk -> uses w o st -> sees w o v -> pretty_print o p w h = (Ok out, h') ->
  forall m mp cmds later prec, answers w m mp -> give w (sort_ops cmds) prec ->
  sorts_by (sort_call (sort_run sort_start ((SOp (SAddLast m) :: cmds) ++ SBuild :: later)) (sort_builds cmds)) o ->
  (forall q, mp q = false -> prec q < 2147483647) ->
  prints_with (in_groups [(of_path (fun q => mp q = false), by_precedence prec); (of_path (fun q => mp q = true), by_name)])
    o p w out v dk st.
Proof. exact C93_last. Qed.
Print Assumptions C93_add_last_shows_last.

(** Directories get the precedence -3. *)
Example C93_case :
  let rules := [SOp (SAddMatcher pm_is_directory (-3))] in
  let prec q := if is_dirb sample_disk q then -3 else 0 in
  let mp q := jeqb (last_name q) (js "b.txt") in
  let c f := sort_call (sort_run sort_start ((SOp (f (pm_name (js "b.txt"))) :: rules) ++ SBuild :: [])) 0 in
  let run f := names_after (result (pretty_print (with_max_depth 1 (with_sort (c f) default_options)) (pth "/home/u") sample_world [])) in
  answers sample_world (pm_name (js "b.txt")) mp /\ give sample_world (sort_ops rules) prec /\
  (forall q, -2147483648 < prec q < 2147483647) /\
  run SAddFirst = map js ["b.txt"; "a/"; "src/"; "Zoo"; "link"]%string /\
  run SAddLast = map js ["a/"; "src/"; "Zoo"; "link"; "b.txt"]%string.
Proof.
  cbv zeta. split; [|split; [|split; [|vm_compute; repeat split]]].
  - intros q h. exists h. unfold last_name, pm_name, pm_name_test, get_file_name, path_str.
    destruct (p_names q) as [|n l] eqn:E using rev_ind; [destruct (p_abs q); reflexivity|].
    rewrite rev_app_distr, last_last. reflexivity.
  - intros q h. destruct (is_directory_answers _ _ sample_steady q h) as [h' E]. destruct (is_dirb sample_disk q) eqn:D; exists h'.
    + eapply fnz_here; [eapply pv_match; [now left|exact E]|discriminate].
    + eapply fnz_next; [eapply pv_no_match; [now left|exact E]|constructor].
  - intro q. destruct (is_dirb sample_disk q); lia.
Qed.
