(** * What is displayed: C05-C11, C17, C18, C21-C24 *)

From Verif Require Import SpecScan SpecPath Cases SortFacts BuilderFacts TreeFacts ScanPrintFacts.
Open Scope Z_scope.

(** C05. [reach] is the inductive definition of "the root, and what is listed by a reached directory above the maximal
    depth and accepted by the filter". *)
Theorem C05_exactly_accepted_paths : forall o p w h out h' v dk st,
  steady w dk -> distinct_names dk -> uses w o st -> sees w o v -> (forall q, s_limit st q < 0) ->
  pretty_print o p w h = (Ok out, h') ->
  exists e s, tree_at st dk 0 (location w p) e /\ shows v true e s /\ out = text (o_tree_format o) (labelled v s) /\
    NoDup (shown_paths s) /\
    forall q, In q (shown_paths s) <-> exists d, reach st dk 0 (location w p) d q.
Proof. exact C05_lemma. Qed.
Print Assumptions C05_exactly_accepted_paths.

(** The run does return when what is reached can be read (whatever the rest of the disk is like). *)
Theorem C05_returns : forall o p w dk st v,
  steady w dk -> uses w o st -> sees w o v -> readable st dk (location w p) -> p_names (location w p) <> [] ->
  exists out, forall h, exists h', pretty_print o p w h = (Ok out, h').
Proof. exact pretty_print_returns. Qed.
Print Assumptions C05_returns.

Example C05_case :
  steady sample_world sample_disk /\ distinct_names sample_disk /\ uses sample_world default_options default_settings /\
  sees sample_world default_options plain_view /\ (forall q, s_limit default_settings q < 0) /\
  readable default_settings sample_disk (location sample_world (pth ".")) /\ p_names (location sample_world (pth ".")) <> [] /\
  is_some (result (pretty_print default_options (pth ".") sample_world [])) = true.
Proof.
  split; [exact sample_steady|]. split; [exact sample_distinct|]. split; [apply default_uses|]. split; [apply default_sees|].
  split; [reflexivity|]. split; [exact (sample_readable _)|]. split; [discriminate|vm_compute; reflexivity].
Qed.

(** C06. [g] is what the comparator [c] answers (it may log, or access the file system). *)
Theorem C06_sorted_by_configured_order : forall o p w h out h' v dk st c g,
  steady w dk -> distinct_names dk -> uses w o st -> sees w o v -> sorts_by c o -> (forall a, answers w (c a) (g a)) -> contract g ->
  pretty_print o p w h = (Ok out, h') ->
  exists e s, tree_at st dk 0 (location w p) e /\ shows v true e s /\ out = text (o_tree_format o) (labelled v s) /\
    forall k q es, at_depth k e (EDir q es) -> StronglySorted (refined g) (child_paths es).
Proof. exact C06_sort_lemma. Qed.
Print Assumptions C06_sorted_by_configured_order.

Theorem C06_sorted_by_name_by_default : forall o p w h out h' v dk st,
  steady w dk -> distinct_names dk -> uses w o st -> sees w o v -> sorts_by_default o ->
  pretty_print o p w h = (Ok out, h') ->
  exists e s, tree_at st dk 0 (location w p) e /\ shows v true e s /\ out = text (o_tree_format o) (labelled v s) /\
    forall k q es, at_depth k e (EDir q es) ->
      StronglySorted (fun a b => name_lt (last_name a) (last_name b)) (child_paths es).
Proof. exact C06_default_lemma. Qed.
Print Assumptions C06_sorted_by_name_by_default.

Example C06_case :
  uses sample_world case_scan_options case_settings /\ sorts_by DIRECTORY_FIRST case_scan_options /\
  (forall a, answers sample_world (DIRECTORY_FIRST a) (dirs_first (is_dirb sample_disk) a)) /\ contract (dirs_first (is_dirb sample_disk)) /\
  sorts_by_default default_options /\
  is_some (result (pretty_print case_scan_options (pth ".") sample_world [])) = true.
Proof.
  split; [apply case_uses|]. split; [reflexivity|]. split; [exact (directory_first_answers _ _ sample_steady)|].
  split; [apply contract_dirs_first|]. split; [reflexivity|vm_compute; reflexivity].
Qed.

(** 60 files by their size: runs are merged, galloping. *)
Example C06_case_many :
  fst (scan (with_sort BY_FILE_SIZE default_options) (pth "/d") (flat_world many_files) []) =
  Ok (EDir (pth "/d") (map (fun i => EFile (mkPath true [js "d"; [48 + i / 10; 48 + i mod 10]%N]) KReg)
    [0; 1; 58; 23; 2; 17; 13; 7; 57; 51; 30; 24; 3; 46; 35; 49; 32; 16; 53; 28; 4; 56; 25; 10; 41; 40; 47; 34; 42; 39; 15; 12; 8; 5; 43; 38; 55; 26; 50; 31; 52; 29; 44; 37; 14; 20; 48; 33; 21; 6; 19; 59; 22; 11; 54; 45; 36; 27; 18; 9]%N)).
Proof. vm_compute. reflexivity. Qed.

(** C07. The outcomes are equal also when they are exceptions. *)
Theorem C07_listing_order_irrelevant : forall w1 w2 dk1 dk2 o st v p,
  steady w1 dk1 -> steady w2 dk2 -> w_jvm w1 = w_jvm w2 -> same_but_order dk1 dk2 -> distinct_names dk1 ->
  uses w1 o st -> uses w2 o st -> sees w1 o v -> sees w2 o v ->
  sorts_by_default o \/ (exists c g, contract g /\ (forall a, answers w1 (c a) (g a)) /\ sorts_by c o) ->
  forall h1 h2, fst (pretty_print o p w1 h1) = fst (pretty_print o p w2 h2).
Proof. exact C07_sort_lemma. Qed.
Print Assumptions C07_listing_order_irrelevant.

Example C07_case :
  steady sample_world sample_disk /\ steady reversed_world reversed_disk /\ same_but_order sample_disk reversed_disk /\
  d_list sample_disk (pth "/home/u") <> d_list reversed_disk (pth "/home/u") /\
  is_some (result (pretty_print default_options (pth "/home/u") sample_world [])) = true.
Proof.
  split; [exact sample_steady|]. split; [exact reversed_steady|]. split; [exact reversed_same|].
  split; [vm_compute; discriminate|vm_compute; reflexivity].
Qed.

(** C08. *)
Theorem C08_child_limit_exact : forall o p w h out h' v dk st,
  steady w dk -> uses w o st -> sees w o v ->
  pretty_print o p w h = (Ok out, h') ->
  exists e s, tree_at st dk 0 (location w p) e /\ shows v true e s /\ out = text (o_tree_format o) (labelled v s) /\
    forall k q es, at_depth k e (EDir q es) -> Z.of_nat k < s_depth st ->
    exists names order, d_list dk q = Some names /\
      Permutation (filter (accepts st dk) (map (child q) names)) order /\
      (contract (s_cmp st) -> StronglySorted (fun a b => s_cmp st a b <= 0) order) /\
      child_paths es = if s_limit st q <? 0 then order else firstn (Z.to_nat (s_limit st q)) order.
Proof. exact C08_lemma. Qed.
Print Assumptions C08_child_limit_exact.

(** C09. *)
Theorem C09_skip_marker_exact : forall o p w h out h' v dk st,
  steady w dk -> uses w o st -> sees w o v ->
  pretty_print o p w h = (Ok out, h') ->
  exists e s, tree_at st dk 0 (location w p) e /\ shows v true e s /\ out = text (o_tree_format o) (labelled v s) /\
    forall k q es, at_depth k e (EDir q es) -> Z.of_nat k < s_depth st ->
    exists names cs mk, d_list dk q = Some names /\
      es = cs ++ mk /\ Forall (fun x => entry_path x <> None) cs /\ (mk = [] \/ mk = [ESkipped q]) /\
      (mk = [ESkipped q] <->
       0 <= s_limit st q < Z.of_nat (length (filter (accepts st dk) (map (child q) names)))).
Proof. exact C09_lemma. Qed.
Print Assumptions C09_skip_marker_exact.

(** One child at most in "java" (which has two), "a" and "Zoo" filtered out: one "..." line. *)
Example C08_C09_case :
  uses sample_world case_scan_options case_settings /\ sees sample_world case_scan_options plain_view /\
  result (pretty_print case_scan_options (pth "/home/u") sample_world []) = Some (join [c_nl] [
    js "u/"; [9500; 9472]%N ++ js " src/"; [9474]%N ++ js "  " ++ [9492; 9472]%N ++ js " main/";
    [9474]%N ++ js "     " ++ [9492; 9472]%N ++ js " java/";
    [9474]%N ++ js "        " ++ [9500; 9472]%N ++ js " A.java";
    [9474]%N ++ js "        " ++ [9492; 9472]%N ++ js " ...";
    [9500; 9472]%N ++ js " b.txt"; [9492; 9472]%N ++ js " link"]).
Proof. split; [apply case_uses|]. split; [apply case_scan_sees|vm_compute; reflexivity]. Qed.

(** C10, in any world. *)
Theorem C10_max_depth_exact : forall o p w h out h' v m,
  o_max_depth o = Z.of_nat m -> sees w o v -> pretty_print o p w h = (Ok out, h') ->
  exists e h1 s, scan o (location w p) w h = (Ok e, h1) /\ shows v true e s /\ out = text (o_tree_format o) (labelled v s) /\
    (forall k x, at_depth k e x -> entry_path x <> None -> (k <= m)%nat) /\
    (forall q es, at_depth m e (EDir q es) -> exists n, es = [EMaxDepth n]) /\
    (forall k q es n, at_depth k e (EDir q es) -> (k < m)%nat -> ~ In (EMaxDepth n) es).
Proof. exact C10_lemma. Qed.
Print Assumptions C10_max_depth_exact.

Example C10_case :
  o_max_depth (with_max_depth 2 default_options) = Z.of_nat 2 /\
  result (pretty_print (with_max_depth 2 default_options) (pth "/home/u/src") sample_world []) = Some (join [c_nl] [
    js "src/"; [9492; 9472]%N ++ js " main/"; js "   " ++ [9492; 9472]%N ++ js " java/";
    js "      " ++ [9492; 9472]%N ++ js " ..."]).
Proof. split; [reflexivity|vm_compute; reflexivity]. Qed.

(** C11 does not hold: a negative depth cuts at the root. *)
Theorem C11_refuted : exists w o p out,
  o_max_depth o < 0 /\ w_open w [] (location w p) = Some (mkDirlist [js "main"] false) /\
  result (pretty_print o p w []) = Some out /\ out = join [c_nl] [js "src/"; [9492; 9472]%N ++ js " ..."].
Proof.
  exists sample_world, (with_max_depth (-1) default_options), (pth "/home/u/src"). eexists.
  split; [reflexivity|]. split; [vm_compute; reflexivity|]. split; vm_compute; reflexivity.
Qed.
Print Assumptions C11_refuted.

(** C59: what happens for every non-positive depth, every directory and every world. *)
Theorem C59_nonpositive_depth_cuts_at_root : forall o p w h v,
  o_max_depth o <= 0 -> sees w o v -> w_lstat w h (location w p) = Some KDir -> p_names (location w p) <> [] ->
  exists h', pretty_print o p w h =
    (Ok (text (o_tree_format o) (labelled v (SDir [location w p] [SDots]))), h').
Proof. exact C11_lemma. Qed.
Print Assumptions C59_nonpositive_depth_cuts_at_root.

Example C59_case : w_lstat sample_world [] (location sample_world (pth "/home/u/src")) = Some KDir /\
  sees sample_world (with_max_depth (-1) default_options) plain_view.
Proof. split; [vm_compute; reflexivity|]. split; [|split]; [|intros a h; exists h; reflexivity|reflexivity]. intro p. reflexivity. Qed.

(** C17 does not hold: "/home/u/link" is a link and is printed without a mark. *)
Theorem C17_refuted : exists fs j o p,
  fs (names_of "home/u/link") = Some (ILink (Some TDir)) /\ location (static_world fs j) p = pth "/home/u/link" /\
  result (pretty_print o p (static_world fs j) []) = Some (js "link").
Proof. exists sample_fs, sample_jvm, default_options, (pth "link"). split; [|split]; vm_compute; reflexivity. Qed.
Print Assumptions C17_refuted.

(** C60: on every static file system a displayed file carries the mark of what the path resolves to, links followed;
    the kind "link" (mark '*') never occurs. *)
Theorem C60_mark_is_that_of_the_target : forall fs j o p h out h' v st,
  uses (static_world fs j) o st -> sees (static_world fs j) o v ->
  pretty_print o p (static_world fs j) h = (Ok out, h') ->
  exists e s, tree_at st (static_disk fs j) 0 (location (static_world fs j) p) e /\ shows v true e s /\
    out = text (o_tree_format o) (labelled v s) /\
    forall k q kd, at_depth k e (EFile q kd) -> d_attr (static_disk fs j) q = Some kd /\ kd <> KLink.
Proof. exact C17_lemma. Qed.
Print Assumptions C60_mark_is_that_of_the_target.

Example C60_case : uses sample_world default_options default_settings /\ sees sample_world default_options plain_view /\
  is_some (result (pretty_print default_options (pth "/home/u") sample_world [])) = true.
Proof. split; [apply default_uses|]. split; [apply default_sees|vm_compute; reflexivity]. Qed.

(** C18 does not hold. *)
Theorem C18_refuted : exists fs j o p q,
  fs (p_names q) = Some (ILink None) /\ fs (p_names (location (static_world fs j) p)) = Some (IDir [js "x"]) /\
  q = child (location (static_world fs j) p) (js "x") /\
  fst (pretty_print o p (static_world fs j) []) = Throw (ExUncheckedIO ReadAttributes q).
Proof.
  exists sample_fs, sample_jvm, default_options, (pth "/r"), (pth "/r/x"). repeat split; vm_compute; reflexivity.
Qed.
Print Assumptions C18_refuted.

(** C61: whenever a dangling link is reached (no child limit), the run does not return. *)
Theorem C61_dangling_link_prevents_printing : forall o p w v dk st d q,
  steady w dk -> uses w o st -> sees w o v -> (forall q, s_limit st q < 0) ->
  reach st dk 0 (location w p) d q -> d_kind dk q = Some KLink -> d_attr dk q = None ->
  forall h out h', pretty_print o p w h <> (Ok out, h').
Proof. exact C18_lemma. Qed.
Print Assumptions C61_dangling_link_prevents_printing.

Example C61_case :
  reach default_settings sample_disk 0 (pth "/r") 1 (pth "/r/x") /\ d_kind sample_disk (pth "/r/x") = Some KLink /\
  d_attr sample_disk (pth "/r/x") = None.
Proof.
  split; [|split; vm_compute; reflexivity].
  change (pth "/r/x") with (child (pth "/r") (js "x")). change 1 with (0 + 1).
  apply reach_child with (names := [js "x"]); [constructor|vm_compute; reflexivity|reflexivity|vm_compute; reflexivity|now left|vm_compute; reflexivity].
Qed.

(** C21 does not hold: whatever the root directory contains, printing it never succeeds. *)
Theorem C21_refuted : forall o p w h out h',
  location w p = mkPath true [] -> pretty_print o p w h <> (Ok out, h').
Proof. exact C21_never. Qed.
Print Assumptions C21_refuted.

Example C21_case : location sample_world (pth "/home/..") = mkPath true [] /\
  fst (pretty_print (with_max_depth 1 default_options) (pth "/home/..") sample_world []) = Throw ExNullPointer.
Proof. split; vm_compute; reflexivity. Qed.

(** C80. A "..." line means that something was left out, and shows why. False on both counts: an empty directory at the maximal depth gets one,
    although there is no limit and no filter; and a directory cut by its limit looks like a directory cut by the maximal depth. C09 and C10 say
    exactly where the lines are. *)
Theorem C80_refuted :
  (exists o w p out h', (forall q h, o_child_limit o q w h = (Ok (-1), h)) /\ (forall q h, o_dir_matcher o q w h = (Ok true, h)) /\
    (forall q h, o_file_matcher o q w h = (Ok true, h)) /\ (forall h, w_open w h p = Some (mkDirlist [] false)) /\
    pretty_print o p w [] = (Ok out, h') /\ out = js "a/" ++ [c_nl; 9492; 9472; c_space]%N ++ js "...") /\
  (exists o1 o2 w p out h1 h2, o_max_depth o1 = 0 /\ (forall q h, o_child_limit o1 q w h = (Ok (-1), h)) /\
    o_max_depth o2 = 20 /\ (forall q h, o_child_limit o2 q w h = (Ok 0, h)) /\
    pretty_print o1 p w [] = (Ok out, h1) /\ pretty_print o2 p w [] = (Ok out, h2)).
Proof.
  split.
  - exists (with_max_depth 0 default_options), sample_world, (pth "/home/u/a"). do 2 eexists.
    split; [reflexivity|]. split; [reflexivity|]. split; [reflexivity|]. split; [intro; vm_compute; reflexivity|].
    split; vm_compute; reflexivity.
  - exists (with_max_depth 0 default_options), (with_child_limit_fn (fun _ => ret 0) default_options), sample_world, (pth "/r").
    do 3 eexists. split; [reflexivity|]. split; [reflexivity|]. split; [reflexivity|]. split; [reflexivity|].
    split; vm_compute; reflexivity.
Qed.
Print Assumptions C80_refuted.

(** C62. *)
Theorem C62_root_is_a_null_pointer : forall o p w dk st v,
  steady w dk -> uses w o st -> sees w o v -> location w p = mkPath true [] ->
  is_dir dk (mkPath true []) -> readable st dk (mkPath true []) ->
  forall h, exists h', pretty_print o p w h = (Throw ExNullPointer, h').
Proof. exact C21_lemma. Qed.
Print Assumptions C62_root_is_a_null_pointer.

Example C62_case : location sample_world (pth "/home/..") = mkPath true [] /\ is_dir sample_disk (mkPath true []) /\
  readable (mkSettings (fun _ => true) (fun _ => true) (fun _ => -1) alphabetical 1) sample_disk (mkPath true []).
Proof.
  split; [vm_compute; reflexivity|]. split; [vm_compute; reflexivity|].
  intros d q Hr. assert (Hq : (d = 0 /\ q = mkPath true []) \/ (d = 1 /\ In q [pth "/home"; pth "/r"])).
  { induction Hr as [|d q names n Hr IH Hd Hlt Hl Hin Ha]; [now left|right]. cbn in Hlt. destruct IH as [[-> ->]|[-> _]]; [|lia].
    split; [lia|]. vm_compute in Hl. injection Hl as <-. destruct Hin as [<-|[<-|[]]]; [left|right; left]; vm_compute; reflexivity. }
  destruct Hq as [[-> ->]|[-> Hq]]; [split; [intros _ _|intro H; now destruct H]|].
  { eexists. split; [vm_compute; reflexivity|left; apply contract_alphabetical]. }
  split; [intros _ H; cbn in H; lia|]. intro H. destruct Hq as [<-|[<-|[]]]; now destruct H.
Qed.

(** C22: same outcome and same file-system accesses. *)
Theorem C22_spelling_does_not_matter : forall o p q w h,
  same_location (jv_cwd (w_jvm w)) p q -> pretty_print o p w h = pretty_print o q w h.
Proof. exact C22_spelling. Qed.
Print Assumptions C22_spelling_does_not_matter.

Theorem C22_string_is_path : forall o s w h, ~ In 0%N s -> pretty_print_string o s w h = pretty_print o (path_of s) w h.
Proof. exact C22_string. Qed.
Print Assumptions C22_string_is_path.
(** A text with a NUL character is not a path: it is refused before anything is accessed. *)
Theorem C22_no_path : forall o s w h, In 0%N s -> pretty_print_string o s w h = (Throw ExIllegalArgument, h).
Proof. exact C22_string_nul. Qed.
Print Assumptions C22_no_path.

Theorem C22_root_line_shows_real_name : forall o p w h out h' v,
  sees w o v -> pretty_print o p w h = (Ok out, h') ->
  exists e h1 s label rest,
    scan o (location w p) w h = (Ok e, h1) /\ shows v true e s /\ out = text (o_tree_format o) (labelled v s) /\
    (exists kids, s = SDir [location w p] kids \/ exists k, s = SFile (location w p) k) /\
    rows (labelled v s) = ([], label) :: rest /\
    (exists mark, label = emoji_str v (location w p) ++ last_name (location w p) ++ mark) /\
    last_name (location w p) <> n_dot /\ last_name (location w p) <> n_dotdot /\
    In (last_name (location w p)) (p_names (location w p)).
Proof. exact C22_root. Qed.
Print Assumptions C22_root_line_shows_real_name.

Example C22_case : same_location (jv_cwd sample_jvm) (pth "../u/./src") (pth "/home/u/src") /\
  is_some (result (pretty_print default_options (pth "../u/./src") sample_world [])) = true.
Proof.
  split; [|vm_compute; reflexivity].
  eapply same_trans; [apply (same_dot _ false [n_dotdot; js "u"] [js "src"])|].
  eapply same_trans; [apply same_cwd|].
  apply (same_up _ true [js "home"] (js "u") [js "u"; js "src"]); intro E; discriminate E.
Qed.

(** C23. *)
Theorem C23_missing_path_reported : forall o p w h,
  w_lstat w h (location w p) = None ->
  w_stat w (EvLstat (location w p) None :: h) (location w p) = None ->
  exists h', pretty_print o p w h = (Throw (ExUncheckedIO ReadAttributes (location w p)), h').
Proof. exact C23_lemma. Qed.
Print Assumptions C23_missing_path_reported.

Example C23_case : w_lstat sample_world [] (location sample_world (pth "nowhere")) = None /\
  w_stat sample_world [EvLstat (location sample_world (pth "nowhere")) None] (location sample_world (pth "nowhere")) = None.
Proof. split; vm_compute; reflexivity. Qed.

(** C24. *)
Theorem C24_file_prints_one_line : forall o p w h v k,
  sees w o v -> p_names (location w p) <> [] ->
  w_lstat w h (location w p) <> Some KDir ->
  w_stat w (EvLstat (location w p) (w_lstat w h (location w p)) :: h) (location w p) = Some k ->
  exists h', pretty_print o p w h =
    (Ok (emoji_str v (location w p) ++ last_name (location w p) ++ kind_mark k ++ opt_str (v_ext v (location w p))), h').
Proof. exact C24_lemma. Qed.
Print Assumptions C24_file_prints_one_line.

Example C24_case : sees sample_world case_options case_view /\ w_lstat sample_world [] (location sample_world (pth "b.txt")) = Some KReg /\
  result (pretty_print case_options (pth "b.txt") sample_world []) = Some ([9989%N] ++ js " b.txt").
Proof. split; [apply case_sees|]. split; vm_compute; reflexivity. Qed.
