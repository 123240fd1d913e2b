(** * How two runs compare: C86-C91, C131, C137 *)

From Verif Require Import SortFacts ScanFacts ScanPrintFacts SpecMeta SpecHidden Cases MetaFacts MetaCases HiddenFacts HiddenCases.
Open Scope Z_scope.

(** C86: a run returns exactly when there is a tree to show, that is when what it displays can be read, and prints that tree. *)
Theorem C86_returns_exactly_the_tree : forall o p w dk st v,
  steady w dk -> distinct_names dk -> uses w o st -> sees w o v -> configured_order (s_cmp st) -> p_names (location w p) <> [] ->
  forall h out, (exists h', pretty_print o p w h = (Ok out, h')) <->
    exists e s, tree_at st dk 0 (location w p) e /\ shows v true e s /\ out = text (o_tree_format o) (labelled v s).
Proof. exact C86_lemma. Qed.
Print Assumptions C86_returns_exactly_the_tree.

(** What lies beyond a child limit need not be readable: "/" has the entries "home" and "r"; the link "/r/x" is dangling. *)
Example C86_case :
  steady sample_world sample_disk /\ distinct_names sample_disk /\
  uses sample_world (with_child_limit_fn (fun _ => ret 0) default_options) (set_limit (fun _ => 0) default_settings) /\
  sees sample_world (with_child_limit_fn (fun _ => ret 0) default_options) plain_view /\ configured_order alphabetical /\
  fst (pretty_print (with_child_limit_fn (fun _ => ret 0) default_options) (pth "/r") sample_world []) =
    Ok (js "r/" ++ [c_nl] ++ [9492; 9472]%N ++ js " ...") /\
  fst (pretty_print default_options (pth "/r") sample_world []) = Throw (ExUncheckedIO ReadAttributes (pth "/r/x")).
Proof.
  split; [exact sample_steady|]. split; [exact sample_distinct|].
  split; [apply uses_limit; [apply default_uses|intros a h; exists h; reflexivity]|]. split; [apply limited_sees|].
  split; [exact (configured_of _ _ _ (default_uses sample_world) (or_introl eq_refl))|]. split; vm_compute; reflexivity.
Qed.

(** C87: with a smaller maximal depth the same tree is shown, cut at that depth; and printing it cannot fail if the deeper tree was printed. *)
Theorem C87_smaller_depth_cuts : forall o p w h out h' v dk st m,
  steady w dk -> distinct_names dk -> uses w o st -> sees w o v -> configured_order (s_cmp st) -> m <= s_depth st ->
  pretty_print o p w h = (Ok out, h') ->
  exists e s s', tree_at st dk 0 (location w p) e /\ shows v true e s /\ out = text (o_tree_format o) (labelled v s) /\
    shows v true (cut m 0 e) s' /\
    forall h1, exists h1', pretty_print (with_max_depth m o) p w h1 = (Ok (text (o_tree_format o) (labelled v s')), h1').
Proof. exact C87_lemma. Qed.
Print Assumptions C87_smaller_depth_cuts.

Example C87_case :
  steady sample_world sample_disk /\ distinct_names sample_disk /\ uses sample_world default_options default_settings /\
  sees sample_world default_options plain_view /\ configured_order (s_cmp default_settings) /\ 2 <= s_depth default_settings /\
  show (pretty_print (with_tree_format CLASSIC_ASCII default_options) (pth "/home/u/src") sample_world []) =
    Ok ("src/" ++ String "010" "`-- main/" ++ String "010" "    `-- java/" ++ String "010" "        |-- A.java" ++
        String "010" "        `-- B.java")%string /\
  show (pretty_print (with_max_depth 2 (with_tree_format CLASSIC_ASCII default_options)) (pth "/home/u/src") sample_world []) =
    Ok ("src/" ++ String "010" "`-- main/" ++ String "010" "    `-- java/" ++ String "010" "        `-- ...")%string.
Proof.
  split; [exact sample_steady|]. split; [exact sample_distinct|]. split; [apply default_uses|]. split; [apply default_sees|].
  split; [exact (configured_of _ _ _ (default_uses sample_world) (or_introl eq_refl))|]. split; [discriminate|]. split; vm_compute; reflexivity.
Qed.

(** C88: with stricter child limits the same tree is shown, with fewer children per directory: the first ones, and a marker. *)
Theorem C88_stricter_limits_prune : forall o p w h out h' v dk st fn f,
  steady w dk -> distinct_names dk -> uses w o st -> sees w o v -> configured_order (s_cmp st) ->
  answers w fn f -> as_strict f (s_limit st) ->
  pretty_print o p w h = (Ok out, h') ->
  exists e s s', tree_at st dk 0 (location w p) e /\ shows v true e s /\ out = text (o_tree_format o) (labelled v s) /\
    shows v true (prune f e) s' /\
    forall h1, exists h1', pretty_print (with_child_limit_fn fn o) p w h1 = (Ok (text (o_tree_format o) (labelled v s')), h1').
Proof. exact C88_lemma. Qed.
Print Assumptions C88_stricter_limits_prune.

Example C88_case :
  steady sample_world sample_disk /\ distinct_names sample_disk /\ uses sample_world default_options default_settings /\
  sees sample_world default_options plain_view /\ configured_order (s_cmp default_settings) /\
  answers sample_world (fun p => ret (first_two p)) first_two /\ as_strict first_two (s_limit default_settings) /\
  show (pretty_print (with_child_limit_fn (fun p => ret (first_two p)) (with_tree_format CLASSIC_ASCII default_options)) (pth "/home/u/src") sample_world []) =
    Ok ("src/" ++ String "010" "`-- main/" ++ String "010" "    `-- java/" ++ String "010" "        |-- A.java" ++
        String "010" "        `-- ...")%string.
Proof.
  split; [exact sample_steady|]. split; [exact sample_distinct|]. split; [apply default_uses|]. split; [apply default_sees|].
  split; [exact (configured_of _ _ _ (default_uses sample_world) (or_introl eq_refl))|]. split; [intros a h; exists h; reflexivity|]. split; [intro p; left; reflexivity|]. vm_compute; reflexivity.
Qed.

(** C89: with stricter filters (and no child limit) the same tree is shown without what the filters reject. *)
Theorem C89_stricter_filters_select : forall o p w h out h' v dk st md mf fd ff,
  steady w dk -> distinct_names dk -> uses w o st -> sees w o v -> configured_order (s_cmp st) -> (forall q, s_limit st q < 0) ->
  answers w md fd -> answers w mf ff ->
  (forall q, fd q = true -> s_dirs st q = true) -> (forall q, ff q = true -> s_files st q = true) ->
  pretty_print o p w h = (Ok out, h') ->
  exists e s s', tree_at st dk 0 (location w p) e /\ shows v true e s /\ out = text (o_tree_format o) (labelled v s) /\
    shows v true (select fd ff e) s' /\
    forall h1, exists h1', pretty_print (filter_directories md (filter_files mf o)) p w h1 = (Ok (text (o_tree_format o) (labelled v s')), h1').
Proof. exact C89_lemma. Qed.
Print Assumptions C89_stricter_filters_select.

Example C89_case :
  steady sample_world sample_disk /\ distinct_names sample_disk /\ uses sample_world default_options default_settings /\
  sees sample_world default_options plain_view /\ configured_order (s_cmp default_settings) /\ (forall q, s_limit default_settings q < 0) /\
  answers sample_world (fun p => ret (not_a p)) not_a /\ answers sample_world (fun p => ret (not_zoo p)) not_zoo /\
  show (pretty_print (filter_directories (fun p => ret (not_a p)) (filter_files (fun p => ret (not_zoo p)) (with_tree_format CLASSIC_ASCII default_options)))
          (pth "/home/u") sample_world []) =
    Ok ("u/" ++ String "010" "|-- b.txt" ++ String "010" "|-- link" ++ String "010" "`-- src/")%string.
Proof.
  split; [exact sample_steady|]. split; [exact sample_distinct|]. split; [apply default_uses|]. split; [apply default_sees|].
  split; [exact (configured_of _ _ _ (default_uses sample_world) (or_introl eq_refl))|]. split; [reflexivity|]. split; [intros a h; exists h; reflexivity|]. split; [intros a h; exists h; reflexivity|].
  vm_compute; reflexivity.
Qed.

(** C90: printing a directory that is displayed [k] levels below the start, with [k] levels less, prints the part of the tree
    that is displayed for it. *)
Theorem C90_part_of_a_tree : forall o p w h out h' v dk st,
  steady w dk -> distinct_names dk -> uses w o st -> sees w o v -> configured_order (s_cmp st) ->
  pretty_print o p w h = (Ok out, h') ->
  exists e s, tree_at st dk 0 (location w p) e /\ shows v true e s /\ out = text (o_tree_format o) (labelled v s) /\
    forall k q es q', at_depth k e (EDir q es) -> location w q' = q ->
    exists s', shows v true (EDir q es) s' /\
      forall h1, exists h1', pretty_print (with_max_depth (s_depth st - Z.of_nat k) o) q' w h1 =
                             (Ok (text (o_tree_format o) (labelled v s')), h1').
Proof. exact C90_lemma. Qed.
Print Assumptions C90_part_of_a_tree.

Example C90_case :
  steady sample_world sample_disk /\ distinct_names sample_disk /\ uses sample_world default_options default_settings /\
  sees sample_world default_options plain_view /\ configured_order (s_cmp default_settings) /\
  location sample_world (pth "src") = pth "/home/u/src" /\
  show (pretty_print (with_max_depth 3 (with_tree_format CLASSIC_ASCII default_options)) (pth "/home/u") sample_world []) =
    Ok ("u/" ++ String "010" "|-- Zoo" ++ String "010" "|-- a/" ++ String "010" "|-- b.txt" ++ String "010" "|-- link" ++
        String "010" "`-- src/" ++ String "010" "    `-- main/" ++ String "010" "        `-- java/" ++ String "010" "            `-- ...")%string /\
  show (pretty_print (with_max_depth (3 - Z.of_nat 1) (with_tree_format CLASSIC_ASCII default_options)) (pth "src") sample_world []) =
    Ok ("src/" ++ String "010" "`-- main/" ++ String "010" "    `-- java/" ++ String "010" "        `-- ...")%string.
Proof.
  split; [exact sample_steady|]. split; [exact sample_distinct|]. split; [apply default_uses|]. split; [apply default_sees|].
  split; [exact (configured_of _ _ _ (default_uses sample_world) (or_introl eq_refl))|]. split; [vm_compute; reflexivity|]. split; vm_compute; reflexivity.
Qed.

(** C91: two directories with the same name and the same content print the same text, wherever they are, in whatever order they are
    listed, and whatever happened before, provided the options treat them alike. *)
Theorem C91_copies_print_alike : forall o1 o2 p1 p2 w1 w2 h out h' v1 v2 dk1 dk2 st1 st2,
  steady w1 dk1 -> steady w2 dk2 -> distinct_names dk2 ->
  uses w1 o1 st1 -> uses w2 o2 st2 -> sees w1 o1 v1 -> sees w2 o2 v2 ->
  configured_order (s_cmp st1) -> configured_order (s_cmp st2) ->
  o_tree_format o1 = o_tree_format o2 ->
  same_content dk1 (location w1 p1) dk2 (location w2 p2) ->
  same_settings dk1 st1 (location w1 p1) st2 (location w2 p2) -> s_depth st1 = s_depth st2 ->
  same_view dk1 v1 (location w1 p1) v2 (location w2 p2) ->
  p_names (location w2 p2) <> [] -> last_name (location w1 p1) = last_name (location w2 p2) ->
  pretty_print o1 p1 w1 h = (Ok out, h') ->
  forall h2, exists h2', pretty_print o2 p2 w2 h2 = (Ok out, h2').
Proof. exact C91_lemma. Qed.
Print Assumptions C91_copies_print_alike.

Example C91_case :
  steady sample_world sample_disk /\ steady copy_world copy_disk /\ distinct_names copy_disk /\
  uses sample_world default_options default_settings /\ uses copy_world default_options default_settings /\
  sees sample_world default_options plain_view /\ sees copy_world default_options plain_view /\ configured_order (s_cmp default_settings) /\
  same_content sample_disk (pth "/home/u") copy_disk (pth "/copy/u") /\
  same_settings sample_disk default_settings (pth "/home/u") default_settings (pth "/copy/u") /\
  same_view sample_disk plain_view (pth "/home/u") plain_view (pth "/copy/u") /\
  location sample_world (pth ".") = pth "/home/u" /\ location copy_world (pth "/copy/x/../u") = pth "/copy/u" /\
  is_some (result (pretty_print default_options (pth ".") sample_world [])) = true.
Proof.
  split; [exact sample_steady|]. split; [exact copy_steady|]. split; [exact copy_distinct|].
  split; [apply default_uses|]. split; [apply default_uses|]. split; [apply default_sees|]. split; [apply default_sees|].
  split; [exact (configured_of _ _ _ (default_uses sample_world) (or_introl eq_refl))|]. split; [exact copy_content|]. split; [apply default_moves|]. split; [apply plain_moves|].
  split; [vm_compute; reflexivity|]. split; vm_compute; reflexivity.
Qed.

(** C131: after the deletion of files the same tree is shown without them, if no child limit took effect in the directories they were in. *)
Theorem C131_deleting_removes_lines : forall o p w1 w2 h out h' v dk1 dk2 st gone,
  steady w1 dk1 -> steady w2 dk2 -> w_jvm w1 = w_jvm w2 -> distinct_names dk2 ->
  uses w1 o st -> uses w2 o st -> sees w1 o v -> sees w2 o v -> configured_order (s_cmp st) -> roomy st gone dk1 ->
  deleted gone dk1 dk2 -> gone (location w1 p) = false ->
  pretty_print o p w1 h = (Ok out, h') ->
  exists e s s', tree_at st dk1 0 (location w1 p) e /\ shows v true e s /\ out = text (o_tree_format o) (labelled v s) /\
    shows v true (select (fun q => negb (gone q)) (fun q => negb (gone q)) e) s' /\
    forall h2, exists h2', pretty_print o p w2 h2 = (Ok (text (o_tree_format o) (labelled v s')), h2').
Proof. exact C131_lemma. Qed.
Print Assumptions C131_deleting_removes_lines.

Example C131_case :
  let o := with_tree_format CLASSIC_ASCII default_options in
  steady sample_world sample_disk /\ steady fewer_world fewer_disk /\ w_jvm sample_world = w_jvm fewer_world /\ distinct_names fewer_disk /\
  uses sample_world o default_settings /\ uses fewer_world o default_settings /\ sees sample_world o plain_view /\ sees fewer_world o plain_view /\
  configured_order (s_cmp default_settings) /\ roomy default_settings gone sample_disk /\
  deleted gone sample_disk fewer_disk /\ gone (location sample_world (pth "/home/u")) = false /\
  is_some (result (pretty_print o (pth "/home/u") sample_world [])) = true /\
  show (pretty_print o (pth "/home/u") fewer_world []) =
    Ok ("u/" ++ String "010" "|-- a/" ++ String "010" "|-- b.txt" ++ String "010" "|-- link" ++ String "010" "`-- src/")%string.
Proof.
  split; [exact sample_steady|]. split; [apply fewer_steady|]. split; [reflexivity|]. split; [apply fewer_distinct, sample_distinct|].
  split; [apply default_uses|]. split; [apply default_uses|]. split; [apply default_sees|]. split; [apply default_sees|].
  split; [exact (configured_of _ _ _ (default_uses sample_world) (or_introl eq_refl))|]. split; [intros q names n; now left|]. split; [apply fewer_deleted|]. vm_compute. repeat split.
Qed.

(** C137: what is not displayed has no influence. If the file system differs only in what is below excluded directories, below the maximal depth, in or below
    children beyond the limit, or in anything about the displayed paths other than their entries and kinds, the text is the same. The options only have to
    treat alike what the displayed directories contain. *)
Theorem C137_hidden_has_no_influence : forall o p w1 w2 h out h' v1 v2 dk1 dk2 st1 st2 e,
  steady w1 dk1 -> steady w2 dk2 -> w_jvm w1 = w_jvm w2 -> distinct_names dk1 -> distinct_names dk2 ->
  uses w1 o st1 -> uses w2 o st2 -> sees w1 o v1 -> sees w2 o v2 -> configured_order (s_cmp st1) -> configured_order (s_cmp st2) ->
  tree_at st1 dk1 0 (location w1 p) e ->
  as_shown dk1 dk2 (location w1 p) e -> treated_alike dk1 st1 st2 e -> decorated_alike v1 v2 e ->
  pretty_print o p w1 h = (Ok out, h') ->
  forall h2, exists h2', pretty_print o p w2 h2 = (Ok out, h2').
Proof. exact C137_lemma. Qed.
Print Assumptions C137_hidden_has_no_influence.

Example C137_case :
  steady sample_world sample_disk /\ steady busy_world busy_disk /\ w_jvm sample_world = w_jvm busy_world /\
  distinct_names sample_disk /\ distinct_names busy_disk /\ uses sample_world four_options four_settings /\ uses busy_world four_options four_settings /\
  sees sample_world four_options plain_view /\ sees busy_world four_options plain_view /\ configured_order (s_cmp four_settings) /\
  tree_at four_settings sample_disk 0 (location sample_world (pth ".")) four_entry /\
  as_shown sample_disk busy_disk (location sample_world (pth ".")) four_entry /\
  treated_alike sample_disk four_settings four_settings four_entry /\ decorated_alike plain_view plain_view four_entry /\
  is_some (result (pretty_print four_options (pth ".") sample_world [])) = true /\
  d_list sample_disk (pth "/home/u/a") <> d_list busy_disk (pth "/home/u/a").
Proof.
  split; [exact sample_steady|]. split; [apply static_steady|]. split; [reflexivity|]. split; [exact sample_distinct|].
  split; [apply table_distinct; vm_compute; reflexivity|]. split; [apply four_uses|]. split; [apply four_uses|].
  split; [apply default_sees|]. split; [apply default_sees|]. split; [exact (configured_of _ _ _ (default_uses sample_world) (or_introl eq_refl))|].
  replace (location sample_world (pth ".")) with (pth "/home/u") by (vm_compute; reflexivity).
  split; [exact four_tree|]. split; [exact four_as_shown|]. split; [exact four_alike|]. split; [now split|].
  split; [vm_compute; reflexivity|]. vm_compute. discriminate.
Qed.
