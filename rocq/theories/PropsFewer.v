(** * The lines that are left by a smaller depth, by filters and by limits: C177, C178 *)

From Verif Require Import SortFacts ScanFacts ScanPrintFacts SpecMeta SpecFewer Cases MetaFacts MetaCases FewerFacts.
Open Scope Z_scope.

(** C177: without merging of directories, the text for the maximal depth [m] has exactly the lines of the text for a larger depth down to level [m],
    character by character, and below each directory of level [m] one line "..." and nothing else. *)
Theorem C177_smaller_depth_keeps_lines : forall o p w h out h' v dk st (m : nat),
  steady w dk -> distinct_names dk -> uses w o st -> sees w o v -> configured_order (s_cmp st) -> v_compact v = false -> Z.of_nat m <= s_depth st ->
  pretty_print o p w h = (Ok out, h') ->
  exists e s, tree_at st dk 0 (location w p) e /\ shows v true e s /\ out = text (o_tree_format o) (labelled v s) /\
    (forall h1, exists h1', pretty_print (with_max_depth (Z.of_nat m) o) p w h1 = (Ok (text (o_tree_format o) (labelled v (cut_lines m s))), h1')) /\
    filter (within m) (rows (labelled v (cut_lines m s))) = filter (within m) (rows (labelled v s)) /\
    (forall r, In r (rows (labelled v (cut_lines m s))) -> within m r = false ->
      exists flags label, In (flags, label) (rows (labelled v s)) /\ length flags = m /\ r = (flags ++ [true], js "...")).
Proof. exact C177_lemma. Qed.
Print Assumptions C177_smaller_depth_keeps_lines.

Example C177_case :
  steady sample_world sample_disk /\ distinct_names sample_disk /\ uses sample_world default_options default_settings /\
  sees sample_world default_options plain_view /\ configured_order (s_cmp default_settings) /\ v_compact plain_view = false /\ Z.of_nat 1 <= s_depth default_settings /\
  show (pretty_print (with_max_depth 1 (with_tree_format CLASSIC_ASCII default_options)) (pth "/home/u") sample_world []) =
    Ok ("u/" ++ String "010" "|-- Zoo" ++ String "010" "|-- a/" ++ String "010" "#   `-- ..." ++ String "010" "|-- b.txt" ++ String "010" "|-- link" ++
        String "010" "`-- src/" ++ String "010" "    `-- ...")%string.
Proof.
  split; [exact sample_steady|]. split; [exact sample_distinct|]. split; [apply default_uses|]. split; [apply default_sees|].
  split; [exact (configured_of _ _ _ (default_uses sample_world) (or_introl eq_refl))|]. split; [reflexivity|]. split; [discriminate|]. vm_compute; reflexivity.
Qed.

(** C178: without merging of directories, stricter filters only take lines out (the symbols before the labels of the others may change) ... *)
Theorem C178_stricter_filters_take_lines_out : forall o p w h out h' v dk st md mf fd ff,
  steady w dk -> distinct_names dk -> uses w o st -> sees w o v -> configured_order (s_cmp st) -> (forall q, s_limit st q < 0) -> v_compact v = false ->
  answers w md fd -> answers w mf ff ->
  (forall q, fd q = true -> s_dirs st q = true) -> (forall q, ff q = true -> s_files st q = true) ->
  pretty_print o p w h = (Ok out, h') ->
  exists e s s', tree_at st dk 0 (location w p) e /\ shows v true e s /\ out = text (o_tree_format o) (labelled v s) /\
    shows v true (select fd ff e) s' /\
    (forall h1, exists h1', pretty_print (filter_directories md (filter_files mf o)) p w h1 = (Ok (text (o_tree_format o) (labelled v s')), h1')) /\
    thinned (fun _ => False) (lines_of (labelled v s')) (lines_of (labelled v s)).
Proof. exact C178_filters_lemma. Qed.
Print Assumptions C178_stricter_filters_take_lines_out.

(** ... and stricter child limits only take lines out and put in lines "...". *)
Theorem C178_stricter_limits_take_lines_out : forall o p w h out h' v dk st fn f,
  steady w dk -> distinct_names dk -> uses w o st -> sees w o v -> configured_order (s_cmp st) -> v_compact v = false ->
  answers w fn f -> as_strict f (s_limit st) ->
  pretty_print o p w h = (Ok out, h') ->
  exists e s s', tree_at st dk 0 (location w p) e /\ shows v true e s /\ out = text (o_tree_format o) (labelled v s) /\
    shows v true (prune f e) s' /\
    (forall h1, exists h1', pretty_print (with_child_limit_fn fn o) p w h1 = (Ok (text (o_tree_format o) (labelled v s')), h1')) /\
    thinned (fun label => label = js "...") (lines_of (labelled v s')) (lines_of (labelled v s)).
Proof. exact C178_limits_lemma. Qed.
Print Assumptions C178_stricter_limits_take_lines_out.

Example C178_case :
  steady sample_world sample_disk /\ distinct_names sample_disk /\ uses sample_world default_options default_settings /\
  sees sample_world default_options plain_view /\ configured_order (s_cmp default_settings) /\ (forall q, s_limit default_settings q < 0) /\
  v_compact plain_view = false /\
  answers sample_world (fun p => ret (not_a p)) not_a /\ answers sample_world (fun p => ret (not_zoo p)) not_zoo /\
  answers sample_world (fun p => ret (first_two p)) first_two /\ as_strict first_two (s_limit default_settings) /\
  show (pretty_print (filter_directories (fun p => ret (not_a p)) (filter_files (fun p => ret (not_zoo p)) (with_tree_format CLASSIC_ASCII default_options)))
          (pth "/home/u") sample_world []) =
    Ok ("u/" ++ String "010" "|-- b.txt" ++ String "010" "|-- link" ++ String "010" "`-- src/")%string /\
  show (pretty_print (with_child_limit_fn (fun p => ret (first_two p)) (with_tree_format CLASSIC_ASCII default_options)) (pth "/home/u/src") sample_world []) =
    Ok ("src/" ++ String "010" "`-- main/" ++ String "010" "    `-- java/" ++ String "010" "        |-- A.java" ++
        String "010" "        `-- ...")%string.
Proof.
  split; [exact sample_steady|]. split; [exact sample_distinct|]. split; [apply default_uses|]. split; [apply default_sees|].
  split; [exact (configured_of _ _ _ (default_uses sample_world) (or_introl eq_refl))|]. split; [reflexivity|]. split; [reflexivity|].
  split; [intros a h; exists h; reflexivity|]. split; [intros a h; exists h; reflexivity|]. split; [intros a h; exists h; reflexivity|].
  split; [intro p; left; reflexivity|]. split; vm_compute; reflexivity.
Qed.
