(** * The two filters do not interfere: C175 *)

From Verif Require Import SortFacts ScanFacts ScanPrintFacts SpecMeta SpecApart Cases MetaFacts MetaCases ApartFacts.
Open Scope Z_scope.

(** C175: without child limits, two runs with the same order and depth display the same directories if they have the same directory filter,
    whatever their file filters are; and in a directory displayed by both they display the same files, in the same order, if they
    have the same file filter, whatever their directory filters are. *)
Theorem C175_filters_are_independent : forall o1 o2 p w h1 h2 out1 out2 h1' h2' v1 v2 dk st1 st2,
  steady w dk -> distinct_names dk -> uses w o1 st1 -> uses w o2 st2 -> sees w o1 v1 -> sees w o2 v2 ->
  configured_order (s_cmp st1) -> s_cmp st2 = s_cmp st1 -> s_depth st2 = s_depth st1 ->
  (forall q, s_limit st1 q < 0) -> (forall q, s_limit st2 q < 0) ->
  pretty_print o1 p w h1 = (Ok out1, h1') -> pretty_print o2 p w h2 = (Ok out2, h2') ->
  exists e1 s1 e2 s2,
    (tree_at st1 dk 0 (location w p) e1 /\ shows v1 true e1 s1 /\ out1 = text (o_tree_format o1) (labelled v1 s1)) /\
    (tree_at st2 dk 0 (location w p) e2 /\ shows v2 true e2 s2 /\ out2 = text (o_tree_format o2) (labelled v2 s2)) /\
    ((forall q, s_dirs st1 q = s_dirs st2 q) -> without_files e1 = without_files e2) /\
    ((forall q, s_files st1 q = s_files st2 q) ->
     forall n1 n2 d es1 es2, at_depth n1 e1 (EDir d es1) -> at_depth n2 e2 (EDir d es2) -> files_in es1 = files_in es2).
Proof. exact C175_lemma. Qed.
Print Assumptions C175_filters_are_independent.

(** One run without a file, one without the directories "a" and "main"; the plain run shares one filter with each. *)
Example C175_case :
  let no_zoo := filter_files (fun p => ret (not_zoo p)) (with_tree_format CLASSIC_ASCII default_options) in
  let no_a := filter_directories (fun p => ret (not_a p)) (with_tree_format CLASSIC_ASCII default_options) in
  let all := with_tree_format CLASSIC_ASCII default_options in
  steady sample_world sample_disk /\ distinct_names sample_disk /\
  uses sample_world all default_settings /\
  uses sample_world no_zoo (set_filters (s_dirs default_settings) not_zoo default_settings) /\
  uses sample_world no_a (set_filters not_a (s_files default_settings) default_settings) /\
  sees sample_world all plain_view /\ sees sample_world no_zoo plain_view /\ sees sample_world no_a plain_view /\
  configured_order (s_cmp default_settings) /\ (forall q, s_limit default_settings q < 0) /\
  show (pretty_print all (pth "/home/u") sample_world []) =
    Ok ("u/" ++ String "010" "|-- Zoo" ++ String "010" "|-- a/" ++ String "010" "|-- b.txt" ++ String "010" "|-- link" ++ String "010" "`-- src/" ++ String "010" "    `-- main/" ++ String "010" "        `-- java/" ++ String "010" "            |-- A.java" ++ String "010" "            `-- B.java")%string /\
  show (pretty_print no_zoo (pth "/home/u") sample_world []) =
    Ok ("u/" ++ String "010" "|-- a/" ++ String "010" "|-- b.txt" ++ String "010" "|-- link" ++ String "010" "`-- src/" ++ String "010" "    `-- main/" ++ String "010" "        `-- java/" ++ String "010" "            |-- A.java" ++ String "010" "            `-- B.java")%string /\
  show (pretty_print no_a (pth "/home/u") sample_world []) =
    Ok ("u/" ++ String "010" "|-- Zoo" ++ String "010" "|-- b.txt" ++ String "010" "|-- link" ++ String "010" "`-- src/")%string.
Proof.
  split; [exact sample_steady|]. split; [exact sample_distinct|]. split; [apply default_uses|].
  split; [repeat split; intros; try (eexists; reflexivity)|].
  split; [repeat split; intros; try (eexists; reflexivity)|].
  split; [apply default_sees|]. split; [apply default_sees|]. split; [apply default_sees|].
  split; [exact (configured_of _ _ _ (default_uses sample_world) (or_introl eq_refl))|]. split; [reflexivity|].
  split; [|split]; vm_compute; try reflexivity.
Qed.
