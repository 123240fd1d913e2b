(** * Another order moves lines: C176 *)

From Verif Require Import SortFacts ScanFacts ScanPrintFacts BuilderFacts SpecMeta SpecMoved Cases MetaFacts MetaCases MovedFacts.
Open Scope Z_scope.

(** C176: without child limits, two runs that differ in the order (and in the tree format) print the same lines: the nodes below each node are
    the same up to their order, so every label occurs equally often on each level.  The comparators may be any. *)
Theorem C176_another_order_moves_lines : forall o1 o2 p w h1 h2 out1 out2 h1' h2' v dk st1 st2,
  steady w dk -> uses w o1 st1 -> uses w o2 st2 -> sees w o1 v -> sees w o2 v ->
  (forall q, s_dirs st1 q = s_dirs st2 q) -> (forall q, s_files st1 q = s_files st2 q) -> s_depth st2 = s_depth st1 ->
  (forall q, s_limit st1 q < 0) -> (forall q, s_limit st2 q < 0) ->
  pretty_print o1 p w h1 = (Ok out1, h1') -> pretty_print o2 p w h2 = (Ok out2, h2') ->
  exists e1 s1 e2 s2,
    (tree_at st1 dk 0 (location w p) e1 /\ shows v true e1 s1 /\ out1 = text (o_tree_format o1) (labelled v s1)) /\
    (tree_at st2 dk 0 (location w p) e2 /\ shows v true e2 s2 /\ out2 = text (o_tree_format o2) (labelled v s2)) /\
    reordered (labelled v s1) (labelled v s2) /\
    Permutation (map level_and_label (rows (labelled v s1))) (map level_and_label (rows (labelled v s2))).
Proof. exact C176_lemma. Qed.
Print Assumptions C176_another_order_moves_lines.

(** Directories first, then last, with merged directories; [show] writes "#" for U+2502. *)
Example C176_case :
  let first := with_compact_directories true (with_sort DIRECTORY_FIRST (with_tree_format CLASSIC_ASCII default_options)) in
  let late := with_compact_directories true (with_sort DIRECTORY_LAST (with_tree_format CLASSIC_ASCII default_options)) in
  let ordered c := mkSettings (s_dirs default_settings) (s_files default_settings) (s_limit default_settings) (then_by c alphabetical) (s_depth default_settings) in
  steady sample_world sample_disk /\
  uses sample_world first (ordered (dirs_first (is_dirb sample_disk))) /\
  uses sample_world late (ordered (flipped (dirs_first (is_dirb sample_disk)))) /\
  sees sample_world first (set_compact true plain_view) /\ sees sample_world late (set_compact true plain_view) /\
  (forall q, s_limit default_settings q < 0) /\
  show (pretty_print first (pth "/home/u") sample_world []) =
    Ok ("u/" ++ String "010" "|-- a/" ++ String "010" "|-- src/main/java/" ++ String "010" "#   |-- A.java" ++ String "010" "#   `-- B.java" ++
        String "010" "|-- Zoo" ++ String "010" "|-- b.txt" ++ String "010" "`-- link")%string /\
  show (pretty_print late (pth "/home/u") sample_world []) =
    Ok ("u/" ++ String "010" "|-- Zoo" ++ String "010" "|-- b.txt" ++ String "010" "|-- link" ++ String "010" "|-- a/" ++ String "010" "`-- src/main/java/" ++
        String "010" "    |-- A.java" ++ String "010" "    `-- B.java")%string.
Proof.
  split; [exact sample_steady|].
  split.
  { split; [|split; [|split; [|split]]]; try (intros a h; exists h; reflexivity); [|reflexivity].
    intro a. apply answers_then; [|intros x y h; exists h; reflexivity]. exact (directory_first_answers _ _ sample_steady). }
  split.
  { split; [|split; [|split; [|split]]]; try (intros a h; exists h; reflexivity); [|reflexivity].
    intro a. apply answers_then; [|intros x y h; exists h; reflexivity]. exact (directory_last_answers _ _ sample_steady). }
  split; [repeat split; intros; try (eexists; reflexivity); intro h; exists h; reflexivity|].
  split; [repeat split; intros; try (eexists; reflexivity); intro h; exists h; reflexivity|].
  split; [reflexivity|]. split; vm_compute; reflexivity.
Qed.
