(** * A change below one directory: C179 *)

From Verif Require Import SortFacts ScanFacts ScanPrintFacts SpecLocal Cases LinesCases LocalCases LocalFacts.
Open Scope Z_scope.

(** C179: two printings, of file systems that differ only in what is in the directory [d], with options that answer alike outside [d].  Either [d] is
    not displayed and the two texts are the same, or the two texts have the same lines, symbols included, before and after the lines of one displayed
    directory, which is [d] or has [d] merged into its line. *)
Theorem C179_change_inside_one_directory : forall o1 o2 p d w1 w2 h1 h2 out1 out2 h1' h2' v1 v2 dk1 dk2 st1 st2,
  steady w1 dk1 -> steady w2 dk2 -> w_jvm w1 = w_jvm w2 -> distinct_names dk1 -> same_except d dk1 dk2 ->
  uses w1 o1 st1 -> uses w2 o2 st2 -> settings_except d st1 st2 -> configured_order (s_cmp st1) -> configured_order (s_cmp st2) ->
  sees w1 o1 v1 -> sees w2 o2 v2 -> view_except d v1 v2 -> o_tree_format o1 = o_tree_format o2 ->
  ~ below d (location w1 p) \/ location w1 p = d ->
  pretty_print o1 p w1 h1 = (Ok out1, h1') -> pretty_print o2 p w2 h2 = (Ok out2, h2') ->
  exists e1 s1 e2 s2,
    (tree_at st1 dk1 0 (location w1 p) e1 /\ shows v1 true e1 s1 /\ out1 = text (o_tree_format o1) (labelled v1 s1)) /\
    (tree_at st2 dk2 0 (location w2 p) e2 /\ shows v2 true e2 s2 /\ out2 = text (o_tree_format o2) (labelled v2 s2)) /\
    ((~ In d (entry_paths e1) /\ out1 = out2) \/
     exists above flags after pre tl1 ks1 tl2 ks2,
       rows (labelled v1 s1) = above ++ map (placed flags) (rows (labelled v1 (SDir (pre ++ d :: tl1) ks1))) ++ after /\
       rows (labelled v2 s2) = above ++ map (placed flags) (rows (labelled v2 (SDir (pre ++ d :: tl2) ks2))) ++ after).
Proof. exact C179_lemma. Qed.
Print Assumptions C179_change_inside_one_directory.

(** Other contents of /home/u/src, ordered by size, directories merged. *)
Example C179_case :
  steady sample_world sample_disk /\ steady refilled_world refilled_disk /\ w_jvm sample_world = w_jvm refilled_world /\ distinct_names sample_disk /\
  same_except leaving_dir sample_disk refilled_disk /\
  uses sample_world sized_options (sized_settings sample_disk) /\ uses refilled_world sized_options (sized_settings refilled_disk) /\
  settings_except leaving_dir (sized_settings sample_disk) (sized_settings refilled_disk) /\
  configured_order (s_cmp (sized_settings sample_disk)) /\ configured_order (s_cmp (sized_settings refilled_disk)) /\
  sees sample_world sized_options (set_compact true plain_view) /\ sees refilled_world sized_options (set_compact true plain_view) /\
  view_except leaving_dir (set_compact true plain_view) (set_compact true plain_view) /\
  ~ below leaving_dir (location sample_world (pth "/home/u")) /\
  show (pretty_print (with_tree_format CLASSIC_ASCII sized_options) (pth "/home/u") sample_world []) =
    Ok ("u/" ++ String "010" "|-- Zoo" ++ String "010" "|-- a/" ++ String "010" "|-- link" ++ String "010" "|-- src/main/java/" ++ String "010" "#   |-- A.java" ++ String "010" "#   `-- B.java" ++ String "010" "`-- b.txt")%string /\
  show (pretty_print (with_tree_format CLASSIC_ASCII sized_options) (pth "/home/u") refilled_world []) =
    Ok ("u/" ++ String "010" "|-- Zoo" ++ String "010" "|-- a/" ++ String "010" "|-- link" ++ String "010" "|-- src/" ++ String "010" "#   `-- T" ++ String "010" "`-- b.txt")%string.
Proof.
  split; [exact sample_steady|]. split; [exact refilled_steady|]. split; [reflexivity|]. split; [exact sample_distinct|]. split; [exact refilled_same|].
  split; [exact (sized_uses _ _ sample_steady)|]. split; [exact (sized_uses _ _ refilled_steady)|]. split; [exact sized_except|].
  split; [exact (sized_configured _ _ sample_steady)|]. split; [exact (sized_configured _ _ refilled_steady)|].
  split; [apply sized_sees|]. split; [apply sized_sees|]. split; [split; [reflexivity|split; reflexivity]|].
  split; [rewrite <- in_leaving_below; vm_compute; discriminate|].
  split; vm_compute; reflexivity.
Qed.
