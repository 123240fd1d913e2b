(** * The same entries displayed in two ways: C180 *)

From Verif Require Import PathFacts SortFacts ScanFacts ScanPrintFacts SpecLook Cases LinesCases LookFacts.
Open Scope Z_scope.

(** C180: tree format, emojis and line extensions do not decide what is displayed.  With another format, other emojis and other extensions (with
    merging of directories: null for the same directories) the run returns too, and line by line the same entries are on the same levels. *)
Theorem C180_look_does_not_decide_what : forall o o' p w h out h' v v' dk st,
  steady w dk -> distinct_names dk -> uses w o st -> uses w o' st -> sees w o v -> sees w o' v' -> configured_order (s_cmp st) ->
  v_compact v' = v_compact v -> v_compact v = false \/ null_alike dk v v' ->
  pretty_print o p w h = (Ok out, h') ->
  exists e s, tree_at st dk 0 (location w p) e /\ shows v true e s /\ shows v' true e s /\ out = text (o_tree_format o) (labelled v s) /\
    (forall h1, exists h1', pretty_print o' p w h1 = (Ok (text (o_tree_format o') (labelled v' s)), h1')) /\
    Forall2 (same_entry v v' (entry_paths e)) (rows (labelled v s)) (rows (labelled v' s)).
Proof. exact C180_lemma. Qed.
Print Assumptions C180_look_does_not_decide_what.

(** Without extensions and emojis, and with an extension for one file and emojis. *)
Definition marked_ext (p : path) : option jstring := if path_eqb leaving p then Some (js " (new)") else None.
Definition marked_view : view := mkView marked_ext case_emoji true.
Definition marked_options : options :=
  with_line_extension (Some (fun p => ret (marked_ext p))) (with_emojis (fun p => ret (case_emoji p)) (with_tree_format CLASSIC_ASCII compact_options)).

Example C180_case :
  steady sample_world sample_disk /\ distinct_names sample_disk /\
  uses sample_world compact_options default_settings /\ uses sample_world marked_options default_settings /\
  sees sample_world compact_options (set_compact true plain_view) /\ sees sample_world marked_options marked_view /\
  configured_order (s_cmp default_settings) /\ v_compact marked_view = v_compact (set_compact true plain_view) /\
  null_alike sample_disk (set_compact true plain_view) marked_view /\
  show (pretty_print (with_tree_format CLASSIC_ASCII compact_options) (pth "/home/u") sample_world []) =
    Ok ("u/" ++ String "010" "|-- Zoo" ++ String "010" "|-- a/" ++ String "010" "|-- b.txt" ++ String "010" "|-- link" ++
        String "010" "`-- src/main/java/" ++ String "010" "    |-- A.java" ++ String "010" "    `-- B.java")%string /\
  show (pretty_print marked_options (pth "/home/u") sample_world []) =
    Ok ("u/" ++ String "010" "|-- Zoo" ++ String "010" "|-- a/" ++ String "010" "|-- # b.txt" ++ String "010" "|-- link" ++
        String "010" "`-- src/main/java/" ++ String "010" "    |-- A.java" ++ String "010" "    `-- B.java (new)")%string.
Proof.
  split; [exact sample_steady|]. split; [exact sample_distinct|].
  split; [repeat split; repeat intro; eexists; reflexivity|]. split; [repeat split; repeat intro; eexists; reflexivity|].
  split; [apply compact_sees|]. split; [split; [|split]; [intros a h; exists h; reflexivity|intros a h; exists h; reflexivity|reflexivity]|].
  split; [exact (configured_of _ _ _ (default_uses sample_world) (or_introl eq_refl))|]. split; [reflexivity|].
  split.
  { intros q Hq. split; [|reflexivity]. intros _. cbn [marked_view v_ext]. unfold marked_ext. destruct (path_eqb leaving q) eqn:E; [|reflexivity].
    apply path_eqb_eq in E. subst q. vm_compute in Hq. discriminate. }
  split; vm_compute; reflexivity.
Qed.
