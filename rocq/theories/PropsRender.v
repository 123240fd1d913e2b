(** * Properties of the printed text: C01-C04, C25-C28, C47, C84, C85 *)

From Verif Require Import SpecScan Cases RenderFacts LayoutFacts ShownFacts HistFacts TreeFacts PrintFacts OutlineFacts.

(** C01. [scan] is the tree of displayed entries of this run; [shows], [labelled], [rows], [row_text] are the
    layout specification of SpecRender.v. *)
Theorem C01_exact_layout : forall o p w h out h' v,
  sees w o v -> pretty_print o p w h = (Ok out, h') ->
  exists e h1 s,
    scan o (location w p) w h = (Ok e, h1) /\ shows v true e s /\
    out = join [c_nl] (map (row_text (o_tree_format o)) (rows (labelled v s))).
Proof. exact C01_lemma. Qed.
Print Assumptions C01_exact_layout.

Example C01_case : sees sample_world case_options case_view /\
  result (pretty_print case_options (pth "/home/u") sample_world []) = Some (join [c_nl] [
    js "u/"; js "|-- Zoo"; js "|-- a/"; js "|-- " ++ [9989%N] ++ js " b.txt"; js "|-- link"; js "`-- src/ <- sources";
    js "    `-- main/java/"; js "        |-- A.java"; js "        `-- B.java"]).
Proof. split; [apply case_sees|vm_compute; reflexivity]. Qed.

(** C02, for any two runs of printers with the same tree format, on any two file systems. *)
Theorem C02_output_determines_tree : forall o1 o2 p1 p2 w1 w2 h1 h2 h1' h2' v1 v2 out,
  o_tree_format o1 = o_tree_format o2 -> distinguishable (o_tree_format o1) ->
  sees w1 o1 v1 -> sees w2 o2 v2 ->
  pretty_print o1 p1 w1 h1 = (Ok out, h1') -> pretty_print o2 p2 w2 h2 = (Ok out, h2') ->
  exists e1 e2 s1 s2 k1 k2,
    scan o1 (location w1 p1) w1 h1 = (Ok e1, k1) /\ shows v1 true e1 s1 /\
    scan o2 (location w2 p2) w2 h2 = (Ok e2, k2) /\ shows v2 true e2 s2 /\
    (labels_on_one_line (labelled v1 s1) -> labels_on_one_line (labelled v2 s2) ->
     labelled v1 s1 = labelled v2 s2).
Proof. exact C02_lemma. Qed.
Print Assumptions C02_output_determines_tree.

Theorem C02_builtin_formats : distinguishable CLASSIC_ASCII /\ distinguishable UNICODE_BOX_DRAWING.
Proof. exact C02_builtin_lemma. Qed.
Print Assumptions C02_builtin_formats.

Example C02_case : exists out,
  distinguishable (o_tree_format default_options) /\ sees sample_world default_options plain_view /\
  result (pretty_print default_options (pth "/home/u/src") sample_world []) = Some out /\
  result (pretty_print default_options (pth "../u/./src") sample_world []) = Some out /\
  labels_on_one_line (DT (js "src/") [DT (js "main/") []]).
Proof.
  eexists. split; [exact (proj2 C02_builtin_lemma)|]. split; [apply default_sees|].
  split; [vm_compute; reflexivity|]. split; [vm_compute; reflexivity|].
  intros r [<-|[<-|[]]]; intro Hin; cbn in Hin; repeat (destruct Hin as [Hin|Hin]; [discriminate|]); exact Hin.
Qed.

(** C84. The text tells the names of what is shown and which entries are special files. False: (1) a regular file "x?" looks like a special
    file "x"; (2) a file named "..." looks like children left out; (3) a file whose name contains a line break looks like two files. *)
Theorem C84_refuted :
  (exists w1 w2 out,
     displays default_options plain_view w1 (pth "/d") (SDir [pth "/d"] [SFile (pth "/d/x?") KReg]) out /\
     displays default_options plain_view w2 (pth "/d") (SDir [pth "/d"] [SFile (pth "/d/x") KOther]) out) /\
  (exists o w1 w2 out, o_tree_format o = o_tree_format default_options /\
     displays default_options plain_view w1 (pth "/d") (SDir [pth "/d"] [SFile (pth "/d/-") KReg; SFile (pth "/d/...") KReg]) out /\
     displays o plain_view w2 (pth "/d") (SDir [pth "/d"] [SFile (pth "/d/-") KReg; SDots]) out) /\
  (exists f w1 w2 out,
     displays default_options plain_view w1 (pth "/d") (SDir [pth "/d"] [SFile f KReg; SFile (pth "/d/C") KReg]) out /\
     displays default_options plain_view w2 (pth "/d")
       (SDir [pth "/d"] [SFile (pth "/d/A") KReg; SFile (pth "/d/B") KReg; SFile (pth "/d/C") KReg]) out).
Proof. exact C84_lemma. Qed.
Print Assumptions C84_refuted.

(** C85. It does if no name contains a line break and no file name is "..." or ends in "*" or "?". *)
Theorem C85_text_determines_names : forall o1 o2 v1 v2 w1 w2 p1 p2 s1 s2 out,
  o_tree_format o1 = o_tree_format o2 -> distinguishable (o_tree_format o1) -> bare v1 -> bare v2 ->
  displays o1 v1 w1 p1 s1 out -> displays o2 v2 w2 p2 s2 out ->
  clear_names s1 -> clear_names s2 -> outline_of s1 = outline_of s2.
Proof. exact C85_lemma. Qed.
Print Assumptions C85_text_determines_names.

Example C85_case : exists s out, displays compact_options (set_compact true plain_view) sample_world (pth "/home/u") s out /\ clear_names s /\
  outline_of s = ODir [js "u"] [OFile (js "Zoo") []; ODir [js "a"] []; OFile (js "b.txt") []; OFile (js "link") [];
                                ODir [js "src"; js "main"; js "java"] [OFile (js "A.java") []; OFile (js "B.java") []]].
Proof. exact C85_case_lemma. Qed.

(** C03. *)
Theorem C03_symbol_width_validated : forall nl l c e,
  (forall tf, tree_format_create (Some nl) (Some l) (Some c) (Some e) = Ok tf <->
     (length nl = length l /\ length nl = length c /\ length nl = length e) /\ tf = mkTreeFormat nl l c e) /\
  (~ (length nl = length l /\ length nl = length c /\ length nl = length e) ->
     tree_format_create (Some nl) (Some l) (Some c) (Some e) = Throw ExIllegalArgument).
Proof. exact tree_format_create_spec. Qed.
Print Assumptions C03_symbol_width_validated.

Theorem C03_alignment : forall nl l c e tf o p w h out h' v,
  tree_format_create nl l c e = Ok tf -> o_tree_format o = tf ->
  sees w o v -> pretty_print o p w h = (Ok out, h') ->
  exists n t h0 s lines,
    same_width tf n /\
    scan o (location w p) w h = (Ok t, h0) /\ shows v true t s /\ lines = rows (labelled v s) /\
    out = join [c_nl] (map (fun r => row_prefix tf (fst r) ++ snd r) lines) /\
    (forall r, In r lines -> length (row_prefix tf (fst r)) = (length (fst r) * (n + 1))%nat).
Proof. exact C03_lemma. Qed.
Print Assumptions C03_alignment.

Example C03_case :
  tree_format_create (Some (js "|--")) (Some (js "`--")) (Some (js "|  ")) (Some (js "   "))
    = Ok (mkTreeFormat (js "|--") (js "`--") (js "|  ") (js "   ")) /\
  tree_format_create (Some (js "|--")) (Some (js "`-")) (Some (js "|  ")) (Some (js "   ")) = Throw ExIllegalArgument.
Proof. split; reflexivity. Qed.

(** C04. The columns of a line are read off the text itself (third part). *)
Theorem C04_connectors_never_dangle : forall o p w h out h' v n,
  sees w o v -> same_width (o_tree_format o) n -> pretty_print o p w h = (Ok out, h') ->
  exists e h0 s lines,
    scan o (location w p) w h = (Ok e, h0) /\ shows v true e s /\ lines = rows (labelled v s) /\
    out = join [c_nl] (map (row_text (o_tree_format o)) lines) /\
    (forall r j, In r lines -> (j < length (fst r))%nat ->
       slice (j * (n + 1)) n (row_text (o_tree_format o) r) = column_symbol (o_tree_format o) (column_at (fst r) j)) /\
    (forall a b j, adjacent lines a b ->
       (column_at (fst a) j = ColNonLast \/ column_at (fst a) j = ColContinuation ->
          In (column_at (fst b) j) [ColNonLast; ColLast; ColContinuation]) /\
       (column_at (fst a) j = ColLast \/ column_at (fst a) j = ColEmpty ->
          ~ In (column_at (fst b) j) [ColNonLast; ColLast; ColContinuation]) /\
       (In (column_at (fst b) j) [ColNonLast; ColLast; ColContinuation] ->
          column_at (fst a) j = ColNonLast \/ column_at (fst a) j = ColContinuation \/ j = length (fst a))).
Proof. exact print_columns. Qed.
Print Assumptions C04_connectors_never_dangle.

Example C04_case :
  same_width CLASSIC_ASCII 3 /\ sees sample_world case_options case_view /\
  is_some (result (pretty_print case_options (pth "/home/u") sample_world [])) = true.
Proof. split; [repeat split|]. split; [apply case_sees|vm_compute; reflexivity]. Qed.

(** C25. *)
Theorem C25_compaction_loses_nothing : forall o p w h out1 out2 h1 h2 v,
  sees w o v ->
  pretty_print (with_compact_directories false o) p w h = (Ok out1, h1) ->
  pretty_print (with_compact_directories true o) p w h = (Ok out2, h2) ->
  exists e h0 s1 s2,
    scan o (location w p) w h = (Ok e, h0) /\
    shows (set_compact false v) true e s1 /\ out1 = text (o_tree_format o) (labelled v s1) /\
    shows (set_compact true v) true e s2 /\ out2 = text (o_tree_format o) (labelled v s2) /\
    shown_paths s1 = shown_paths s2 /\
    (forall chain kids, s2 = SDir chain kids -> chain = [location w p]).
Proof. exact compaction_same_names. Qed.
Print Assumptions C25_compaction_loses_nothing.

Example C25_case :
  result (pretty_print (with_compact_directories false default_options) (pth "/home/u/src") sample_world []) <>
  result (pretty_print (with_compact_directories true default_options) (pth "/home/u/src") sample_world []) /\
  is_some (result (pretty_print (with_compact_directories true default_options) (pth "/home/u/src") sample_world [])) = true /\
  sees sample_world default_options plain_view.
Proof. split; [vm_compute; discriminate|]. split; [vm_compute; reflexivity|apply default_sees]. Qed.

(** C26. *)
Theorem C26_compaction_exact : forall o p w h out h' v,
  sees w o v -> v_compact v = true -> pretty_print o p w h = (Ok out, h') ->
  exists e h0 s,
    scan o (location w p) w h = (Ok e, h0) /\
    shows v true e s /\ out = text (o_tree_format o) (labelled v s) /\
    forall d c, merged_on s d c <-> v_ext v d = None /\ exists ces, inside e (EDir d [EDir c ces]).
Proof. exact compaction_exact. Qed.
Print Assumptions C26_compaction_exact.

Example C26_case :
  result (pretty_print compact_options (pth "/home/u/src") sample_world []) =
    Some (join [c_nl] [js "src/"; [9492; 9472]%N ++ js " main/java/";
                       js "   " ++ [9500; 9472]%N ++ js " A.java"; js "   " ++ [9492; 9472]%N ++ js " B.java"]) /\
  sees sample_world compact_options (set_compact true plain_view).
Proof. split; [vm_compute; reflexivity|apply compact_sees]. Qed.

(** C27: the calls made, in every world, and even if callbacks throw. Where the results appear is C01 ([labelled]). *)
Theorem C27_extension_called_once_per_path : forall tag o f p w h,
  o_line_extension o = Some (logged tag f) -> silent tag f -> silent tag (o_emoji o) ->
  silent tag (o_dir_matcher o) -> silent tag (o_file_matcher o) -> silent tag (o_child_limit o) ->
  (forall a, silent tag (o_comparator o a)) ->
  match pretty_print o p w h with
  | (Ok out, h') => exists e h0, scan o (location w p) w h = (Ok e, h0) /\
                                 calls tag h' = calls tag h ++ entry_paths e
  | (Throw _, h') => calls tag h' = calls tag h \/
                     exists e h0 k, scan o (location w p) w h = (Ok e, h0) /\
                                    calls tag h' = calls tag h ++ firstn k (entry_paths e)
  end.
Proof. exact extension_calls. Qed.
Print Assumptions C27_extension_called_once_per_path.

(** ... and a result ends the line of the path it was computed for; nothing else is appended. *)
Theorem C27_extension_ends_its_line : forall o p w h out h' v,
  sees w o v -> pretty_print o p w h = (Ok out, h') ->
  exists e h1 s,
    scan o (location w p) w h = (Ok e, h1) /\ shows v true e s /\
    out = text (o_tree_format o) (labelled v s) /\
    shown_paths s = entry_paths e /\
    length (line_paths s) = length (rows (labelled v s)) /\
    rows (labelled v s) =
      map (fun pl => add_ext (v_ext v) (fst pl) (snd pl)) (combine (line_paths s) (rows (labelled (no_ext v) s))).
Proof. exact C27_ends_lemma. Qed.
Print Assumptions C27_extension_ends_its_line.

Example C27_case :
  let o := with_line_extension (Some (logged 7 (fun p => ret (case_ext p)))) compact_options in
  silent 7 (fun p : path => ret (case_ext p)) /\ silent 7 (o_emoji o) /\ silent 7 (o_dir_matcher o) /\
  silent 7 (o_file_matcher o) /\ silent 7 (o_child_limit o) /\ (forall a, silent 7 (o_comparator o a)) /\
  calls 7 (snd (pretty_print o (pth "/home/u/src") sample_world [])) =
    [pth "/home/u/src"; pth "/home/u/src/main"; pth "/home/u/src/main/java"; pth "/home/u/src/main/java/A.java";
     pth "/home/u/src/main/java/B.java"].
Proof. cbv zeta. do 5 (split; [intros a w h; reflexivity|]). split; [intros a b w h; reflexivity|]. vm_compute. reflexivity. Qed.

(** C28. *)
Theorem C28_one_line_per_entry : forall o p w h out h' v,
  sees w o v -> v_compact v = false -> distinguishable (o_tree_format o) ->
  pretty_print o p w h = (Ok out, h') ->
  exists e h0 s,
    scan o (location w p) w h = (Ok e, h0) /\
    shows v true e s /\ out = text (o_tree_format o) (labelled v s) /\
    (labels_on_one_line (labelled v s) -> length (split_on c_nl out) = entry_count e) /\
    (forall chain kids, line_of s (SDir chain kids) -> exists d, chain = [d]).
Proof. exact plain_lines. Qed.
Print Assumptions C28_one_line_per_entry.

Example C28_case :
  sees sample_world default_options plain_view /\ distinguishable (o_tree_format default_options) /\
  option_map (fun out => length (split_on c_nl out))
             (result (pretty_print default_options (pth "/home/u") sample_world [])) = Some 10%nat.
Proof. split; [apply default_sees|]. split; [apply C02_builtin_formats|vm_compute; reflexivity]. Qed.

(** C47. *)
Theorem C47_emojis_only_prefix_labels : forall o em p w h out1 out2 h1 h2 v,
  sees w (with_emojis em o) v ->
  pretty_print (with_emojis emoji_none o) p w h = (Ok out1, h1) ->
  pretty_print (with_emojis em o) p w h = (Ok out2, h2) ->
  exists e h0 s lines,
    scan o (location w p) w h = (Ok e, h0) /\
    shows v true e s /\ lines = rows (labelled (no_emoji v) s) /\
    length lines = length (line_paths s) /\
    out1 = join [c_nl] (map (row_text (o_tree_format o)) lines) /\
    out2 = join [c_nl] (map (fun pl => row_text (o_tree_format o) (add_emoji (v_emoji v) (fst pl) (snd pl)))
                            (combine (line_paths s) lines)).
Proof. exact emoji_inserts. Qed.
Print Assumptions C47_emojis_only_prefix_labels.

Example C47_case :
  sees sample_world (with_emojis (fun p => ret (case_emoji p)) default_options)
       (mkView (fun _ => None) case_emoji false) /\
  result (pretty_print (with_emojis (fun p => ret (case_emoji p)) default_options) (pth "/home/u") sample_world []) <>
  result (pretty_print (with_emojis emoji_none default_options) (pth "/home/u") sample_world []).
Proof.
  split; [|vm_compute; discriminate]. split; [intro; reflexivity|]. split; [|reflexivity]. intros a h. exists h. reflexivity.
Qed.
