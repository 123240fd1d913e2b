(** * The trees that options documents ask for: C111-C116, C122 *)

From Verif Require Import SpecFormat DocCases DocTreeFacts DocGlobFacts KeepFacts CliRefs.
Close Scope Z_scope.

(** C111. A directory filter of type "path" with the glob "src/main/java/**" (README.md:495) keeps the directories below src/main/java. False:
    it rejects src, so that nothing below it is displayed. C112 is what holds. *)
Theorem C111_refuted : exists w dk T x out e rest,
  unix_globs w /\ steady w dk /\ distinct_names dk /\ real_listings dk /\
  x_filter x = Some (mkXFilter (XmPath (Some (js "src/main/java/**"))) XmNull) /\ x_max_depth x = None /\ x_child_limit x = None /\
  document_displayed w T x out /\ shows_document_as (w_jvm w) dk T x e out /\
  listed dk (mkPath true T) (names_of "src/main/java" ++ rest) /\ rest <> [] /\ is_dir dk (mkPath true (T ++ names_of "src/main/java" ++ rest)) /\
  forall k es, ~ at_depth k e (EDir (mkPath true (T ++ names_of "src/main/java" ++ rest)) es).
Proof. exact dir_filter_counterexample. Qed.
Print Assumptions C111_refuted.

(** C112. With a directory filter of one glob (type "name" or "path") that contains a '/' (and neither '[' nor '{') no directory is displayed
    but the root: whatever the options made of the document print is the text of a tree without other directories. *)
Theorem C112_flat : forall w dk T x f g out, unix_globs w ->
  steady w dk -> distinct_names dk -> real_listings dk -> Forall real_name T -> T <> [] -> acceptable x ->
  (x_emojis x = Some true -> forall k v, default_names k v \/ default_exts k v -> jv_lower (w_jvm w) k = k) ->
  x_filter x = Some f -> xf_dir f = XmName (Some g) \/ xf_dir f = XmPath (Some g) ->
  In c_slash g -> ~ In 91%N g -> ~ In 123%N g ->
  document_displayed w T x out ->
  exists e, shows_document_as (w_jvm w) dk T x e out /\ forall k q es, at_depth k e (EDir q es) -> k = 0.
Proof. exact flat_displayed. Qed.
Print Assumptions C112_flat.

Example C112_case : (exists out, document_displayed project_world project_names path_filter_document out) /\
  In c_slash (js "src/main/java/**") /\
  option_map readable (document_prints path_filter_document) =
    Some (readable (join [10%N] [js "p/"; js "## B.java"; js "## C.java"; js "## D.java"; js "## FileTreePrettyPrinter.java"; js "## README.md"])).
Proof.
  split; [destruct (project_displayed path_filter_document path_filter_acceptable eq_refl) as (out & _ & _ & _ & _ & D & _); now exists out|]. vm_compute. split; [tauto|reflexivity].
Qed.

(** C113. With the example options file of the README the Java files below src/main are displayed. False. C114 is what holds. *)
Theorem C113_refuted : exists w dk T out e rest,
  unix_globs w /\ steady w dk /\ distinct_names dk /\ real_listings dk /\
  document_displayed w T readme_document out /\ shows_document_as (w_jvm w) dk T readme_document e out /\
  listed dk (mkPath true T) (names_of "src/main" ++ rest) /\ ~ is_dir dk (mkPath true (T ++ names_of "src/main" ++ rest)) /\
  ending (last_name (mkPath true rest)) (js ".java") /\
  forall k c, ~ at_depth k e (EFile (mkPath true (T ++ names_of "src/main" ++ rest)) c).
Proof. exact readme_counterexample. Qed.
Print Assumptions C113_refuted.

(** C114. It displays the first three of the files directly in the directory whose names end with ".java", by name, and "..." if there are
    more; no directory. *)
Theorem C114_readme : forall w dk T out, unix_globs w ->
  steady w dk -> distinct_names dk -> real_listings dk -> Forall real_name T -> T <> [] -> is_dir dk (mkPath true T) ->
  (forall k v, default_names k v \/ default_exts k v -> jv_lower (w_jvm w) k = k) ->
  document_displayed w T readme_document out ->
  exists names order es e, d_list dk (mkPath true T) = Some names /\
    (forall p, In p order <-> exists n, In n names /\ p = mkPath true (T ++ [n]) /\ ~ is_dir dk p /\ ending n (js ".java")) /\
    (NoDup names -> NoDup order) /\
    StronglySorted (fun a b => ~ name_lt (last_name b) (last_name a)) order /\
    Forall2 (fun p c => exists k, c = EFile p k) (firstn 3 order) es /\
    e = EDir (mkPath true T) (es ++ if (3 <? length order) then [ESkipped (mkPath true T)] else []) /\
    shows_document_as (w_jvm w) dk T readme_document e out.
Proof. exact readme_displayed. Qed.
Print Assumptions C114_readme.

Example C114_case : (exists out, document_displayed project_world project_names readme_document out) /\
  option_map readable (document_prints readme_document) =
    Some (readable (join [10%N] [js "## p/"; js "## # B.java"; js "## # C.java"; js "## # D.java"; js "## ..."])).
Proof. split; [destruct (project_displayed readme_document readme_acceptable eq_refl) as (out & _ & _ & _ & _ & D & _); now exists out|]. vm_compute. reflexivity. Qed.

(** C115. The options made of a valid document print exactly the text that shows the tree of the document: the document, the disk and the
    target determine it ([follows], [tree_at], [shows] do not mention the library). *)
Theorem C115_document_text : forall w dk T x h o h1 out,
  steady w dk -> distinct_names dk -> real_listings dk -> Forall real_name T -> T <> [] -> acceptable x ->
  (x_emojis x = Some true -> forall k v, default_names k v \/ default_exts k v -> jv_lower (w_jvm w) k = k) ->
  map_to_options (mkPath true T) x w h = (Ok o, h1) ->
  (exists h2, pretty_print o (mkPath true T) w h1 = (Ok out, h2)) <-> shows_document (w_jvm w) dk T x out.
Proof. exact document_text. Qed.
Print Assumptions C115_document_text.

(** There is such a text if the globs are well formed and everything below the target can be read. *)
Theorem C115_document_shown : forall w dk T x,
  steady w dk -> Forall real_name T -> T <> [] -> acceptable x ->
  (x_emojis x = Some true -> forall k v, default_names k v \/ default_exts k v -> jv_lower (w_jvm w) k = k) ->
  (forall g, In g (all_globs x) -> good_glob (w_jvm w) g) -> all_can_be_read dk (mkPath true T) ->
  exists out, shows_document (w_jvm w) dk T x out.
Proof. exact document_shown. Qed.
Print Assumptions C115_document_shown.

Example C115_case : steady project_world project_disk /\ distinct_names project_disk /\ real_listings project_disk /\
  Forall real_name project_names /\ acceptable rich_document /\ all_can_be_read project_disk (mkPath true project_names) /\
  (forall k v, default_names k v \/ default_exts k v -> jv_lower (w_jvm project_world) k = k) /\
  (forall g, In g (all_globs rich_document) -> good_glob (w_jvm project_world) g) /\
  option_map readable (document_prints rich_document) =
    Some (readable (join [10%N] [js "p/"; js "## B.java"; js "## C.java"; js "## ..."])).
Proof.
  split; [exact project_steady|]. split; [exact project_distinct|]. split; [exact project_real|]. split; [exact project_real_names|].
  split; [now apply DocFacts.valid_options_iff|]. split; [exact project_readable|]. split; [exact unix_lower|].
  split; [exact (good_globs rich_document eq_refl)|]. vm_compute. reflexivity.
Qed.

(** C116. The command, from the command line to standard output: with the chosen options file (or none) it writes the text that shows the tree
    of the document, its specifiers replaced ([written_as], C121), and a line separator, and exits with 0; it exits with 1 and reports the failure
    on standard error if the text cannot be written so, and, writing nothing to standard output, if a glob is malformed or there is no such
    text (something cannot be read). *)
Theorem C116_command : forall w fs a T ex sel x dk s,
  steady_files w fs -> usual_linesep (cw_linesep w) -> a_debug a = false ->
  resolved (jv_cwd (w_jvm (cw_world w))) (asked_target a) T -> f_exists fs T = true ->
  chooses w fs a T ex sel -> followed sel x ->
  steady (cw_world w) dk -> distinct_names dk -> real_listings dk -> Forall real_name (p_names T) -> p_names T <> [] ->
  let j := w_jvm (cw_world w) in
  (x_emojis x = Some true -> forall k v, default_names k v \/ default_exts k v -> jv_lower j k = k) ->
  let code := fst (run_cli a w s) in
  let s' := snd (run_cli a w s) in
  (forall text, (forall g, In g (all_globs x) -> good_glob j g) -> shows_document j dk (p_names T) x text ->
     (forall out, written_as (cw_linesep w) text out -> code = 0%Z /\ cs_out s' = cs_out s ++ out ++ cw_linesep w /\ cs_err s' = cs_err s) /\
     ((forall out, ~ written_as (cw_linesep w) text out) ->
        code = 1%Z /\ (exists b, begun (cw_linesep w) text b /\ cs_out s' = cs_out s ++ b) /\
        exists err, error_output w (js "Error while pretty printing: " ++ cw_message w (XFormat (text ++ cw_linesep w))) err /\
          cs_err s' = cs_err s ++ err)) /\
  (~ ((forall g, In g (all_globs x) -> good_glob j g) /\ exists text, shows_document j dk (p_names T) x text) ->
     code = 1%Z /\ cs_out s' = cs_out s /\ exists msg err, error_output w msg err /\ cs_err s' = cs_err s ++ err).
Proof. exact command_document. Qed.
Print Assumptions C116_command.

Example C116_case : let fs := case_files [(pth "/home/u/p/.prettyprint", LoadDoc readme_document)] [pth "/home/u/p"] in
  let w := case_cli project_world fs in let a := mkArgs (Some (pth "p")) None false in
  resolved (jv_cwd (w_jvm (cw_world w))) (asked_target a) (pth "/home/u/p") /\
  chooses w fs a (pth "/home/u/p") [(pth "/home/u/p/.prettyprint")] (UseDocument readme_document) /\
  fst (run_cli a w cli_start) = 0%Z /\
  option_map readable (document_prints readme_document) = Some (readable (removelast (cs_out (snd (run_cli a w cli_start))))).
Proof.
  intros fs w a. split; [apply (name_resolved "p"); vm_compute; reflexivity|]. split; [|vm_compute; split; reflexivity].
  apply (ch_fallback _ _ _ _ (pth "/home/u/.prettyprint") (pth "/r/.prettyprint")); [reflexivity| | |].
  - apply (name_resolved ".prettyprint"). vm_compute. reflexivity.
  - apply (plain_resolved _ (pth "/r/.prettyprint")); vm_compute; reflexivity.
  - apply fe_use, DocFacts.is_good; vm_compute; reflexivity.
Qed.

(** C122. How to keep one directory: a directory filter "anyOf" that names every directory on the way to [d] and "[d]/**" (by globs of type "path")
    displays exactly the directories on the way to [d], [d], and those below it down to the maximal depth, without following links; and exactly
    the files in these that the file filter accepts. Below [d], up to the first name with a line terminator. *)
Theorem C122_kept_directories : forall w dk T x f d l out, unix_globs w ->
  steady w dk -> distinct_names dk -> real_listings dk -> Forall real_name T -> T <> [] -> is_dir dk (mkPath true T) -> acceptable x ->
  (x_emojis x = Some true -> forall k v, default_names k v \/ default_exts k v -> jv_lower (w_jvm w) k = k) ->
  x_filter x = Some f -> xf_dir f = XmAnyOf (Some (map (fun g => XmPath (Some g)) l)) -> names_the_way d l -> Forall real_name d -> d <> [] ->
  x_child_limit x = None ->
  document_displayed w T x out ->
  exists st v e s, follows (w_jvm w) dk T x st v /\ tree_at st dk 0 (mkPath true T) e /\ shows v true e s /\
    out = text (o_tree_format default_options) (labelled v s) /\
    (forall q, is_dir dk q -> In q (shown_paths s) <->
       exists rest, q = mkPath true (T ++ rest) /\ folders dk (mkPath true T) rest /\ on_the_way d rest /\
         (rest = [] \/ (Z.of_nat (length rest) <= depth_of x)%Z)) /\
    (forall q, ~ is_dir dk q -> In q (shown_paths s) <->
       exists rest names n, q = mkPath true (T ++ rest ++ [n]) /\ folders dk (mkPath true T) rest /\ on_the_way d rest /\
         (Z.of_nat (length rest) < depth_of x)%Z /\ d_list dk (mkPath true (T ++ rest)) = Some names /\ In n names /\
         meaning (w_jvm w) T (rest ++ [n]) (xf_file f) = true).
Proof. exact kept_displayed. Qed.
Print Assumptions C122_kept_directories.

Example C122_case : (exists out, document_displayed project_world project_names way_document out) /\
  names_the_way (names_of "src/main") way_globs /\ is_dir project_disk (mkPath true project_names) /\ acceptable way_document /\
  option_map readable (document_prints way_document) =
    Some (readable (join [10%N] [js "p/"; js "## B.java"; js "## C.java"; js "## D.java"; js "## FileTreePrettyPrinter.java"; js "## src/"; js "   ## main/";
      js "      ## java/"; js "         ## App.java"; js "         ## api/"])).
Proof.
  split; [destruct (project_displayed way_document way_acceptable eq_refl) as (out & _ & _ & _ & _ & D & _); now exists out|].
  split; [exact way_named|]. split; [reflexivity|]. split; [exact way_acceptable|]. vm_compute. reflexivity.
Qed.
