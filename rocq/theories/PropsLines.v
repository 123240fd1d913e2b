(** * Two texts that differ by a line *)

From Verif Require Import SpecLines LinesFacts ScanPrintFacts Cases LinesCases.
Close Scope Z_scope.

(** C171. If its directory has no child limit that takes effect, a file that is displayed in one of two file systems and missing in the other, all else being equal, makes a difference of one line:
    its own. If it is the last in its directory, the lines of the entry before it get the connectors of a last entry, and keep their labels; otherwise no other line
    changes. (With compaction, unless its directory is merged with another one when it is missing.) *)
Theorem C171_one_file_one_line : forall o p w1 w2 h out h' v dk1 dk2 st f e,
  steady w1 dk1 -> steady w2 dk2 -> w_jvm w1 = w_jvm w2 -> distinct_names dk1 -> distinct_names dk2 ->
  uses w1 o st -> uses w2 o st -> sees w1 o v -> sees w2 o v -> configured_order (s_cmp st) -> roomy st (path_eqb f) dk1 ->
  deleted (path_eqb f) dk1 dk2 -> f <> location w1 p -> tree_at st dk1 0 (location w1 p) e -> In f (entry_paths e) -> ~ is_dir dk1 f ->
  merges_nothing st dk1 v (location w1 p) f ->
  pretty_print o p w1 h = (Ok out, h') ->
  exists above beside flags k below,
    d_attr dk1 f = Some k /\
    out = lines (o_tree_format o) (above ++ beside ++ (flags, emoji_str v f ++ last_name f ++ kind_mark k ++ opt_str (v_ext v f)) :: below) /\
    (forall h2, exists h2', pretty_print o p w2 h2 = (Ok (lines (o_tree_format o) (above ++ map (now_last (length flags)) beside ++ below)), h2')) /\
    flags <> [] /\ (last flags true = false -> beside = []) /\
    Forall (fun r => length flags <= length (fst r) /\ nth (length flags - 1) (fst r) true = false) beside.
Proof. exact one_line. Qed.
Print Assumptions C171_one_file_one_line.

(** With compaction; the file "B.java" is the last of its directory, and "A.java" becomes the last. *)
Example C171_case :
  steady sample_world sample_disk /\ steady left_world left_disk /\ w_jvm sample_world = w_jvm left_world /\ distinct_names sample_disk /\ distinct_names left_disk /\
  uses sample_world compact_options default_settings /\ uses left_world compact_options default_settings /\
  sees sample_world compact_options (set_compact true plain_view) /\ sees left_world compact_options (set_compact true plain_view) /\
  configured_order (s_cmp default_settings) /\ roomy default_settings (path_eqb leaving) sample_disk /\
  deleted (path_eqb leaving) sample_disk left_disk /\ leaving <> location sample_world (pth "/home/u") /\
  tree_at default_settings sample_disk 0 (location sample_world (pth "/home/u")) sample_entry /\ In leaving (entry_paths sample_entry) /\ ~ is_dir sample_disk leaving /\
  merges_nothing default_settings sample_disk (set_compact true plain_view) (location sample_world (pth "/home/u")) leaving /\
  result (pretty_print compact_options (pth "/home/u") sample_world []) = Some (lines UNICODE_BOX_DRAWING
    ([([], js "u/"); ([false], js "Zoo"); ([false], js "a/"); ([false], js "b.txt"); ([false], js "link"); ([true], js "src/main/java/")] ++
     [([true; false], js "A.java")] ++ [([true; true], js "B.java")])) /\
  result (pretty_print compact_options (pth "/home/u") left_world []) = Some (lines UNICODE_BOX_DRAWING
    ([([], js "u/"); ([false], js "Zoo"); ([false], js "a/"); ([false], js "b.txt"); ([false], js "link"); ([true], js "src/main/java/")] ++
     [([true; true], js "A.java")])).
Proof.
  split; [exact sample_steady|]. split; [apply left_steady|]. split; [reflexivity|]. split; [exact sample_distinct|]. split; [exact left_distinct|].
  split; [apply default_uses|]. split; [apply default_uses|]. split; [apply compact_sees|]. split; [apply compact_sees|].
  split; [exact (configured_of _ _ _ (default_uses sample_world) (or_introl eq_refl))|]. split; [intros q names n; now left|]. split; [exact left_deleted|]. split; [discriminate|].
  split; [exact sample_entry_tree|]. split; [do 9 right; left; reflexivity|]. split; [discriminate|]. split; [exact left_merges|]. split; vm_compute; reflexivity.
Qed.

(** With a child limit that takes effect in another directory ("java"), and just does not in that of the file "Zoo", which is not the last. *)
Example C171_limited_case :
  steady sample_world sample_disk /\ steady zoo_world zoo_disk /\ w_jvm sample_world = w_jvm zoo_world /\ distinct_names sample_disk /\ distinct_names zoo_disk /\
  uses sample_world few_options few_settings /\ uses zoo_world few_options few_settings /\ sees sample_world few_options plain_view /\ sees zoo_world few_options plain_view /\
  configured_order (s_cmp few_settings) /\ roomy few_settings (path_eqb zoo) sample_disk /\
  deleted (path_eqb zoo) sample_disk zoo_disk /\ zoo <> location sample_world (pth "/home/u") /\
  tree_at few_settings sample_disk 0 (location sample_world (pth "/home/u")) few_entry /\ In zoo (entry_paths few_entry) /\ ~ is_dir sample_disk zoo /\
  merges_nothing few_settings sample_disk plain_view (location sample_world (pth "/home/u")) zoo /\
  result (pretty_print few_options (pth "/home/u") sample_world []) = Some (lines UNICODE_BOX_DRAWING
    ([([], js "u/")] ++ [] ++ [([false], js "Zoo")] ++
     [([false], js "a/"); ([false], js "b.txt"); ([false], js "link"); ([true], js "src/"); ([true; true], js "main/"); ([true; true; true], js "java/");
      ([true; true; true; false], js "A.java"); ([true; true; true; true], js "...")])) /\
  result (pretty_print few_options (pth "/home/u") zoo_world []) = Some (lines UNICODE_BOX_DRAWING
    ([([], js "u/")] ++
     [([false], js "a/"); ([false], js "b.txt"); ([false], js "link"); ([true], js "src/"); ([true; true], js "main/"); ([true; true; true], js "java/");
      ([true; true; true; false], js "A.java"); ([true; true; true; true], js "...")])).
Proof.
  split; [exact sample_steady|]. split; [apply zoo_steady|]. split; [reflexivity|]. split; [exact sample_distinct|]. split; [exact zoo_distinct|].
  split; [apply few_uses|]. split; [apply few_uses|]. split; [apply default_sees|]. split; [apply default_sees|].
  split; [exact (configured_of _ _ _ (default_uses sample_world) (or_introl eq_refl))|]. split; [exact zoo_roomy|]. split; [exact zoo_deleted|]. split; [discriminate|].
  split; [exact few_entry_tree|]. split; [right; left; reflexivity|]. split; [discriminate|]. split; [discriminate|]. split; vm_compute; reflexivity.
Qed.

(** C172. If its directory has no child limit that takes effect, an entry that is displayed in one of two file systems and is missing, with what is below it, in the other, all else being equal, makes a
    difference of the lines that display it and what is below it, which are consecutive. If it is the last in its directory, the lines of the entry before it, and of
    what is below that one, get the connectors of a last entry, and keep their labels; otherwise no other line changes. (With compaction, unless its directory is
    merged with another one, with or without it.) *)
Theorem C172_one_entry_one_block : forall o p w1 w2 h out h' v dk1 dk2 st f gone e,
  steady w1 dk1 -> steady w2 dk2 -> w_jvm w1 = w_jvm w2 -> distinct_names dk1 -> distinct_names dk2 ->
  uses w1 o st -> uses w2 o st -> sees w1 o v -> sees w2 o v -> configured_order (s_cmp st) -> roomy st gone dk1 ->
  (forall q, gone q = true <-> below f q) -> deleted gone dk1 dk2 ->
  f <> location w1 p -> tree_at st dk1 0 (location w1 p) e -> In f (entry_paths e) ->
  stands_alone st dk1 v (location w1 p) f ->
  pretty_print o p w1 h = (Ok out, h') ->
  exists above beside flags d ef sf below,
    tree_at st dk1 d f ef /\ shows v false ef sf /\
    out = lines (o_tree_format o) (above ++ beside ++ map (placed flags) (rows (labelled v sf)) ++ below) /\
    (forall h2, exists h2', pretty_print o p w2 h2 = (Ok (lines (o_tree_format o) (above ++ map (now_last (length flags)) beside ++ below)), h2')) /\
    flags <> [] /\ (last flags true = false -> beside = []) /\
    Forall (fun r => length flags <= length (fst r) /\ nth (length flags - 1) (fst r) true = false) beside.
Proof. exact one_block. Qed.
Print Assumptions C172_one_entry_one_block.

(** With compaction; the directory "src" is the last of its directory, and "link" becomes the last. *)
Example C172_case :
  steady sample_world sample_disk /\ steady bare_world bare_disk /\ w_jvm sample_world = w_jvm bare_world /\ distinct_names sample_disk /\ distinct_names bare_disk /\
  uses sample_world compact_options default_settings /\ uses bare_world compact_options default_settings /\
  sees sample_world compact_options (set_compact true plain_view) /\ sees bare_world compact_options (set_compact true plain_view) /\
  configured_order (s_cmp default_settings) /\ roomy default_settings in_leaving sample_disk /\
  (forall q, in_leaving q = true <-> below leaving_dir q) /\ deleted in_leaving sample_disk bare_disk /\ leaving_dir <> location sample_world (pth "/home/u") /\
  tree_at default_settings sample_disk 0 (location sample_world (pth "/home/u")) sample_entry /\ In leaving_dir (entry_paths sample_entry) /\
  stands_alone default_settings sample_disk (set_compact true plain_view) (location sample_world (pth "/home/u")) leaving_dir /\
  result (pretty_print compact_options (pth "/home/u") sample_world []) = Some (lines UNICODE_BOX_DRAWING
    ([([], js "u/"); ([false], js "Zoo"); ([false], js "a/"); ([false], js "b.txt")] ++ [([false], js "link")] ++
     map (placed [true]) [([], js "src/main/java/"); ([false], js "A.java"); ([true], js "B.java")])) /\
  result (pretty_print compact_options (pth "/home/u") bare_world []) = Some (lines UNICODE_BOX_DRAWING
    ([([], js "u/"); ([false], js "Zoo"); ([false], js "a/"); ([false], js "b.txt")] ++ map (now_last 1) [([false], js "link")])).
Proof.
  split; [exact sample_steady|]. split; [apply bare_steady|]. split; [reflexivity|]. split; [exact sample_distinct|]. split; [exact bare_distinct|].
  split; [apply default_uses|]. split; [apply default_uses|]. split; [apply compact_sees|]. split; [apply compact_sees|].
  split; [exact (configured_of _ _ _ (default_uses sample_world) (or_introl eq_refl))|]. split; [intros q names n; now left|]. split; [exact in_leaving_below|]. split; [exact bare_deleted|].
  split; [discriminate|]. split; [exact sample_entry_tree|]. split; [do 5 right; left; reflexivity|]. split; [exact bare_alone|]. split; vm_compute; reflexivity.
Qed.
