(** * The command line: C51-C58, C75-C78, C81-C83

    [resolved cwd p q]: [q] is the absolute normalized form of [p]. Debug mode is off except where [a] is unrestricted. *)

From Verif Require Import SpecCli DocFacts CliCases CliFacts DebugFacts MapFacts TextFacts DumpFacts CliRefs.
From Coq Require Import Sorting.Sorted.
Close Scope Z_scope.

(** C51. On success the text of the tree and a line separator are printed and nothing else. False: the text is used as a format string. With
    a file named "100%" nothing is printed and the exit code is 1; with a file named "50%n.txt" another text is printed, with exit code 0.
    C75 says when the claim holds. *)
Theorem C51_refuted :
  (exists w fs a T text h,
     steady_files w fs /\ no_percent (cw_linesep w) /\ a_debug a = false /\ a_options a = None /\
     resolved (jv_cwd (w_jvm (cw_world w))) (asked_target a) T /\ f_exists fs T = true /\
     (exists ex, chooses w fs a T ex UseDefault) /\
     pretty_print default_options T (cw_world w) [] = (Ok text, h) /\
     fst (run_cli a w cli_start) = 1%Z /\ cs_out (snd (run_cli a w cli_start)) = []) /\
  (exists w fs a T text h,
     steady_files w fs /\ no_percent (cw_linesep w) /\ a_debug a = false /\ a_options a = None /\
     resolved (jv_cwd (w_jvm (cw_world w))) (asked_target a) T /\ f_exists fs T = true /\
     (exists ex, chooses w fs a T ex UseDefault) /\
     pretty_print default_options T (cw_world w) [] = (Ok text, h) /\
     fst (run_cli a w cli_start) = 0%Z /\ cs_out (snd (run_cli a w cli_start)) <> text ++ cw_linesep w).
Proof. exact C51_lemma. Qed.
Print Assumptions C51_refuted.

(** C75. [o] are the options in effect (C52) and the library returns [text] for them: the exit code is 0 or 1; if [text] contains no '%', it is
    0, the text and a line separator are written to standard output and nothing to standard error. If [text] contains a '%', the run is never
    that: it fails or the text is printed with changes. *)
Theorem C75_printed_text : forall w fs a T ex sel s o h' text h'',
  steady_files w fs -> no_percent (cw_linesep w) -> a_debug a = false ->
  resolved (jv_cwd (w_jvm (cw_world w))) (asked_target a) T -> f_exists fs T = true ->
  chooses w fs a T ex sel -> effective w T (cs_hist s) sel o h' -> pretty_print o T (cw_world w) h' = (Ok text, h'') ->
  let code := fst (run_cli a w s) in
  let s' := snd (run_cli a w s) in
  (code = 0%Z \/ code = 1%Z) /\
  (code = 0%Z /\ cs_out s' = cs_out s ++ text ++ cw_linesep w /\ cs_err s' = cs_err s <-> ~ In c_percent text).
Proof. exact C75_lemma. Qed.
Print Assumptions C75_printed_text.

Example C75_case :
  let w := case_cli sample_world home_files in
  chooses w home_files target_args (pth "/home/u") home_places UseDefault /\
  effective w (pth "/home/u") [] UseDefault default_options [] /\
  fst (run_cli target_args w cli_start) = 0%Z /\
  fst (pretty_print default_options (pth "/home/u") (cw_world w) []) = Ok (removelast (cs_out (snd (run_cli target_args w cli_start)))).
Proof.
  split; [apply chooses_home; [reflexivity|]; repeat constructor|]. split; [constructor|]. vm_compute. split; reflexivity.
Qed.

(** C52. Exactly one choice among the options files, as [chooses] says: an explicit file alone, else the first existing one of
    <target>/.prettyprint, ./.prettyprint, <home>/.prettyprint. *)
Theorem C52_one_choice : forall w fs a T, exists ex sel, chooses w fs a T ex sel /\
  forall ex' sel', chooses w fs a T ex' sel' -> ex' = ex /\ sel' = sel.
Proof. exact one_choice. Qed.
Print Assumptions C52_one_choice.

(** If the choice is refused (explicit file missing, chosen file defective), the library is not called, nothing is written to standard output,
    the exit code is 1. No file other than the target and those examined is looked at. *)
Theorem C52_refused : forall w fs a T ex msg s,
  steady_files w fs -> no_percent (cw_linesep w) -> a_debug a = false ->
  resolved (jv_cwd (w_jvm (cw_world w))) (asked_target a) T -> f_exists fs T = true ->
  chooses w fs a T ex (Refuse msg) ->
  exists s' new, run_cli a w s = (1%Z, s') /\ cs_out s' = cs_out s /\
    cs_events s' = new ++ cs_events s /\ Forall (fun e => In (event_path e) (T :: ex) /\ forall p, e <> CPrint p) new.
Proof. exact C52_refused_lemma. Qed.
Print Assumptions C52_refused.

(** Otherwise the library prints the target once, with the default options or those of the chosen document, and that is what is written;
    no file other than the target and those examined is looked at. *)
Theorem C52_chosen : forall w fs a T ex sel s o h' text h'',
  steady_files w fs -> no_percent (cw_linesep w) -> a_debug a = false ->
  resolved (jv_cwd (w_jvm (cw_world w))) (asked_target a) T -> f_exists fs T = true ->
  chooses w fs a T ex sel -> effective w T (cs_hist s) sel o h' -> pretty_print o T (cw_world w) h' = (Ok text, h'') ->
  let s' := snd (run_cli a w s) in
  cs_hist s' = h'' /\
  (exists new, cs_events s' = CPrint T :: new ++ cs_events s /\
     Forall (fun e => In (event_path e) (T :: ex) /\ forall p, e <> CPrint p) new) /\
  (~ In c_percent text -> cs_out s' = cs_out s ++ text ++ cw_linesep w).
Proof. exact C52_chosen_lemma. Qed.
Print Assumptions C52_chosen.

(** Fallbacks: the home directory's file is used when the others are missing; a defective file hides the later ones. *)
Example C52_case_home : let fs := case_files [(pth "/r/.prettyprint", LoadDoc shallow_document)] [pth "/home/u"] in
  chooses (case_cli sample_world fs) fs target_args (pth "/home/u") home_places (UseDocument shallow_document).
Proof.
  apply chooses_home; [reflexivity|]. apply fe_skip; [vm_compute; reflexivity|]. apply fe_skip; [vm_compute; reflexivity|].
  apply fe_use, is_good; vm_compute; reflexivity.
Qed.
Example C52_case_defective :
  let fs := case_files [(pth "/home/u/.prettyprint", LoadDoc invalid_document); (pth "/r/.prettyprint", LoadDoc shallow_document)] [pth "/home/u"] in
  let w := case_cli sample_world fs in
  chooses w fs target_args (pth "/home/u") [pth "/home/u/.prettyprint"]
    (Refuse (js "Invalid options file:" ++ cw_linesep w ++ cw_violations w invalid_document)) /\
  fst (run_cli target_args w cli_start) = 1%Z.
Proof.
  split; [|vm_compute; reflexivity]. apply chooses_home; [reflexivity|]. apply fe_refuse.
  apply (df_invalid _ _ _ invalid_document); [..|now apply invalid_options_iff]; vm_compute; reflexivity.
Qed.

(** C53. "Beside the executable" is not looked at: here the only options file is beside the executable, and the default options are used. *)
Theorem C53_refuted : exists w fs a T x documented,
  steady_files w fs /\ a_debug a = false /\ a_options a = None /\ resolved (jv_cwd (w_jvm (cw_world w))) (asked_target a) T /\
  f_exists fs T = true /\
  (forall d, In d [T; mkPath true (jv_cwd (w_jvm (cw_world w))); cw_home w] -> f_exists fs (child d (js ".prettyprint")) = false) /\
  good fs (child (cw_exe_dir w) (js ".prettyprint")) x /\
  (exists o h, map_to_options T x (cw_world w) [] = (Ok o, h) /\ fst (pretty_print o T (cw_world w) h) = Ok documented) /\
  fst (run_cli a w cli_start) = 0%Z /\ cs_out (snd (run_cli a w cli_start)) <> documented ++ cw_linesep w /\
  fst (pretty_print default_options T (cw_world w) []) = Ok (removelast (cs_out (snd (run_cli a w cli_start)))).
Proof. exact C53_lemma. Qed.
Print Assumptions C53_refuted.

(** C78. A document passes the validation exactly if nothing that is required is missing ([acceptable]). *)
Theorem C78_accepted_documents : forall x w s,
  (acceptable x <-> fst (validate (Some x) w s) = COk x) /\
  (~ acceptable x <-> fst (validate (Some x) w s) = CThrow (XViolations x)) /\
  snd (validate (Some x) w s) = s.
Proof. exact C78_lemma. Qed.
Print Assumptions C78_accepted_documents.

(** Accepted: a document without any field; one with every field; one with a malformed glob (C55). Refused: a limit without a number; a
    combination of no matchers. *)
Example C78_case : acceptable empty_document /\ acceptable rich_document /\ acceptable bad_glob_document /\ ~ acceptable invalid_document /\
  ~ acceptable (mkXOptions None None None None (Some (mkXFilter XmNull (XmAnyOf (Some [])))) None).
Proof. do 3 (split; [now apply valid_options_iff|]). split; now apply invalid_options_iff. Qed.

(** C54. The options made of a document mean what the document says, first match in file order ([fun _ => true]: every matching item stops the
    search). False: a matching item with a negative limit (no limit) does not stop the search for a limit. C77 is what holds. *)
Theorem C54_refuted : exists w T x o h, p_abs T = true /\ acceptable x /\ x_emojis x = None /\
  map_to_options T x w [] = (Ok o, h) /\ ~ does_what (w_jvm w) w T (fun _ => true) x o.
Proof. exact C54_counterexample. Qed.
Print Assumptions C54_refuted.

(** C77. The options made of a valid document: [does_what] spells out every field; the limit is that of the first matching item whose limit is
    not negative, if any, else there is no limit. Paths are those of the tree below the target [T]. The locale leaves the keys of the default
    emojis unchanged when emojis are on (C48, C73). *)
Theorem C77_document_meaning : forall w T x h o h',
  p_abs T = true -> acceptable x ->
  (x_emojis x = Some true -> forall k v, default_names k v \/ default_exts k v -> jv_lower (w_jvm w) k = k) ->
  map_to_options T x w h = (Ok o, h') -> h' = h /\ does_what (w_jvm w) w T (fun n => (0 <=? n)%Z) x o.
Proof. exact C77_lemma. Qed.
Print Assumptions C77_document_meaning.

(** Where no item has a negative limit, every matching item stops the search, as C54 claims. *)
Theorem C77_no_negative_limit : forall w T x h o h',
  p_abs T = true -> acceptable x ->
  (x_emojis x = Some true -> forall k v, default_names k v \/ default_exts k v -> jv_lower (w_jvm w) k = k) ->
  (forall l n m, x_child_limit x = Some (XDynamic (Some l)) -> In (Some (mkXItem (Some n) m)) l -> (0 <= n)%Z) ->
  map_to_options T x w h = (Ok o, h') -> does_what (w_jvm w) w T (fun _ => true) x o.
Proof. exact C77_no_negative_lemma. Qed.
Print Assumptions C77_no_negative_limit.

Example C77_case : acceptable rich_document /\
  let fs := case_files [(pth "/home/u/.prettyprint", LoadDoc rich_document)] [pth "/home/u"] in
  (exists o, map_to_options (pth "/home/u") rich_document sample_world [] = (Ok o, [])) /\
  fst (run_cli target_args (case_cli sample_world fs) cli_start) = 0%Z /\
  meaning sample_jvm (names_of "home/u") (names_of "src") (XmAllOf (Some [XmPath (Some (js "src")); XmTrue])) = true /\
  meaning sample_jvm (names_of "home/u") (names_of "b.txt") (xf_file (mkXFilter XmNull
    (XmAnyOf (Some [XmName (Some (js "*.java")); XmNoneOf (Some [XmPath (Some (js "b.txt")); XmFalse])])))) = false.
Proof.
  split; [now apply valid_options_iff|]. split; [eexists; vm_compute; reflexivity|]. vm_compute. repeat split.
Qed.

(** C55. Mapping a valid document succeeds exactly if all its globs are well formed ("*" always is); otherwise the exception is that of a
    malformed glob. The history shows that nothing is read. *)
Theorem C55_mapping_succeeds : forall w T x h,
  p_abs T = true -> acceptable x ->
  (x_emojis x = Some true -> forall k v, default_names k v \/ default_exts k v -> jv_lower (w_jvm w) k = k) ->
  exists r, map_to_options T x w h = (r, h) /\
    ((exists o, r = Ok o) <-> forall g, In g (all_globs x) -> g = js "*" \/ jv_glob (w_jvm w) g <> None) /\
    (forall e, r = Throw e -> exists g, e = ExPatternSyntax g /\ jv_glob (w_jvm w) g = None).
Proof. exact C55_lemma. Qed.
Print Assumptions C55_mapping_succeeds.

Example C55_case :
  all_globs rich_document = [js "src"; js "*.java"; js "b.txt"; js "src"] /\
  valid_options bad_glob_document = true /\
  map_to_options (pth "/home/u") bad_glob_document sample_world [] = (Throw (ExPatternSyntax (js "[")), []) /\
  (* without validation: a null dereference *)
  map_to_options (pth "/home/u") invalid_document sample_world [] = (Throw ExNullPointer, []).
Proof. vm_compute. repeat split. Qed.

(** C56. A failing command prints "[ERROR] " and its message and exits with 1. False: the message is used as a format string; here the explicit
    options file "100%.yml" does not exist and the message is not printed. C76 is what holds. *)
Theorem C56_refuted : exists w fs a T ex msg,
  steady_files w fs /\ no_percent (cw_linesep w) /\ a_debug a = false /\
  resolved (jv_cwd (w_jvm (cw_world w))) (asked_target a) T /\ f_exists fs T = true /\
  chooses w fs a T ex (Refuse msg) /\
  cs_err (snd (run_cli a w cli_start)) <> js "[ERROR] " ++ msg ++ cw_linesep w.
Proof. exact C56_lemma. Qed.
Print Assumptions C56_refuted.

(** C76. In all circumstances, debug mode or not, the exit code is 0 or 1. *)
Theorem C76_exit_code : forall a w s, fst (run_cli a w s) = 0%Z \/ fst (run_cli a w s) = 1%Z.
Proof. exact exit_code. Qed.
Print Assumptions C76_exit_code.

(** When the options are refused or cannot be mapped, or the library throws: the exit code is 1, nothing is written to standard output, and
    if the message contains no '%', standard error gets "[ERROR] ", the message and a line separator. *)
Theorem C76_failures : forall w fs a T ex sel s msg,
  steady_files w fs -> no_percent (cw_linesep w) -> a_debug a = false ->
  resolved (jv_cwd (w_jvm (cw_world w))) (asked_target a) T -> f_exists fs T = true ->
  chooses w fs a T ex sel -> fails w T (cs_hist s) sel msg ->
  exists s', run_cli a w s = (1%Z, s') /\ cs_out s' = cs_out s /\
    (~ In c_percent msg -> cs_err s' = cs_err s ++ js "[ERROR] " ++ msg ++ cw_linesep w).
Proof. exact C76_lemma. Qed.
Print Assumptions C76_failures.

Example C76_case :
  let fs := case_files [(pth "/r/.prettyprint", LoadDoc bad_glob_document)] [pth "/home/u"] in
  let w := case_cli sample_world fs in
  fails w (pth "/home/u") [] (UseDocument bad_glob_document) (js "Error while pretty printing: bad glob [") /\
  readable (cs_err (snd (run_cli target_args w cli_start))) = readable (js "[ERROR] Error while pretty printing: bad glob [" ++ [10%N]).
Proof.
  intros fs w. split; [|vm_compute; reflexivity].
  change (js "Error while pretty printing: bad glob [") with
    (js "Error while pretty printing: " ++ cw_message w (XLibrary (ExPatternSyntax (js "[")))).
  apply (fl_mapping _ _ _ bad_glob_document (ExPatternSyntax (js "[")) []); [vm_compute; reflexivity|]. apply sy_other. discriminate.
Qed.

(** C57. A missing target: one question to the file system and one message; no options file is looked at, the library is not called.
    Nothing is assumed of the rest of the file system, nor of the characters of the path. *)
Theorem C57_missing_target : forall w a T s,
  no_percent (cw_linesep w) -> a_debug a = false ->
  resolved (jv_cwd (w_jvm (cw_world w))) (asked_target a) T -> cw_exists w s T = false ->
  run_cli a w s = (1%Z, mkCState (CExists T :: cs_events s) (cs_hist s) (cs_out s)
                          (cs_err s ++ js "[ERROR] Path not found: " ++ path_str T ++ cw_linesep w)).
Proof. exact C57_lemma. Qed.
Print Assumptions C57_missing_target.

Example C57_case : let w := case_cli sample_world (case_files [] []) in
  resolved (jv_cwd (w_jvm (cw_world w))) (asked_target (mkArgs (Some (pth "/100%/s")) None false)) (pth "/100%/s") /\
  readable (cs_err (snd (run_cli (mkArgs (Some (pth "/100%/s")) None false) w cli_start))) =
  readable (js "[ERROR] Path not found: /100%/s" ++ [10%N]).
Proof. split; [apply plain_resolved; vm_compute; reflexivity|vm_compute; reflexivity]. Qed.

(** C81. Debug mode only adds lines to standard output: the exit code and the tree are the same. False: some messages are used as format
    strings; here the target is below a directory named "100%". C82 is what holds. *)
Theorem C81_refuted : exists w fs T text,
  steady_files w fs /\ no_percent (cw_linesep w) /\ resolved (jv_cwd (w_jvm (cw_world w))) T T /\ f_exists fs T = true /\
  fst (run_cli (mkArgs (Some T) None false) w cli_start) = 0%Z /\ cs_out (snd (run_cli (mkArgs (Some T) None false) w cli_start)) = text /\
  text <> [] /\
  fst (run_cli (mkArgs (Some T) None true) w cli_start) = 1%Z /\
  ~ exists before, cs_out (snd (run_cli (mkArgs (Some T) None true) w cli_start)) = before ++ text.
Proof. exact C81_lemma. Qed.
Print Assumptions C81_refuted.

(** C82. If the paths of the target and of the home directory contain no '%', or an options file is given: debug mode has the same exit code,
    the same accesses and the same standard error, and standard output is the messages ([reported]) followed by what is written without it. *)
Theorem C82_debug_adds_lines : forall w fs t o T s,
  steady_files w fs -> no_percent (cw_linesep w) ->
  resolved (jv_cwd (w_jvm (cw_world w))) (asked_target (mkArgs t o false)) T ->
  (o = None -> f_exists fs T = true -> Forall no_percent (p_names T ++ p_names (cw_home w))) ->
  exists msgs text, reported w fs (mkArgs t o true) T msgs /\
    let plain := run_cli (mkArgs t o false) w s in let debug := run_cli (mkArgs t o true) w s in
    fst debug = fst plain /\ cs_events (snd debug) = cs_events (snd plain) /\ cs_hist (snd debug) = cs_hist (snd plain) /\
    cs_err (snd debug) = cs_err (snd plain) /\
    cs_out (snd plain) = cs_out s ++ text /\
    cs_out (snd debug) = cs_out s ++ flat_map (fun m => js "[DEBUG] " ++ m ++ cw_linesep w) msgs ++ text.
Proof. exact C82_lemma. Qed.
Print Assumptions C82_debug_adds_lines.

(** A document in the home directory. *)
Example C82_case : let fs := case_files [(pth "/r/.prettyprint", LoadDoc shallow_document)] [pth "/home/u"] in
  let w := case_cli sample_world fs in
  Forall no_percent (p_names (pth "/home/u") ++ p_names (cw_home w)) /\
  readable (cs_out (snd (run_cli (mkArgs (Some (pth "src/..")) None true) w cli_start))) =
    readable ((js "[DEBUG] Target path: /home/u" ++ [10] ++
    js "[DEBUG] No options file provided, looking for fallback options files..." ++ [10] ++
    js "[DEBUG] Options file does not exist: /home/u/.prettyprint" ++ [10] ++
    js "[DEBUG] Options file does not exist: ./.prettyprint" ++ [10] ++
    js "[DEBUG] Options file found: /r/.prettyprint" ++ [10] ++
    js "[DEBUG] ExternalOptions" ++ [10] ++ js "  maxDepth: 1" ++ [10] ++
    js "[DEBUG] Options file is valid" ++ [10])%N ++
    cs_out (snd (run_cli (mkArgs (Some (pth "src/..")) None false) w cli_start))).
Proof. vm_compute. split; [|reflexivity]. repeat constructor; intuition discriminate. Qed.

(** C58. The lines of the text block of an object, each with its key (the indices leading to the part): in lexicographic order of the keys,
    hence in declaration order and a part right before its own parts; exactly one line for every part that is not null, plus the closing line
    of every collection; [line_for] gives the text, indented by two spaces per level. *)
Theorem C58_text_block : forall linesep v, v <> VNull ->
  exists lines, to_text_block linesep v = join linesep (map snd lines) /\
    StronglySorted (fun a b => key_before (fst a) (fst b)) lines /\
    forall k t, In (k, t) lines <-> line_for v k t.
Proof. exact C58_lemma. Qed.
Print Assumptions C58_text_block.

(** Keys occur once: the order is irreflexive. Indices and numbers are written in decimal, without leading zeros. *)
Theorem C58_keys_and_numbers :
  (forall k, ~ key_before k k) /\
  forall n, fold_left (fun a c => 10 * a + (c - 48))%N (n_str n) 0%N = n /\ Forall (fun c => 48 <= c <= 57)%N (n_str n) /\
    (n <> 0%N -> hd_error (n_str n) <> Some 48%N) /\ (n = 0%N -> n_str n = js "0").
Proof. exact (conj key_before_irrefl n_str_spec). Qed.
Print Assumptions C58_keys_and_numbers.

Theorem C58_signed_numbers : forall z, ((0 <= z)%Z -> z_str z = n_str (Z.to_N z)) /\ ((z < 0)%Z -> z_str z = js "-" ++ n_str (Z.to_N (- z))).
Proof. exact z_str_spec. Qed.
Print Assumptions C58_signed_numbers.

(** The text block of a document: a line for every setting that is not null, wherever it stands ([says]), the closing line of every list, and
    nothing else. *)
Theorem C58_document : forall linesep x,
  exists lines, to_text_block linesep (v_options x) = join linesep (map snd lines) /\
    StronglySorted (fun a b => key_before (fst a) (fst b)) lines /\
    forall k t, In (k, t) lines <->
      (exists u, says x k u /\ t = spaces (2 * length k) ++ u) \/
      (exists k' n, lists x k' n /\ k = k' ++ [n] /\ t = spaces (2 * length k') ++ js "]").
Proof. exact C58_document_lemma. Qed.
Print Assumptions C58_document.

Example C58_case : map readable (text_lines [] None (v_options rich_document)) =
  ["ExternalOptions";
   "  emojis: false";
   "  compactDirectories: true";
   "  maxDepth: 5";
   "  childLimit -> DynamicLimit";
   "    limits: [";
   "      [0] -> DynamicLimitItem";
   "        limit: -1";
   "        matcher -> NameGlob";
   "          glob: ""src""";
   "      [1] -> DynamicLimitItem";
   "        limit: 2";
   "        matcher -> AlwaysTrue";
   "    ]";
   "  filter -> Filter";
   "    file -> AnyOf";
   "      matchers: [";
   "        [0] -> NameGlob";
   "          glob: ""*.java""";
   "        [1] -> NoneOf";
   "          matchers: [";
   "            [0] -> PathGlob";
   "              glob: ""b.txt""";
   "            [1] -> AlwaysFalse";
   "          ]";
   "      ]";
   "  lineExtensions: [";
   "    [0] -> LineExtension";
   "      extension: "" // here""";
   "      matcher -> AllOf";
   "        matchers: [";
   "          [0] -> PathGlob";
   "            glob: ""src""";
   "          [1] -> AlwaysTrue";
   "        ]";
   "  ]"]%string.
Proof. vm_compute. reflexivity. Qed.

(** C83. The debug text of an accepted document determines the document, if its globs and extensions contain no character of the line
    separator. *)
Theorem C83_debug_text_determines_document : forall linesep x y, linesep <> [] -> Forall (fun c => c < 32)%N linesep -> acceptable x -> acceptable y ->
  (forall t, In t (all_texts x ++ all_texts y) -> forall c, In c linesep -> ~ In c t) ->
  to_text_block linesep (v_options x) = to_text_block linesep (v_options y) -> x = y.
Proof. exact C83_lemma. Qed.
Print Assumptions C83_debug_text_determines_document.

(** The rich document meets the hypotheses. *)
Example C83_case : acceptable rich_document /\
  all_texts rich_document = [js "src"; js "*.java"; js "b.txt"; js "src"; js " // here"] /\
  forall t, In t (all_texts rich_document ++ all_texts rich_document) -> forall c, In c [10%N] -> ~ In c t.
Proof.
  split; [now apply valid_options_iff|]. split; [vm_compute; reflexivity|].
  intros t Ht c [<-|[]]. vm_compute in Ht. repeat (destruct Ht as [<-|Ht]; [vm_compute; intuition discriminate|]). destruct Ht.
Qed.

(** With a line break in an extension it does not: one extension can be written so as to look like two. *)
Example C83_line_break : let always t := Some (mkXExtension (Some t) XmTrue) in
  let one := mkXOptions None None None None None (Some [always (js "a""" ++ [10%N] ++ js "      matcher -> AlwaysTrue" ++ [10%N] ++
    js "    [1] -> LineExtension" ++ [10%N] ++ js "      extension: ""b")]) in
  let two := mkXOptions None None None None None (Some [always (js "a"); always (js "b")]) in
  acceptable one /\ acceptable two /\ one <> two /\ to_text_block [10%N] (v_options one) = to_text_block [10%N] (v_options two).
Proof.
  intros always one two. split; [now apply valid_options_iff|]. split; [now apply valid_options_iff|]. split; [|vm_compute; reflexivity].
  intro E. vm_compute in E. discriminate E.
Qed.
