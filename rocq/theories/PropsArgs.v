(** * Properties of the words of the command line *)

From Verif Require Import SpecArgs SpecFormat ArgsFacts ArgsCases DocCases CliRefs ArgsDocFacts ExitFacts.
Close Scope Z_scope.

(** C153. Which command lines do what. With the words of argument files in the place of their names, the command lines that run the command are those of
    [line]: the target, the options file and the debug flag, each at most once, in any order, the options file after "-o", "--options" or "-do". *)
Theorem C153_accepted : forall pc w s t f d args words,
  spread pc args words -> line pc (jv_fold (w_jvm (cw_world w))) t f d words ->
  execute pc args w s = run_cli (args_of t f d) w s.
Proof. exact accepted_lemma. Qed.
Print Assumptions C153_accepted.
(** A command line has one meaning at most. *)
Theorem C153_one_meaning : forall pc fold t f d t' f' d' words,
  line pc fold t f d words -> line pc fold t' f' d' words -> t = t' /\ f = f' /\ d = d'.
Proof. exact one_meaning_lemma. Qed.
Print Assumptions C153_one_meaning.
(** All others read no file of the user; they are refused with the exit code 2, writing to standard error only, unless they ask for help or for the
    version. *)
Theorem C153_others : forall pc w s args words,
  spread pc args words -> (forall t f d, ~ line pc (jv_fold (w_jvm (cw_world w))) t f d words) ->
  exists code s', execute pc args w s = (code, s') /\ no_access s s' /\
    ((code = 2%Z /\ cs_out s' = cs_out s /\ cs_err s' = cs_err s ++ pc_refusal pc args) \/ exists u, In u words /\ help_word u).
Proof. exact others_lemma. Qed.
Print Assumptions C153_others.
(** Every command line has words that count, except those that name an argument file that cannot be read. These end with the exit code 1. *)
Theorem C153_unreadable : forall pc w s args,
  (exists words, spread pc args words) \/
  ((exists name, In (js "@" ++ name) args /\ literal_word name /\ pc_at_file pc name = Unreadable) /\
   exists s', execute pc args w s = (1%Z, s') /\ no_access s s' /\ cs_out s' = cs_out s).
Proof. exact unreadable_lemma. Qed.
Print Assumptions C153_unreadable.

(** A command line with all parts: "@list" is a file with the words "src" and "-d". *)
Example C153_case :
  spread case_pico (map js ["--options"; "-5"; "@list"]%string) (map js ["--options"; "-5"; "src"; "-d"]%string) /\
  line case_pico ascii_lower (Some (js "src")) (Some (js "-5")) (Some true) (map js ["--options"; "-5"; "src"; "-d"]%string).
Proof.
  split.
  - apply spread_literal; [discriminate|]. apply spread_literal; [discriminate|].
    refine (spread_file case_pico (js "list") [js "src"; js "-d"] [] [] _ eq_refl (spread_end _)). discriminate.
  - apply line_options; [right; now left| |].
    + intros [E|[E|[(n & x & E & E')|(c & x & E & _ & E')]]]; [discriminate| |cbn in E..].
      * cbn in E. repeat (destruct E as [E|E]; [discriminate|]). destruct E.
      * repeat (destruct E as [<-|E]; [discriminate E'|]). destruct E.
      * repeat (destruct E as [<-|E]; [discriminate E'|]). destruct E.
    + apply line_target; [left; discriminate|]. apply line_debug; [now left|]. apply line_end.
Qed.
(** Command lines that run, with what they run. *)
Example C153_case_runs :
  map (fun args => requested case_pico ascii_lower (map js args))
    [[]; ["src"]; ["-o"; "f"; "src"]; ["src"; "-do"; "f"]; ["-dof"]; ["-5"]; ["--debug=FALSE"]; ["-o"; "--"; "src"]; ["--"; "-x"]; ["@@list"]]%string =
  map (fun a => RRun (args_of (option_map js (fst (fst a))) (option_map js (snd (fst a))) (snd a)))
    [((None, None), None); ((Some "src", None), None); ((Some "src", Some "f"), None); ((Some "src", Some "f"), Some true);
     ((None, Some "f"), Some true); ((Some "-5", None), None); ((None, None), Some false); ((Some "src", Some ""), None);
     ((Some "-x", None), None); ((Some "@list", None), None)]%string.
Proof. reflexivity. Qed.
(** Command lines that are refused: two targets, two options files, an unknown option, a wrong truth value; the meaning of "--" ends there. *)
Example C153_case_refused :
  map (fun args => requested case_pico ascii_lower (map js args))
    [["src"; "a"]; ["-o"; "f"; "-o"; "g"]; ["-x"]; ["--debug=yes"]; ["-d"; "--debug"]; ["--"; "src"; "a"]; ["-dx"]]%string =
  [RRefused; RRefused; RRefused; RRefused; RRefused; RRefused; RRefused] /\
  requested case_pico ascii_lower [js "src"; js "@types"] = RBroken.
Proof. split; reflexivity. Qed.

(** C154. Neither the order of the target, the options file and the debug flag on the command line nor the way they are written matters. *)
Theorem C154_any_order : forall pc w s t f d tp fp dp args,
  target_part t tp -> options_part f fp -> flag_part ["-d"; "--debug"]%string d dp -> written (tp ++ fp ++ dp) args ->
  execute pc args w s = run_cli (mkArgs (option_map path_of t) (option_map path_of f) d) w s.
Proof. exact order_lemma. Qed.
Print Assumptions C154_any_order.

(** The command line of the documentation, with the debug flag somewhere. *)
Example C154_case : exists fp dp,
  target_part (Some (js "myFolder")) [[js "myFolder"]] /\ options_part (Some (js "myOptions.json")) fp /\ flag_part ["-d"; "--debug"]%string true dp /\
  written ([[js "myFolder"]] ++ fp ++ dp) (map js ["myFolder"; "--debug"; "--options"; "myOptions.json"]%string).
Proof.
  exists [[js "--options"; js "myOptions.json"]], [[js "--debug"]]. repeat split; try discriminate.
  - right. now left.
  - exists "--debug"%string. split; [right; now left|reflexivity].
  - exists [[js "myFolder"]; [js "--debug"]; [js "--options"; js "myOptions.json"]]. split; [|reflexivity]. apply perm_skip, perm_swap.
Qed.

(** C116, from the words of the command line: with the target and the options file in any order and spelling, what C116 says of the command holds of the
    program. *)
Theorem C116_from_words : forall pc w fs t f tp fp args T ex sel x dk s,
  target_part t tp -> options_part f fp -> written (tp ++ fp) args ->
  let a := mkArgs (option_map path_of t) (option_map path_of f) false in
  steady_files w fs -> usual_linesep (cw_linesep w) ->
  resolved (jv_cwd (w_jvm (cw_world w))) (asked_target a) T -> f_exists fs T = true ->
  chooses w fs a T ex sel -> followed sel x ->
  steady (cw_world w) dk -> distinct_names dk -> real_listings dk -> Forall real_name (p_names T) -> p_names T <> [] ->
  let j := w_jvm (cw_world w) in
  (x_emojis x = Some true -> forall k v, default_names k v \/ default_exts k v -> jv_lower j k = k) ->
  let code := fst (execute pc args w s) in
  let s' := snd (execute pc args w s) in
  (forall text, (forall g, In g (all_globs x) -> good_glob j g) -> shows_document j dk (p_names T) x text ->
     (forall out, written_as (cw_linesep w) text out -> code = 0%Z /\ cs_out s' = cs_out s ++ out ++ cw_linesep w /\ cs_err s' = cs_err s) /\
     ((forall out, ~ written_as (cw_linesep w) text out) ->
        code = 1%Z /\ (exists b, begun (cw_linesep w) text b /\ cs_out s' = cs_out s ++ b) /\
        exists err, error_output w (js "Error while pretty printing: " ++ cw_message w (XFormat (text ++ cw_linesep w))) err /\
          cs_err s' = cs_err s ++ err)) /\
  (~ ((forall g, In g (all_globs x) -> good_glob j g) /\ exists text, shows_document j dk (p_names T) x text) ->
     code = 1%Z /\ cs_out s' = cs_out s /\ exists msg err, error_output w msg err /\ cs_err s' = cs_err s ++ err).
Proof. exact words_document. Qed.
Print Assumptions C116_from_words.

(** The options file of the README, named before the target and attached to its letter. *)
Example C116_words_case : let fs := case_files [(pth "/home/u/o.yml", LoadDoc readme_document)] [pth "/home/u/p"] in
  let w := case_cli project_world fs in
  written ([[js "p"]] ++ [[js "-oo.yml"]]) [js "-oo.yml"; js "p"] /\ options_part (Some (js "o.yml")) [[js "-oo.yml"]] /\
  chooses w fs (mkArgs (Some (pth "p")) (Some (pth "o.yml")) false) (pth "/home/u/p") [(pth "/home/u/o.yml")] (UseDocument readme_document) /\
  fst (execute case_pico [js "-oo.yml"; js "p"] w cli_start) = 0%Z /\
  option_map readable (document_prints readme_document) = Some (readable (removelast (cs_out (snd (execute case_pico [js "-oo.yml"; js "p"] w cli_start))))).
Proof.
  intros fs w. split; [|split; [|split; [|split]]].
  - exists [[js "-oo.yml"]; [js "p"]]. split; [apply perm_swap|reflexivity].
  - split; [split; discriminate|]. right. right. repeat split; discriminate.
  - apply (ch_explicit _ _ _ _ (pth "o.yml")); [reflexivity|apply (name_resolved "o.yml"%string); vm_compute; reflexivity|].
    apply DocFacts.is_good; vm_compute; reflexivity.
  - vm_compute. reflexivity.
  - vm_compute. reflexivity.
Qed.

(** C155. Whatever else is asked, "-h" or "--help" anywhere on the command line displays the help and nothing else is done; the same with "-V" or
    "--version" and the lines about the version, if there is no "-h". *)
Theorem C155_help : forall pc w s t f d v tp fp dp hp vp args,
  target_part t tp -> options_part f fp -> flag_part ["-d"; "--debug"]%string d dp -> flag_part ["-h"; "--help"]%string true hp ->
  flag_part ["-V"; "--version"]%string v vp -> written (tp ++ fp ++ dp ++ hp ++ vp) args ->
  exists s', execute pc args w s = (0%Z, s') /\ no_access s s' /\ cs_out s' = cs_out s ++ pc_usage pc /\ cs_err s' = cs_err s.
Proof. exact help_lemma. Qed.
Print Assumptions C155_help.
Theorem C155_version : forall pc w s t f d tp fp dp vp args lines,
  target_part t tp -> options_part f fp -> flag_part ["-d"; "--debug"]%string d dp -> flag_part ["-V"; "--version"]%string true vp ->
  written (tp ++ fp ++ dp ++ vp) args -> get_version (pc_class_path pc) = Some lines ->
  exists s', execute pc args w s = (0%Z, s') /\ no_access s s' /\ cs_out s' = cs_out s ++ concat (map (fun l => l ++ cw_linesep w) lines) /\ cs_err s' = cs_err s.
Proof. exact version_lemma. Qed.
Print Assumptions C155_version.

(** Help after a target and before an options file; the version. *)
Example C155_case :
  written ([[js "src"]] ++ [[js "-of"]] ++ [] ++ [[js "-h"]] ++ [[js "-V"]]) (map js ["src"; "-h"; "-of"; "-V"]%string) /\
  options_part (Some (js "f")) [[js "-of"]] /\
  ends_with (execute case_pico (map js ["src"; "-o"; "f"; "--version"]%string) odd_world cli_start)
    ("JFileTreePrettyPrinter unknown" ++ String (ascii_of_N 10) "" ++ "unknown" ++ String (ascii_of_N 10) "" ++ "Repository: u" ++ String (ascii_of_N 10) ""
     ++ "Commit: unknown (unknown)" ++ String (ascii_of_N 10) "" ++ "Built on: unknown")%string.
Proof.
  split; [|split].
  - exists [[js "src"]; [js "-h"]; [js "-of"]; [js "-V"]]. split; [|reflexivity]. apply perm_skip, perm_swap.
  - split; [split; discriminate|]. right. right. repeat split; discriminate.
  - split; reflexivity.
Qed.

(** C156. "-o" or "--options" without a file does not mean the options files that are found otherwise, nor the default options: it means the current
    directory, and the command fails without printing a tree. *)
Theorem C156_options_without_file : forall pc w s t d args words here,
  spread pc args words -> line pc (jv_fold (w_jvm (cw_world w))) t (Some []) d words ->
  resolved (jv_cwd (w_jvm (cw_world w))) (mkPath false []) here -> (forall s', cw_is_file w s' here = false) ->
  exists s', execute pc args w s = (1%Z, s') /\ cs_hist s' = cs_hist s /\ (d <> Some true -> cs_out s' = cs_out s).
Proof. exact bare_lemma. Qed.
Print Assumptions C156_options_without_file.

(** The target, then the options name at the end. *)
Example C156_case :
  line case_pico ascii_lower (Some (js "./-x")) (Some []) None (map js ["./-x"; "--options"]%string) /\
  resolved (names_of "home/u") (mkPath false []) (pth "/home/u") /\ (forall s', cw_is_file odd_world s' (pth "/home/u") = false) /\
  fst (execute case_pico (map js ["./-x"; "--options"]%string) odd_world cli_start) = 1%Z /\
  readable (cs_err (snd (execute case_pico (map js ["./-x"; "--options"]%string) odd_world cli_start))) =
    ("[ERROR] Options file is actually not a file: /home/u" ++ String (ascii_of_N 10) "")%string.
Proof.
  split; [|split; [|split; [|split]]]; try reflexivity.
  - apply line_target; [left; discriminate|]. apply line_options_bare; [right; now left|now left|apply line_end].
  - split; [reflexivity|]. split; [apply PathFacts.same_location_complete; reflexivity|]. repeat constructor; discriminate.
Qed.

(** C157. The options file cannot be written after '=': "-o=FILE" and "--options=FILE" are refused, wherever they stand before "--". (The hypotheses about
    letters say that '-' is neither 't' nor 'f' when case is ignored.) *)
Theorem C157_no_equals : forall pc w s n x pre post,
  let fold := jv_fold (w_jvm (cw_world w)) in
  let args := pre ++ (n ++ js "=" ++ x) :: post in
  fold 45%N <> fold 116%N -> fold 45%N <> fold 102%N -> In n (map js ["-o"; "--options"]%string) -> ~ In (js "--") pre -> Forall literal_word args ->
  exists s', execute pc args w s = (2%Z, s') /\ no_access s s' /\ cs_out s' = cs_out s /\ cs_err s' = cs_err s ++ pc_refusal pc args.
Proof. exact equals_lemma. Qed.
Print Assumptions C157_no_equals.

(** The same file after a space is taken. *)
Example C157_case :
  ascii_lower 45%N <> ascii_lower 116%N /\ ascii_lower 45%N <> ascii_lower 102%N /\
  requested case_pico ascii_lower (map js ["src"; "--options=f.yml"; "-d"]%string) = RRefused /\
  requested case_pico ascii_lower (map js ["src"; "--options"; "f.yml"; "-d"]%string) = RRun (mkArgs (Some (pth "src")) (Some (pth "f.yml")) true).
Proof. repeat split; discriminate. Qed.

(** C158. Every path can be given as the only argument, and is then printed. False: a path that starts with '-' is taken for an option and a path that starts
    with '@' for an argument file; if it is a directory, such as "@types", the program fails. C159 is what holds. ([readable] shows the
    characters of the connectors as '#'.) *)
Theorem C158_refuted : exists pc w t u,
  ends_with (run_cli (mkArgs (Some (path_of t)) None false) w cli_start) (readable t ++ "/" ++ String (ascii_of_N 10) "## a.ts") /\
  execute pc [t] w cli_start = (1%Z, write_err (pc_trace pc) cli_start) /\
  ends_with (run_cli (mkArgs (Some (path_of u)) None false) w cli_start) (readable u ++ "/" ++ String (ascii_of_N 10) "## b") /\
  execute pc [u] w cli_start = (2%Z, write_err (pc_refusal pc [u]) cli_start).
Proof. exact unwritable_paths. Qed.
Print Assumptions C158_refuted.

(** C159. Every path can be given as the target and as the options file, in any order: an absolute path as it is, another one with "./" before it. *)
Theorem C159_protected_paths : forall pc w s t f u g d tp fp dp args,
  protected_option t u -> protected_option f g ->
  target_part u tp -> options_part g fp -> flag_part ["-d"; "--debug"]%string d dp -> written (tp ++ fp ++ dp) args ->
  execute pc args w s = run_cli (mkArgs (option_map path_of t) (option_map path_of f) d) w s.
Proof. exact protected_lemma. Qed.
Print Assumptions C159_protected_paths.

(** The two paths of C158. *)
Example C159_case :
  protected (js "@types") (js "./@types") /\ plain_word (js "./@types") /\ protected (js "/a") (js "/a") /\
  ends_with (execute case_pico [js "./@types"] odd_world cli_start) ("@types/" ++ String (ascii_of_N 10) "## a.ts") /\
  ends_with (execute case_pico [js "./-x"] odd_world cli_start) ("-x/" ++ String (ascii_of_N 10) "## b").
Proof.
  split; [right; split; [reflexivity|discriminate]|]. split; [split; discriminate|]. split; [left; split; [reflexivity|now exists (js "a")]|].
  split; split; vm_compute; reflexivity.
Qed.

(** C160. The exit code tells what happened, whatever the command line and the file system: it is 0, 1 or 2. Nothing is written to standard error if it is
    0, and something is otherwise. If it is 2, no file was looked at and nothing was written to standard output. (The messages and stack traces that picocli
    writes are not empty.) *)
Theorem C160_exit_code : forall pc w s args,
  (forall e, cw_stack_trace w e <> []) -> (forall l, pc_refusal pc l <> []) -> pc_trace pc <> [] ->
  exists code s', execute pc args w s = (code, s') /\
    ((code = 0%Z /\ cs_err s' = cs_err s) \/
     (code = 1%Z /\ exists x, x <> [] /\ cs_err s' = cs_err s ++ x) \/
     (code = 2%Z /\ (exists x, x <> [] /\ cs_err s' = cs_err s ++ x) /\ no_access s s' /\ cs_out s' = cs_out s)).
Proof. exact exit_lemma. Qed.
Print Assumptions C160_exit_code.

(** The three codes: a tree, a target that does not exist, an unknown option. *)
Example C160_case :
  (forall e, cw_stack_trace odd_world e <> []) /\ (forall l, pc_refusal case_pico l <> []) /\ pc_trace case_pico <> [] /\
  map (fun args => let (code, s') := execute case_pico (map js args) odd_world cli_start in (code, readable (cs_err s')))
    [["./-x"]; ["nothing"]; ["-x"]]%string =
  [(0%Z, ""); (1%Z, ("[ERROR] Path not found: /home/u/nothing" ++ String (ascii_of_N 10) "")); (2%Z, "refused -x")]%string.
Proof. split; [discriminate |]. split; [discriminate |]. split; [discriminate |]. vm_compute. reflexivity. Qed.
