(** * What the command writes, whatever the characters of the text *)

From Verif Require Import SpecFormat FormatFacts DebugFormatFacts CliFacts CliCases CliRefs.
Close Scope Z_scope.

(** C121. The text of a tree, and every message, is used as a format string. [written_as]: the specifiers that need no argument are replaced,
    everything else is left alone; a text with a '%' elsewhere cannot be written. There is at most one way to write a text. *)
Theorem C121_function : forall linesep s o o', written_as linesep s o -> written_as linesep s o' -> o = o'.
Proof. exact written_function. Qed.
Print Assumptions C121_function.

(** [o] are the options in effect (C52) and the library returns [text] for them. If the text can be written, that is done, followed by a line
    separator, and the exit code is 0. Otherwise the exit code is 1, standard output gets at most the beginning of the text, and the failure is
    reported on standard error. *)
Theorem C121_printed : forall w, usual_linesep (cw_linesep w) -> forall fs a T ex sel s,
  steady_files w fs -> a_debug a = false ->
  resolved (jv_cwd (w_jvm (cw_world w))) (asked_target a) T -> f_exists fs T = true -> chooses w fs a T ex sel ->
  forall o h' text h'', effective w T (cs_hist s) sel o h' -> pretty_print o T (cw_world w) h' = (Ok text, h'') ->
  let code := fst (run_cli a w s) in
  let s' := snd (run_cli a w s) in
  (forall out, written_as (cw_linesep w) text out -> code = 0%Z /\ cs_out s' = cs_out s ++ out ++ cw_linesep w /\ cs_err s' = cs_err s) /\
  ((forall out, ~ written_as (cw_linesep w) text out) ->
     code = 1%Z /\ (exists b, begun (cw_linesep w) text b /\ cs_out s' = cs_out s ++ b) /\
     exists err, error_output w (js "Error while pretty printing: " ++ cw_message w (XFormat (text ++ cw_linesep w))) err /\ cs_err s' = cs_err s ++ err).
Proof. exact text_written. Qed.
Print Assumptions C121_printed.

(** A file whose name has two specifiers. *)
Example C121_case :
  let name := "50%n or %1$-3%!"%string in
  let w := case_cli (percent_world name) home_files in
  usual_linesep (cw_linesep w) /\
  chooses w home_files target_args (pth "/home/u") home_places UseDefault /\
  effective w (pth "/home/u") [] UseDefault default_options [] /\
  option_map readable (match pretty_print default_options (pth "/home/u") (cw_world w) [] with (Ok t, _) => Some t | _ => None end) =
    Some "u/
## 50%n or %1$-3%!"%string /\
  written_as (cw_linesep w) (js name) (js "50" ++ [10%N] ++ js " or %  !") /\
  fst (run_cli target_args w cli_start) = 0%Z /\
  readable (cs_out (snd (run_cli target_args w cli_start))) = "u/
## 50
 or %  !
"%string.
Proof.
  intros name w. split; [now left|]. split; [apply home_choice|]. split; [constructor|]. split; [vm_compute; reflexivity|]. split.
  - do 2 (apply wr_char; [discriminate|]). apply (wr_spec _ (js "%n") [10%N] (js " or %1$-3%!")).
    + apply (sf_newline _ []). now left.
    + do 4 (apply wr_char; [discriminate|]). apply (wr_spec _ (js "%1$-3%") (js "%  ") (js "!")).
      * assert (D : forall k, (k < 10)%N -> denotes [48 + k]%N k) by (now constructor).
        apply (sf_left _ (js "1$") (js "3") 3).
        -- right. exists (js "1"), 1%N. split; [reflexivity|]. split; [now apply (D 1%N)|]. split; discriminate.
        -- split; [now apply (D 3%N)|]. split; [discriminate|]. intros (s' & E). discriminate.
      * apply wr_char; [discriminate|constructor].
  - vm_compute. split; reflexivity.
Qed.

(** When the options are refused or cannot be mapped, or the library throws, with the message [msg]: the same for standard error. *)
Theorem C121_reported : forall w, usual_linesep (cw_linesep w) -> forall fs a T ex sel s,
  steady_files w fs -> a_debug a = false ->
  resolved (jv_cwd (w_jvm (cw_world w))) (asked_target a) T -> f_exists fs T = true -> chooses w fs a T ex sel ->
  forall msg, fails w T (cs_hist s) sel msg ->
  let s' := snd (run_cli a w s) in
  fst (run_cli a w s) = 1%Z /\ cs_out s' = cs_out s /\ exists err, error_output w msg err /\ cs_err s' = cs_err s ++ err.
Proof. exact error_written. Qed.
Print Assumptions C121_reported.

(** The options file is called "100%.yml", and does not exist: "%.y" is no specifier. *)
Example C121_case_reported :
  let w := case_cli sample_world home_files in
  let msg := js "Options file does not exist: /home/u/100%.yml" in
  chooses w home_files (explicit_args "100%.yml") (pth "/home/u") [pth "/home/u/100%.yml"] (Refuse msg) /\
  fails w (pth "/home/u") [] (Refuse msg) msg /\
  cs_err (snd (run_cli (explicit_args "100%.yml") w cli_start)) = cw_stack_trace w (XFormat (js "[ERROR] " ++ msg ++ cw_linesep w)).
Proof. intros w msg. split; [apply percent_options_choice|]. split; [constructor|]. vm_compute. reflexivity. Qed.

(** C123. Debug mode when no options file is given ([here] and [home] are the fallbacks in the current and in the home directory, resolved).
    [trail]: the messages about the fallbacks, as written. If all of them can be written, debug mode has the same exit code, the same accesses
    and the same standard error, and standard output is the messages followed by what is written without it. Otherwise [p] is the first fallback
    whose message cannot be written: the command exits with 1 and reports the failure on standard error, standard output has the messages
    before that one and at most a beginning of it, only the existence of the target and of fallbacks is asked for, the library is not
    called and no options file is loaded. *)
Theorem C123_debug_fallbacks : forall w fs, steady_files w fs -> usual_linesep (cw_linesep w) -> forall t T here home s,
  resolved (jv_cwd (w_jvm (cw_world w))) (asked_target (mkArgs t None false)) T -> f_exists fs T = true ->
  resolved (jv_cwd (w_jvm (cw_world w))) (mkPath false [js ".prettyprint"]) here ->
  resolved (jv_cwd (w_jvm (cw_world w))) (mkPath (p_abs (cw_home w)) (p_names (cw_home w) ++ [js ".prettyprint"])) home ->
  exists msgs stop, trail w fs (fallbacks w T here home) msgs stop /\
    let plain := run_cli (mkArgs t None false) w s in let debug := run_cli (mkArgs t None true) w s in
    match stop with
    | None => exists text,
        fst debug = fst plain /\ cs_events (snd debug) = cs_events (snd plain) /\ cs_hist (snd debug) = cs_hist (snd plain) /\
        cs_err (snd debug) = cs_err (snd plain) /\
        cs_out (snd plain) = cs_out s ++ text /\ cs_out (snd debug) = cs_out s ++ debug_text (cw_linesep w) (debug_opening t T ++ msgs) ++ text
    | Some p => exists b new err,
        fst debug = 1%Z /\ cs_hist (snd debug) = cs_hist s /\
        cs_events (snd debug) = new ++ cs_events s /\
        Forall (fun e => exists q, e = CExists q /\ In q (T :: map snd (fallbacks w T here home))) new /\
        begun (cw_linesep w) (js "[DEBUG] Options file does not exist: " ++ path_str p) b /\
        cs_out (snd debug) = cs_out s ++ debug_text (cw_linesep w) (debug_opening t T ++ msgs) ++ b /\
        error_output w (js "Error while pretty printing: " ++
          cw_message w (XFormat (js "[DEBUG] Options file does not exist: " ++ path_str p ++ cw_linesep w))) err /\
        cs_err (snd debug) = cs_err s ++ err
    end.
Proof. exact debug_fallback. Qed.
Print Assumptions C123_debug_fallbacks.

(** The target is a directory called "50%n": the specifier is replaced in one message and not in the other. *)
Example C123_case :
  let T := pth "/50%n" in
  let fs := newline_files in
  let w := case_cli newline_world fs in
  let here := pth "/home/u/.prettyprint" in
  let home := pth "/r/.prettyprint" in
  resolved (jv_cwd (w_jvm (cw_world w))) T T /\ f_exists fs T = true /\
  resolved (jv_cwd (w_jvm (cw_world w))) (mkPath false [js ".prettyprint"]) here /\
  resolved (jv_cwd (w_jvm (cw_world w))) (mkPath (p_abs (cw_home w)) (p_names (cw_home w) ++ [js ".prettyprint"])) home /\
  trail w fs (fallbacks w T here home)
    [js "Options file does not exist: /50" ++ [10%N] ++ js "/.prettyprint"; js "Options file does not exist: ./.prettyprint";
     js "Options file does not exist: /r/.prettyprint"; js "No options file provided/found"] None /\
  readable (cs_out (snd (run_cli (mkArgs (Some T) None true) w cli_start))) = ("[DEBUG] Target path: /50%n
[DEBUG] No options file provided, looking for fallback options files...
[DEBUG] Options file does not exist: /50
/.prettyprint
[DEBUG] Options file does not exist: ./.prettyprint
[DEBUG] Options file does not exist: /r/.prettyprint
[DEBUG] No options file provided/found
" ++
    readable (cs_out (snd (run_cli (mkArgs (Some T) None false) w cli_start))))%string.
Proof.
  intros T fs w here home. assert (R : forall p q, normalize (to_absolute (jv_cwd (w_jvm (cw_world w))) p) = q -> resolved (jv_cwd (w_jvm (cw_world w))) p q)
    by (intros p q <-; apply CliFacts.resolved_total).
  split; [now apply R|]. split; [reflexivity|]. split; [now apply R|]. split; [now apply R|]. split; [|vm_compute; reflexivity].
  assert (Pl : forall s, no_percent s -> written_as (cw_linesep w) s s) by (intros; now apply written_plain).
  unfold fallbacks. apply tr_skip; [reflexivity| |].
  { change (path_str _) with (js "/50%n/.prettyprint"). do 3 (apply wr_char; [discriminate|]).
    apply (wr_spec _ (js "%n") [10%N] (js "/.prettyprint")); [apply (sf_newline _ []); now left|].
    apply Pl. unfold no_percent. vm_compute. intuition discriminate. }
  apply (tr_skip _ _ _ _ _ (js "./.prettyprint")); [reflexivity|apply Pl; unfold no_percent; vm_compute; intuition discriminate|].
  apply (tr_skip _ _ _ _ _ (js "/r/.prettyprint")); [reflexivity|apply Pl; unfold no_percent; vm_compute; intuition discriminate|]. constructor.
Qed.

(** The target is below a directory "100%": "%/d" is no specifier. *)
Example C123_case_stops :
  let T := pth "/100%/d" in
  let w := case_cli deep_world deep_files in
  let here := pth "/home/u/.prettyprint" in
  let home := pth "/r/.prettyprint" in
  trail w deep_files (fallbacks w T here home) [] (Some (pth "/100%/d/.prettyprint")) /\
  fst (run_cli (mkArgs (Some T) None false) w cli_start) = 0%Z /\
  fst (run_cli (mkArgs (Some T) None true) w cli_start) = 1%Z /\
  readable (cs_out (snd (run_cli (mkArgs (Some T) None true) w cli_start))) = "[DEBUG] Target path: /100%/d
[DEBUG] No options file provided, looking for fallback options files...
"%string.
Proof.
  intros T w here home. split; [|vm_compute; repeat split; reflexivity]. apply tr_stop; [reflexivity|].
  destruct (missing_message w (or_introl eq_refl) (pth "/100%/d/.prettyprint") cli_start) as [(o & _ & E)|(H & _)]; [vm_compute in E; discriminate|].
  exact H.
Qed.
