(** * Counterexamples for the command line *)

From Verif Require Import SpecCli CliCases DocFacts CliFacts MapFacts PathFacts.
From Coq Require Import Lia.
Close Scope Z_scope.

Lemma plain_resolved cwd p : p_abs p = true -> forallb (fun n => negb (jeqb n n_dot) && negb (jeqb n n_dotdot)) (p_names p) = true ->
  resolved cwd p p.
Proof.
  intros Ha Hf. apply resolved_self; [exact Ha|]. rewrite forallb_forall in Hf. apply Forall_forall. intros n Hn.
  specialize (Hf n Hn). apply andb_prop in Hf. destruct Hf as [H1 H2].
  split; intros ->; rewrite PathFacts.jeqb_refl in *; discriminate.
Qed.

Lemma target_resolved : resolved (names_of "home/u") (asked_target target_args) (pth "/home/u").
Proof.
  split; [reflexivity|]. split.
  - eapply same_trans; [apply same_cwd|]. apply (same_up (names_of "home/u") true (names_of "home/u") (js "src") []); vm_compute; discriminate.
  - repeat constructor; vm_compute; discriminate.
Qed.

Lemma no_target_resolved s : resolved (names_of "home/u") (asked_target (explicit_args s)) (pth "/home/u").
Proof.
  split; [reflexivity|]. split.
  - eapply same_trans; [apply same_cwd|]. apply (same_dot (names_of "home/u") true (names_of "home/u") []).
  - repeat constructor; vm_compute; discriminate.
Qed.

Lemma name_resolved (n : string) : forallb (fun n => negb (jeqb n n_dot) && negb (jeqb n n_dotdot)) (names_of "home/u" ++ [js n]) = true ->
  resolved (names_of "home/u") (mkPath false [js n]) (mkPath true (names_of "home/u" ++ [js n])).
Proof.
  intro H. split; [reflexivity|]. split; [apply same_cwd|]. cbn [p_names]. apply (plain_resolved [] (mkPath true (names_of "home/u" ++ [js n])) eq_refl H).
Qed.

(** Where the options are looked for from /home/u, the user's home being /r. *)
Definition home_places : list path := [pth "/home/u/.prettyprint"; pth "/home/u/.prettyprint"; pth "/r/.prettyprint"].

Lemma chooses_home w fs ex sel : jv_cwd (w_jvm w) = names_of "home/u" ->
  first_existing (case_cli w fs) fs home_places ex sel -> chooses (case_cli w fs) fs target_args (pth "/home/u") ex sel.
Proof.
  intros E H. eapply ch_fallback with (here := pth "/home/u/.prettyprint") (home := pth "/r/.prettyprint"); [reflexivity| | |exact H].
  - cbn [cw_world case_cli]. rewrite E. apply (name_resolved ".prettyprint"). vm_compute. reflexivity.
  - apply (plain_resolved _ (pth "/r/.prettyprint")); vm_compute; reflexivity.
Qed.

Lemma linesep_plain w fs : no_percent (cw_linesep (case_cli w fs)).
Proof. unfold no_percent. cbn. intuition discriminate. Qed.

(** ** C51 *)
Definition percent_fails (name : string) : Prop :=
  let w := case_cli (percent_world name) home_files in
  let r := run_cli target_args w cli_start in
  exists text h, pretty_print default_options (pth "/home/u") (cw_world w) [] = (Ok text, h) /\
    ~ (fst r = 0%Z /\ cs_out (snd r) = text ++ cw_linesep w /\ cs_err (snd r) = []).

Lemma home_choice name : chooses (case_cli (percent_world name) home_files) home_files target_args (pth "/home/u") home_places UseDefault.
Proof.
  apply chooses_home; [reflexivity|]. repeat constructor.
Qed.

Theorem C51_counterexample :
  exists name w fs text h,
    w = case_cli (percent_world name) fs /\ steady_files w fs /\ no_percent (cw_linesep w) /\
    f_exists fs (pth "/home/u") = true /\ chooses w fs target_args (pth "/home/u") home_places UseDefault /\
    pretty_print default_options (pth "/home/u") (cw_world w) [] = (Ok text, h) /\
    fst (run_cli target_args w cli_start) = 1%Z /\ cs_out (snd (run_cli target_args w cli_start)) = [].
Proof.
  exists "100%"%string, (case_cli (percent_world "100%") home_files), home_files.
  do 2 eexists. split; [reflexivity|]. split; [apply case_steady|]. split; [apply linesep_plain|]. split; [vm_compute; reflexivity|].
  split; [apply home_choice|]. split; [vm_compute; reflexivity|]. vm_compute. split; reflexivity.
Qed.

Theorem C51_altered :
  exists name w fs text h,
    w = case_cli (percent_world name) fs /\ steady_files w fs /\ no_percent (cw_linesep w) /\
    f_exists fs (pth "/home/u") = true /\ chooses w fs target_args (pth "/home/u") home_places UseDefault /\
    pretty_print default_options (pth "/home/u") (cw_world w) [] = (Ok text, h) /\
    fst (run_cli target_args w cli_start) = 0%Z /\ cs_out (snd (run_cli target_args w cli_start)) <> text ++ cw_linesep w.
Proof.
  exists "50%n.txt"%string, (case_cli (percent_world "50%n.txt") home_files), home_files.
  do 2 eexists. split; [reflexivity|]. split; [apply case_steady|]. split; [apply linesep_plain|]. split; [vm_compute; reflexivity|].
  split; [apply home_choice|]. split; [vm_compute; reflexivity|]. split; [vm_compute; reflexivity|]. vm_compute. discriminate.
Qed.

(** ** C53 *)
Definition beside_executable : files := case_files [(pth "/opt/bin/.prettyprint", LoadDoc shallow_document)] [pth "/home/u"].

Lemma beside_choice : chooses (case_cli sample_world beside_executable) beside_executable target_args (pth "/home/u") home_places UseDefault.
Proof. apply chooses_home; [reflexivity|]. repeat constructor. Qed.

(** ** C54 *)
Theorem C54_counterexample :
  exists w T x o h, p_abs T = true /\ acceptable x /\ x_emojis x = None /\
    map_to_options T x w [] = (Ok o, h) /\ ~ does_what (w_jvm w) w T (fun _ => true) x o.
Proof.
  exists sample_world, (pth "/home/u"), limits_document.
  destruct (map_to_options (pth "/home/u") limits_document sample_world []) as [r h] eqn:E.
  assert (K : exists o, r = Ok o /\ fst (o_child_limit o (pth "/home/u") sample_world []) = Ok 3%Z).
  { cut (match map_to_options (pth "/home/u") limits_document sample_world [] with
         | (Ok o, _) => fst (o_child_limit o (pth "/home/u") sample_world []) = Ok 3%Z | _ => False end); [|vm_compute; reflexivity].
    rewrite E. destruct r as [o|]; [eauto|contradiction]. }
  destruct K as (o & -> & K). exists o, h. split; [reflexivity|]. split; [now apply valid_options_iff|]. split; [reflexivity|]. split; [reflexivity|].
  intros (_ & _ & _ & _ & _ & _ & _ & H). specialize (H [] []).
  destruct H as (_ & _ & (z & Hz & _ & Hs) & _).
  - repeat constructor; vm_compute; intuition discriminate.
  - change (mkPath true (p_names (pth "/home/u") ++ [])) with (pth "/home/u") in Hz. rewrite Hz in K. injection K as ->.
    specialize (Hs eq_refl). discriminate.
Qed.

(** ** C56 *)
Lemma percent_options_choice : let w := case_cli sample_world home_files in
  chooses w home_files (explicit_args "100%.yml") (pth "/home/u") [pth "/home/u/100%.yml"]
    (Refuse (js "Options file does not exist: /home/u/100%.yml")).
Proof.
  apply (ch_missing _ _ _ _ (pth "100%.yml") (pth "/home/u/100%.yml")); [reflexivity| |vm_compute; reflexivity].
  apply (name_resolved "100%.yml"). vm_compute. reflexivity.
Qed.

(** ** The statements of the properties *)

Theorem C51_lemma :
  (exists w fs a T text h,
     steady_files w fs /\ no_percent (cw_linesep w) /\ a_debug a = false /\ a_options a = None /\
     resolved (jv_cwd (w_jvm (cw_world w))) (asked_target a) T /\ f_exists fs T = true /\
     (exists ex, chooses w fs a T ex UseDefault) /\
     pretty_print default_options T (cw_world w) [] = (Ok text, h) /\
     fst (run_cli a w cli_start) = 1%Z /\ cs_out (snd (run_cli a w cli_start)) = []) /\
  (exists w fs a T text h,
     steady_files w fs /\ no_percent (cw_linesep w) /\ a_debug a = false /\ a_options a = None /\
     resolved (jv_cwd (w_jvm (cw_world w))) (asked_target a) T /\ f_exists fs T = true /\
     (exists ex, chooses w fs a T ex UseDefault) /\
     pretty_print default_options T (cw_world w) [] = (Ok text, h) /\
     fst (run_cli a w cli_start) = 0%Z /\ cs_out (snd (run_cli a w cli_start)) <> text ++ cw_linesep w).
Proof.
  split.
  - destruct C51_counterexample as (n & w & fs & text & h & -> & H1 & H2 & H3 & H4 & H5 & H6 & H7).
    eexists _, fs, target_args, (pth "/home/u"), text, h. split; [exact H1|]. split; [exact H2|]. split; [reflexivity|]. split; [reflexivity|]. split; [exact target_resolved|].
    split; [exact H3|]. split; [eexists; exact H4|]. split; [exact H5|]. now split.
  - destruct C51_altered as (n & w & fs & text & h & -> & H1 & H2 & H3 & H4 & H5 & H6 & H7).
    eexists _, fs, target_args, (pth "/home/u"), text, h. split; [exact H1|]. split; [exact H2|]. split; [reflexivity|]. split; [reflexivity|]. split; [exact target_resolved|].
    split; [exact H3|]. split; [eexists; exact H4|]. split; [exact H5|]. now split.
Qed.

Theorem C53_lemma : exists w fs a T x documented,
  steady_files w fs /\ a_debug a = false /\ a_options a = None /\ resolved (jv_cwd (w_jvm (cw_world w))) (asked_target a) T /\
  f_exists fs T = true /\
  (forall d, In d [T; mkPath true (jv_cwd (w_jvm (cw_world w))); cw_home w] -> f_exists fs (child d (js ".prettyprint")) = false) /\
  good fs (child (cw_exe_dir w) (js ".prettyprint")) x /\
  (exists o h, map_to_options T x (cw_world w) [] = (Ok o, h) /\ fst (pretty_print o T (cw_world w) h) = Ok documented) /\
  fst (run_cli a w cli_start) = 0%Z /\ cs_out (snd (run_cli a w cli_start)) <> documented ++ cw_linesep w /\
  fst (pretty_print default_options T (cw_world w) []) = Ok (removelast (cs_out (snd (run_cli a w cli_start)))).
Proof.
  exists (case_cli sample_world beside_executable), beside_executable, target_args, (pth "/home/u"), shallow_document.
  eexists. split; [apply case_steady|]. split; [reflexivity|]. split; [reflexivity|]. split; [exact target_resolved|].
  split; [vm_compute; reflexivity|]. split; [|split; [|split; [|split; [|split]]]].
  - intros d [<-|[<-|[<-|[]]]]; vm_compute; reflexivity.
  - apply is_good; vm_compute; reflexivity.
  - do 2 eexists. split; [reflexivity|]. vm_compute. reflexivity.
  - vm_compute. reflexivity.
  - vm_compute. discriminate.
  - vm_compute. reflexivity.
Qed.

Theorem C56_lemma : exists w fs a T ex msg,
  steady_files w fs /\ no_percent (cw_linesep w) /\ a_debug a = false /\
  resolved (jv_cwd (w_jvm (cw_world w))) (asked_target a) T /\ f_exists fs T = true /\
  chooses w fs a T ex (Refuse msg) /\
  cs_err (snd (run_cli a w cli_start)) <> js "[ERROR] " ++ msg ++ cw_linesep w.
Proof.
  exists (case_cli sample_world home_files), home_files, (explicit_args "100%.yml"), (pth "/home/u"). do 2 eexists.
  split; [apply case_steady|]. split; [apply linesep_plain|]. split; [reflexivity|]. split; [apply no_target_resolved|].
  split; [vm_compute; reflexivity|]. split; [apply percent_options_choice|]. vm_compute. discriminate.
Qed.

Theorem C81_lemma : exists w fs T text,
  steady_files w fs /\ no_percent (cw_linesep w) /\ resolved (jv_cwd (w_jvm (cw_world w))) T T /\ f_exists fs T = true /\
  fst (run_cli (mkArgs (Some T) None false) w cli_start) = 0%Z /\ cs_out (snd (run_cli (mkArgs (Some T) None false) w cli_start)) = text /\
  text <> [] /\
  fst (run_cli (mkArgs (Some T) None true) w cli_start) = 1%Z /\
  ~ exists before, cs_out (snd (run_cli (mkArgs (Some T) None true) w cli_start)) = before ++ text.
Proof.
  exists (case_cli deep_world deep_files), deep_files, (pth "/100%/d"). eexists.
  split; [apply case_steady|]. split; [apply linesep_plain|]. split; [apply plain_resolved; vm_compute; reflexivity|].
  split; [vm_compute; reflexivity|]. split; [vm_compute; reflexivity|]. split; [vm_compute; reflexivity|]. split; [discriminate|].
  split; [vm_compute; reflexivity|]. intros [before H]. apply (f_equal (@rev N)) in H. rewrite rev_app_distr in H. vm_compute in H. discriminate.
Qed.
