(** * Concrete failing runs *)

From Verif Require Import SpecFail SpecMatch SpecDoc SpecFormat Cases DocTreeFacts DocFacts FailFacts FailCliFacts DocCases CliRefs CliCases.

(** [sample_world], but "/home/u/src" cannot be opened. *)
Definition closed_world : world := {|
  w_lstat := w_lstat sample_world;
  w_stat := w_stat sample_world;
  w_length := w_length sample_world;
  w_open := fun h p => if path_eqb p (pth "/home/u/src") then None else w_open sample_world h p;
  w_close_ok := w_close_ok sample_world;
  w_jvm := w_jvm sample_world
|}.

Definition said {A} (r : res A) : option jstring := match r with Throw x => message x | Ok _ => None end.
Definition hist_of {A} (r : res A * hist) : trace := rev (snd r).

Lemma dangling_case : let fs := case_files [] [pth "/r"] in let w := case_cli sample_world fs in let a := mkArgs (Some (pth "/r")) None false in
  resolved (jv_cwd (w_jvm (cw_world w))) (asked_target a) (pth "/r") /\ (exists ex, chooses w fs a (pth "/r") ex UseDefault) /\
  followed UseDefault bare_document /\ steady sample_world sample_disk /\
  (forall text, ~ shows_document sample_jvm sample_disk (names_of "r") bare_document text) /\
  readable (cs_err (snd (run_cli a w cli_start))) = readable (js "[ERROR] Error while pretty printing: Unable to read file attributes: /r/x" ++ [10%N]).
Proof.
  intros fs w a. split; [apply plain_resolved; reflexivity|]. split.
  { eexists. eapply ch_fallback with (here := pth "/home/u/.prettyprint") (home := pth "/r/.prettyprint"); [reflexivity| | |].
    - apply (name_resolved ".prettyprint"). vm_compute. reflexivity.
    - apply plain_resolved; reflexivity.
    - repeat constructor. }
  split; [now right|]. split; [apply sample_steady|]. split; [|vm_compute; reflexivity].
  intros text Hs. eapply (document_text sample_world sample_disk (names_of "r") bare_document [] default_options [] text) in Hs.
  - destruct Hs as (h2 & E). change (fst (pretty_print default_options (mkPath true (names_of "r")) sample_world [])) with
      (fst (pretty_print default_options (pth "/r") sample_world [])) in *.
    assert (F : fst (pretty_print default_options (mkPath true (names_of "r")) sample_world []) = Throw (ExUncheckedIO ReadAttributes (pth "/r/x"))) by (vm_compute; reflexivity).
    rewrite E in F. discriminate.
  - apply sample_steady.
  - apply sample_distinct.
  - apply table_real. vm_compute. reflexivity.
  - apply all_real. vm_compute. reflexivity.
  - discriminate.
  - apply empty_acceptable.
  - discriminate.
  - reflexivity.
Qed.

Lemma split_at {A} (n : nat) (l r : list A) : skipn n l = r -> l = firstn n l ++ r.
Proof. intros <-. symmetry. apply firstn_skipn. Qed.
