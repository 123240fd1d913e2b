(** * Properties of the contents of options files *)

From Verif Require Import SpecSchema SpecFormat SchemaFacts SchemaCases DocFacts.
Close Scope Z_scope.

(** C99. A file conforming to the published schema is accepted. False: a conforming file may contain an empty glob, list of matchers or list of
    limits, or a number that does not fit Java's int; the command then fails and prints nothing. C100 is what holds. *)
Theorem C99_refuted : Forall (fun t =>
  conforms t options_schema = true /\ unambiguous t /\ plain_numbers t /\
  exists w fs a T q, given w fs a T q t /\ fst (run_cli a w cli_start) = 1%Z /\ cs_out (snd (run_cli a w cli_start)) = [])
  [empty_glob_file; empty_matchers_file; empty_limits_file; big_number_file].
Proof. exact C99_counterexamples. Qed.
Print Assumptions C99_refuted.

(** C100. A conforming file without repeated keys, with numbers written as integers: if no glob, list of matchers or list of limits is empty and
    every number fits Java's int, what is read is a valid document, the one that is written in the file, and the command uses it. Otherwise
    the command fails and prints nothing. *)
Theorem C100_conforming_files : forall t r, unambiguous t -> plain_numbers t -> conforms t options_schema = true -> reads_as t r ->
  (filled t /\ numbers_fit t -> exists x, r = LoadDoc x /\ acceptable x /\ written t x) /\
  (forall x, r = LoadDoc x -> acceptable x -> filled t /\ numbers_fit t).
Proof. exact C100_reading. Qed.
Print Assumptions C100_conforming_files.

Theorem C100_command : forall w fs a T q t, given w fs a T q t -> usual_linesep (cw_linesep w) ->
  unambiguous t -> plain_numbers t -> conforms t options_schema = true ->
  (filled t /\ numbers_fit t -> exists x, written t x /\ acceptable x /\ chooses w fs a T [q] (UseDocument x) /\ command_uses w a T x) /\
  (~ (filled t /\ numbers_fit t) -> forall s, exists s', run_cli a w s = (1%Z, s') /\ cs_out s' = cs_out s).
Proof. exact C100_command_lemma. Qed.
Print Assumptions C100_command.

Example C100_case :
  given (file_world rich_file) (file_case (read_loaded rich_file)) (explicit_args "o.yml") (pth "/home/u") (pth "/home/u/o.yml") rich_file /\
  unambiguous rich_file /\ plain_numbers rich_file /\ conforms rich_file options_schema = true /\ read_as rich_file rich_document /\
  filled rich_file /\ numbers_fit rich_file /\ fst (run_cli (explicit_args "o.yml") (file_world rich_file) cli_start) = 0%Z /\
  ~ filled empty_glob_file /\ ~ numbers_fit big_number_file.
Proof.
  assert (Ti : tidy rich_file = true) by (vm_compute; reflexivity).
  assert (C : conforms rich_file options_schema = true) by (vm_compute; reflexivity).
  assert (B : read_as rich_file rich_document) by (apply read_as_bound; vm_compute; reflexivity).
  split; [apply given_case; discriminate|]. split; [now apply tidy_unambiguous|]. split; [now apply tidy_plain|]. split; [exact C|].
  split; [exact B|].
  assert (F : filled rich_file /\ numbers_fit rich_file).
  { apply conforming_accepted; [now apply tidy_unambiguous|now apply tidy_plain|exact C|]. exists rich_document. split; [exact B|now apply valid_options_iff]. }
  destruct F as [F1 F2]. split; [exact F1|]. split; [exact F2|]. split; [vm_compute; reflexivity|]. split.
  - intros [H _]. apply (H (name_glob "")); [|now exists [(js "type", TStr (js "name")); (js "glob", TStr [])]; split; [|right; left]].
    eapply wi_field; [now left|]. eapply wi_field; [now left|]. constructor.
  - intro H. assert (K : fits_int 3000000000) by (apply H; eapply wi_field; [now left|constructor]). vm_compute in K. destruct K as [_ K]. now apply K.
Qed.

(** C101. A file that does not conform to the schema is refused. False: unknown keys are ignored, such as a misspelt "maxdepth" or "$schema"; null
    stands for a missing value; any negative limit is accepted. C102 is what holds. *)
Theorem C101_refuted : Forall (fun t =>
  conforms t options_schema = false /\ unambiguous t /\ plain_numbers t /\ (exists x, read_as t x /\ acceptable x) /\
  exists w fs a T q, given w fs a T q t /\ fst (run_cli a w cli_start) = 0%Z)
  [misspelt_file; null_file; limit_file; schema_file; extra_file].
Proof. exact C101_counterexamples. Qed.
Print Assumptions C101_refuted.

(** The misspelt option has no effect: the whole tree is printed. *)
Example C101_case : cs_out (snd (run_cli (explicit_args "o.yml") (file_world misspelt_file) cli_start)) =
  cs_out (snd (run_cli (mkArgs None None false) (case_cli sample_world home_files) cli_start)) /\
  cs_out (snd (run_cli (explicit_args "o.yml") (file_world misspelt_file) cli_start)) <>
  cs_out (snd (run_cli (explicit_args "o.yml") (file_world shallow_file) cli_start)).
Proof. split; [vm_compute; reflexivity|vm_compute; discriminate]. Qed.

(** C102. A file without repeated keys, conforming or not, is certainly read as the valid document [x] exactly if it says [x] ([written]: every
    setting with its values, nothing else); the command then uses [x]. *)
Theorem C102_read_what_is_written : forall t x, unambiguous t -> acceptable x -> read_as t x <-> written t x.
Proof. exact read_what_is_written. Qed.
Print Assumptions C102_read_what_is_written.

Theorem C102_command : forall w fs a T q t x, given w fs a T q t -> usual_linesep (cw_linesep w) ->
  unambiguous t -> acceptable x -> written t x ->
  chooses w fs a T [q] (UseDocument x) /\ command_uses w a T x.
Proof. exact C102_command_lemma. Qed.
Print Assumptions C102_command.

Example C102_case : unambiguous rich_file /\ acceptable rich_document /\ written rich_file rich_document /\ written misspelt_file empty_document.
Proof.
  assert (U : unambiguous rich_file) by (apply tidy_unambiguous; vm_compute; reflexivity).
  assert (A : acceptable rich_document) by now apply valid_options_iff.
  split; [exact U|]. split; [exact A|]. split; apply read_what_is_written; auto.
  - apply read_as_bound. vm_compute. reflexivity.
  - apply tidy_unambiguous. vm_compute. reflexivity.
  - now apply valid_options_iff.
  - apply read_as_bound. vm_compute. reflexivity.
Qed.

(** C103. Files that differ only in the order of keys and in keys that no option uses, anywhere in them and with any values, are read alike. *)
Theorem C103_other_keys_have_no_effect : forall t t', same_settings t t' -> forall r, reads_as t r <-> reads_as t' r.
Proof. exact same_reading. Qed.
Print Assumptions C103_other_keys_have_no_effect.

Example C103_case : same_settings shallow_file commented_file /\ read_as commented_file shallow_document.
Proof.
  split; [|apply read_as_bound; vm_compute; reflexivity]. apply ss_fields.
  - apply distinct_keys_iff. vm_compute. reflexivity.
  - apply distinct_keys_iff. vm_compute. reflexivity.
  - intros k v _ [[= <- <-]|[]]. exists (TInt 1). split; [right; now left|constructor].
  - intros k v' K [[= <- <-]|[[= <- <-]|[[= <- <-]|[]]]]; try (exists (TInt 1); now left); exfalso;
      (assert (E : existsb (jeqb (js "comment")) known_keys = false /\ existsb (jeqb (js "$schema")) known_keys = false) by (split; vm_compute; reflexivity));
      destruct E as [E1 E2].
    + rewrite <- not_true_iff_false in E1. apply E1. apply existsb_exists. exists (js "comment"). split; [exact K|apply PathFacts.jeqb_refl].
    + rewrite <- not_true_iff_false in E2. apply E2. apply existsb_exists. exists (js "$schema"). split; [exact K|apply PathFacts.jeqb_refl].
Qed.
