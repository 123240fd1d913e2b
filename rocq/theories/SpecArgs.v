(** * Vocabulary for command lines *)

From Verif Require Export Arguments SpecText.
From Coq Require Export Permutation.

(** The names of the options, and the letters of those with one letter. *)
Definition names_of_options : list jstring :=
  map js ["-o"; "--options"; "-d"; "--debug"; "-h"; "--help"; "-V"; "--version"]%string.
Definition option_letters : jstring := js "odhV".

(** A word that starts like an option, so that it is not taken for the options file: "--", the name of an option, alone or with "=" and anything after
    it, or a letter of an option with more letters after it. *)
Definition option_like (s : jstring) : Prop :=
  s = js "--" \/ In s names_of_options \/ (exists n x, In n names_of_options /\ s = n ++ js "=" ++ x) \/
  exists c x, In c option_letters /\ x <> [] /\ s = js "-" ++ c :: x.

(** A word that can be the target wherever it stands: one that does not start with '-', "-" itself, and negative numbers. *)
Definition target_word (pc : pico) (s : jstring) : Prop :=
  (forall x, s <> js "-" ++ x) \/ s = js "-" \/ (pc_number pc s = true /\ ~ option_like s).

(** Words that are not read from files. *)
Definition literal_word (s : jstring) : Prop := forall x, s <> js "@" ++ x.

(** Words given to the program, and the words that count: "@name" stands for the words of that file, or for itself if there is no file that can be read;
    "@@" stands for "@" at the start of a word. *)
Inductive spread (pc : pico) : list jstring -> list jstring -> Prop :=
| spread_end : spread pc [] []
| spread_literal s rest rest' : literal_word s -> spread pc rest rest' -> spread pc (s :: rest) (s :: rest')
| spread_twice s rest rest' : spread pc rest rest' -> spread pc ((js "@@" ++ s) :: rest) ((js "@" ++ s) :: rest')
| spread_file name words rest rest' : literal_word name -> pc_at_file pc name = WordsOf words -> spread pc rest rest' ->
    spread pc ((js "@" ++ name) :: rest) (words ++ rest')
| spread_no_file name rest rest' : literal_word name -> pc_at_file pc name = NoFile -> spread pc rest rest' ->
    spread pc ((js "@" ++ name) :: rest) ((js "@" ++ name) :: rest').

(** "true" or "false", in small or capital letters. *)
Definition truth_word (fold : N -> N) (b : bool) (s : jstring) : Prop :=
  same_ci fold (js (if b then "true" else "false")%string) s /\ (b = false -> ~ same_ci fold (js "true") s).

(** What follows an options name without a value: nothing, or a word that starts like an option. *)
Definition no_value_follows (words : list jstring) : Prop := words = [] \/ exists u rest, words = u :: rest /\ option_like u.

(** A value that can be written directly after a letter. *)
Definition attachable (s : jstring) : Prop := s <> [] /\ (forall x, s <> js "=" ++ x) /\ ~ option_like s.

(** The command lines that run the command with a target, an options file and a debug mode, each of them given or not. A line is a sequence of parts in any
    order. The options file stands after "-o", "--options" or "-do", or directly after "-o" or "-do"; without a value it is the empty path. After "--" there is at
    most the target. *)
Inductive line (pc : pico) (fold : N -> N) : option jstring -> option jstring -> option bool -> list jstring -> Prop :=
| line_end : line pc fold None None None []
| line_target t f d ws : target_word pc t -> line pc fold None f d ws -> line pc fold (Some t) f d (t :: ws)
| line_options n t f d ws : In n (map js ["-o"; "--options"]%string) -> ~ option_like f -> line pc fold t None d ws -> line pc fold t (Some f) d (n :: f :: ws)
| line_options_attached t f d ws : attachable f -> line pc fold t None d ws -> line pc fold t (Some f) d ((js "-o" ++ f) :: ws)
| line_options_bare n t d ws : In n (map js ["-o"; "--options"]%string) -> no_value_follows ws -> line pc fold t None d ws -> line pc fold t (Some []) d (n :: ws)
| line_debug n t f ws : In n (map js ["-d"; "--debug"]%string) -> line pc fold t f None ws -> line pc fold t f (Some true) (n :: ws)
| line_debug_value n v b t f ws : In n (map js ["-d"; "--debug"]%string) -> truth_word fold b v -> line pc fold t f None ws ->
    line pc fold t f (Some b) ((n ++ js "=" ++ v) :: ws)
| line_both t f ws : ~ option_like f -> line pc fold t None None ws -> line pc fold t (Some f) (Some true) (js "-do" :: f :: ws)
| line_both_attached t f ws : attachable f -> line pc fold t None None ws -> line pc fold t (Some f) (Some true) ((js "-do" ++ f) :: ws)
| line_both_bare t ws : no_value_follows ws -> line pc fold t None None ws -> line pc fold t (Some []) (Some true) (js "-do" :: ws)
| line_dashes : line pc fold None None None [js "--"]
| line_dashes_target t : ~ option_like t \/ pc_lenient pc = true -> line pc fold (Some t) None None [js "--"; t].

(** What picocli makes of it for the command. *)
Definition args_of (t f : option jstring) (d : option bool) : cli_args :=
  mkArgs (option_map path_of t) (option_map path_of f) (match d with Some b => b | None => false end).

(** A word that contains an option for help or for the version. *)
Definition help_word (s : jstring) : Prop :=
  exists x, s = js "-" ++ x /\ ((exists y, x = js "-help" ++ y) \/ (exists y, x = js "-version" ++ y) \/ In 104%N x \/ In 86%N x).

(** A word whose meaning does not depend on its place: it starts neither with '-' nor with '@'. *)
Definition plain_word (s : jstring) : Prop := (forall x, s <> js "-" ++ x) /\ literal_word s.

(** Ways to write the parts of a command line: each part as one or two words. *)
Definition target_part (t : option jstring) (parts : list (list jstring)) : Prop :=
  match t with None => parts = [] | Some t => plain_word t /\ parts = [[t]] end.
Definition options_part (f : option jstring) (parts : list (list jstring)) : Prop :=
  match f with
  | None => parts = []
  | Some f => plain_word f /\ (parts = [[js "-o"; f]] \/ parts = [[js "--options"; f]] \/ (f <> [] /\ (forall x, f <> js "=" ++ x) /\ parts = [[js "-o" ++ f]]))
  end.
Definition flag_part (names : list string) (given : bool) (parts : list (list jstring)) : Prop :=
  if given then exists n, In n names /\ parts = [[js n]] else parts = [].

(** A command line with these parts, in any order. *)
Definition written (parts : list (list jstring)) (args : list jstring) : Prop :=
  exists order, Permutation parts order /\ args = concat order.

(** Nothing but output: no access to files by the command or the library. *)
Definition no_access (s s' : cstate) : Prop := cs_events s' = cs_events s /\ cs_hist s' = cs_hist s.

(** A way to write the path [t] as one word, whatever its name: an absolute path as it is, another one after "./". *)
Definition protected (t u : jstring) : Prop :=
  (u = t /\ exists x, t = js "/" ++ x) \/ (u = js "./" ++ t /\ forall x, t <> js "/" ++ x).
Definition protected_option (t u : option jstring) : Prop :=
  match t, u with None, None => True | Some t, Some u => protected t u | _, _ => False end.
