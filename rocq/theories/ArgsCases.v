(** * Concrete command lines used by the examples beside the theorems *)

From Verif Require Export SpecArgs CliCases.
Close Scope Z_scope.

(** "-5" is a number, "@list" a file with two words, "@types" a directory. *)
Definition case_pico : pico := {|
  pc_number := fun s => jeqb s (js "-5");
  pc_at_file := fun s => if jeqb s (js "list") then WordsOf [js "src"; js "-d"] else if jeqb s (js "types") then Unreadable else NoFile;
  pc_lenient := false;
  pc_class_path := [Some (MainAttributes [(js "Scm-Url", js "u")])];
  pc_usage := js "usage";
  pc_refusal := fun args => js "refused " ++ concat args;
  pc_trace := js "trace"
|}.

(** Directories with names that start with '@' and '-'. *)
Definition odd_table : table := [
  ([], IDir [js "home"]); (names_of "home", IDir [js "u"]);
  (names_of "home/u", IDir [js "@types"; js "-x"]);
  (names_of "home/u/@types", IDir [js "a.ts"]); (names_of "home/u/@types/a.ts", IReg 1);
  (names_of "home/u/-x", IDir [js "b"]); (names_of "home/u/-x/b", IReg 1)
].
Definition odd_world : cworld :=
  case_cli (static_world (table_fs odd_table) sample_jvm) (case_files [] [pth "/home/u"; pth "/home/u/@types"; pth "/home/u/-x"]).

(** The run ends well, and what it wrote. *)
Definition ends_with (r : Z * cstate) (text : string) : Prop :=
  fst r = 0%Z /\ readable (cs_out (snd r)) = (text ++ String (ascii_of_N 10) "")%string.

Lemma unwritable_paths : exists pc w t u,
  ends_with (run_cli (mkArgs (Some (path_of t)) None false) w cli_start) (readable t ++ "/" ++ String (ascii_of_N 10) "## a.ts") /\
  execute pc [t] w cli_start = (1%Z, write_err (pc_trace pc) cli_start) /\
  ends_with (run_cli (mkArgs (Some (path_of u)) None false) w cli_start) (readable u ++ "/" ++ String (ascii_of_N 10) "## b") /\
  execute pc [u] w cli_start = (2%Z, write_err (pc_refusal pc [u]) cli_start).
Proof. exists case_pico, odd_world, (js "@types"), (js "-x"). split; [split; vm_compute; reflexivity|]. split; [reflexivity|]. split; [split; vm_compute; reflexivity|reflexivity]. Qed.
