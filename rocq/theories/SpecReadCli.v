(** * Vocabulary for reading what the command line program writes *)

From Verif Require Export SpecRead SpecDoc Arguments SpecArgs SpecFormat.

(** A name that a text can tell and the console can write: on one line, not "..." and without '*' or '?' at its end, without '%'. *)
Definition tellable (n : jstring) : Prop := one_line_name n /\ unmarked n /\ ~ In c_percent n.

(** The program is run with the words [args] on a disk that does not change; they ask for [r], no options file is found, everything below can be
    read and all names can be told. *)
Definition plain_run (w : cworld) (args : list jstring) (dk : disk) (r : path) : Prop :=
  exists fs t f tp fp T ex,
    target_part t tp /\ options_part f fp /\ written (tp ++ fp) args /\
    let a := mkArgs (option_map path_of t) (option_map path_of f) false in
    steady_files w fs /\ usual_linesep (cw_linesep w) /\
    resolved (jv_cwd (w_jvm (cw_world w))) (asked_target a) T /\ f_exists fs T = true /\ chooses w fs a T ex UseDefault /\
    steady (cw_world w) dk /\ distinct_names dk /\ real_listings dk /\ Forall real_name (p_names T) /\ p_names T <> [] /\ r = mkPath true (p_names T) /\
    all_can_be_read dk r /\ tellable (last_name r) /\ forall ns n, listed dk r (ns ++ [n]) -> tellable n.
