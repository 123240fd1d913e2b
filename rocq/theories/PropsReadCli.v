(** * From the words of the command line to the paths that a script reads *)

From Verif Require Import ReadCliCases SpecFormat ReadCliFacts.
Open Scope nat_scope.

(** C186: if no options file is found and everything below the target can be read, what the program writes tells exactly the paths of what
    is at most 20 levels below the target, each once; the names are on one line, without '%', and files do not look marked. *)
Theorem C186_program_tells_the_paths : forall pc w fs t f tp fp args T ex dk s,
  target_part t tp -> options_part f fp -> written (tp ++ fp) args ->
  let a := mkArgs (option_map path_of t) (option_map path_of f) false in
  steady_files w fs -> usual_linesep (cw_linesep w) ->
  resolved (jv_cwd (w_jvm (cw_world w))) (asked_target a) T -> f_exists fs T = true ->
  chooses w fs a T ex UseDefault ->
  steady (cw_world w) dk -> distinct_names dk -> real_listings dk -> Forall real_name (p_names T) -> p_names T <> [] ->
  let r := mkPath true (p_names T) in
  all_can_be_read dk r -> tellable (last_name r) -> (forall ns n, listed dk r (ns ++ [n]) -> tellable n) ->
  exists s' out paths, execute pc args w s = (0%Z, s') /\ cs_out s' = cs_out s ++ out ++ cw_linesep w /\ cs_err s' = cs_err s /\
    read_paths UNICODE_BOX_DRAWING r out = Some paths /\ NoDup paths /\
    forall q, In q paths <-> exists ns, listed dk r ns /\ length ns <= 20 /\ q = deeper r ns.
Proof. exact words_paths. Qed.
Print Assumptions C186_program_tells_the_paths.

Example C186_case : exists ex, let a := mkArgs (Some (pth "p")) None false in
  target_part (Some (js "p")) [[js "p"]] /\ options_part None [] /\ written ([[js "p"]] ++ []) [js "p"] /\
  steady_files project_cli project_files /\ usual_linesep (cw_linesep project_cli) /\
  resolved (jv_cwd (w_jvm (cw_world project_cli))) (asked_target a) (pth "/home/u/p") /\ f_exists project_files (pth "/home/u/p") = true /\
  chooses project_cli project_files a (pth "/home/u/p") ex UseDefault /\
  steady (cw_world project_cli) project_disk /\ distinct_names project_disk /\ real_listings project_disk /\
  Forall real_name project_names /\ all_can_be_read project_disk (mkPath true project_names) /\ tellable (js "p") /\
  forall ns n, listed project_disk (mkPath true project_names) (ns ++ [n]) -> tellable n.
Proof.
  destruct project_chosen as (ex & Hc). exists ex. intro a.
  split; [split; [split; discriminate|reflexivity]|]. split; [reflexivity|]. split; [exists [[js "p"]]; split; reflexivity|].
  split; [apply case_steady|]. split; [now left|]. split; [apply (name_resolved "p"); vm_compute; reflexivity|]. split; [reflexivity|]. split; [exact Hc|].
  split; [exact project_steady|]. split; [exact project_distinct|]. split; [exact project_real|]. split; [exact project_real_names|].
  split; [exact project_readable|]. split; [apply tellableb_ok; reflexivity|]. exact project_tellable.
Qed.

Example C186_read : let r := execute case_pico [js "p"] project_cli cli_start in
  fst r = 0%Z /\
  read_paths UNICODE_BOX_DRAWING (pth "/home/u/p") (removelast (cs_out (snd r))) =
    Some (map pth ["/home/u/p"; "/home/u/p/B.java"; "/home/u/p/C.java"; "/home/u/p/D.java"; "/home/u/p/FileTreePrettyPrinter.java"; "/home/u/p/README.md";
                   "/home/u/p/src"; "/home/u/p/src/main"; "/home/u/p/src/main/java"; "/home/u/p/src/main/java/App.java"; "/home/u/p/src/main/java/api"])%string.
Proof. split; vm_compute; reflexivity. Qed.
