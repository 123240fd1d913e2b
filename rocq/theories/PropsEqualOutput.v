(** * Comparing two outputs of the program *)

From Verif Require Import EqualOutputCases EqualOutputFacts.
Open Scope nat_scope.

(** C191: if the program prints the same text for the same place twice, before and after a change or on two computers, then within 20 levels the same
    paths exist, the same of them are directories (not links to some), and the others lead to files with the same mark. *)
Theorem C191_equal_outputs_equal_content : forall pc w1 w2 args1 args2 dk1 dk2 r s1 s2, plain_run w1 args1 dk1 r -> plain_run w2 args2 dk2 r ->
  exists s1' s2' out1 out2,
    execute pc args1 w1 s1 = (0%Z, s1') /\ cs_out s1' = cs_out s1 ++ out1 ++ cw_linesep w1 /\
    execute pc args2 w2 s2 = (0%Z, s2') /\ cs_out s2' = cs_out s2 ++ out2 ++ cw_linesep w2 /\
    (out1 = out2 -> forall ns, length ns <= 20 ->
       (listed dk1 r ns <-> listed dk2 r ns) /\
       (listed dk1 r ns -> forall m, is_marked dk1 (deeper r ns) m <-> is_marked dk2 (deeper r ns) m)).
Proof. exact equal_outputs. Qed.
Print Assumptions C191_equal_outputs_equal_content.

(** Replacing a file by an empty directory of the same name changes the output. *)
Example C191_case :
  plain_run (table_cli project_table) [js "p"] (table_disk project_table) (pth "/home/u/p") /\
  plain_run (table_cli changed_table) [js "p"] (table_disk changed_table) (pth "/home/u/p") /\
  let out t := cs_out (snd (execute case_pico [js "p"] (table_cli t) cli_start)) in jeqb (out project_table) (out changed_table) = false.
Proof. split; [apply fine_run; vm_compute; reflexivity|]. split; [apply fine_run; vm_compute; reflexivity|]. vm_compute. reflexivity. Qed.

(** C192: for a copy the program prints the same text, wherever the copy is, in whatever order its entries are listed, and whatever words ask for it. *)
Theorem C192_equal_content_equal_outputs : forall pc w1 w2 args1 args2 dk1 dk2 r1 r2 s1 s2, plain_run w1 args1 dk1 r1 -> plain_run w2 args2 dk2 r2 ->
  last_name r1 = last_name r2 -> same_content dk1 r1 dk2 r2 ->
  exists s1' s2' out,
    execute pc args1 w1 s1 = (0%Z, s1') /\ cs_out s1' = cs_out s1 ++ out ++ cw_linesep w1 /\
    execute pc args2 w2 s2 = (0%Z, s2') /\ cs_out s2' = cs_out s2 ++ out ++ cw_linesep w2.
Proof. exact same_outputs. Qed.
Print Assumptions C192_equal_content_equal_outputs.

Example C192_case :
  plain_run (table_cli project_table) [js "p"] (table_disk project_table) (pth "/home/u/p") /\
  plain_run (table_cli turned_table) [js "p"] (table_disk turned_table) (pth "/home/u/p") /\
  same_content (table_disk project_table) (pth "/home/u/p") (table_disk turned_table) (pth "/home/u/p") /\
  d_list (table_disk project_table) (pth "/home/u/p") <> d_list (table_disk turned_table) (pth "/home/u/p").
Proof.
  split; [apply fine_run; vm_compute; reflexivity|]. split; [apply fine_run; vm_compute; reflexivity|]. split; [exact turned_content|]. vm_compute. discriminate.
Qed.
