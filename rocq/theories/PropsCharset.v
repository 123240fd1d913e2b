(** * Properties of what arrives on standard output *)

From Verif Require Import SpecCharset CharsetFacts CharsetCases.

(** C126. What the command writes to standard output tells the displayed tree, whatever the encoding of standard output. False: in ASCII (the
    encoding in the C and POSIX locales) two trees with different names can arrive as the same bytes. C127 says what arrives. *)
Theorem C126_refuted : exists w1 w2 a t1 t2,
  cw_linesep w1 = cw_linesep w2 /\ asks_for w1 a t1 /\ asks_for w2 a t2 /\
  labels_on_one_line t1 /\ labels_on_one_line t2 /\ labels_paired t1 /\ labels_paired t2 /\
  fst (run_cli a w1 cli_start) = 0%Z /\ fst (run_cli a w2 cli_start) = 0%Z /\
  encode US_ASCII (cs_out (snd (run_cli a w1 cli_start))) = encode US_ASCII (cs_out (snd (run_cli a w2 cli_start))) /\ t1 <> t2.
Proof. exact encoding_counterexample. Qed.
Print Assumptions C126_refuted.

(** C127. In an encoding that extends ASCII, the bytes that arrive are those of the tree with the labels and the symbols as they can be read in it: "?"
    stands for every character the encoding does not have. *)
Theorem C127_what_arrives : forall cs w a t, extends_ascii cs -> asks_for w a t ->
  fst (run_cli a w cli_start) = 0%Z /\
  exists tf r, legible_format cs UNICODE_BOX_DRAWING tf /\ legible_tree cs t r /\
    encode cs (cs_out (snd (run_cli a w cli_start))) = flat_map (bytes_of cs) (text tf r ++ cw_linesep w) /\
    Forall (fun c => cs c <> None) (text tf r ++ cw_linesep w).
Proof. exact what_arrives. Qed.
Print Assumptions C127_what_arrives.
(** ... so the bytes tell the shape of the tree and its labels as they can be read, even where the symbols of the tree cannot be. *)
Theorem C127_bytes_tell_the_shape : forall cs w1 w2 a1 a2 t1 t2, extends_ascii cs -> decodable cs -> cw_linesep w1 = cw_linesep w2 ->
  asks_for w1 a1 t1 -> asks_for w2 a2 t2 -> labels_on_one_line t1 -> labels_on_one_line t2 ->
  encode cs (cs_out (snd (run_cli a1 w1 cli_start))) = encode cs (cs_out (snd (run_cli a2 w2 cli_start))) ->
  exists r, legible_tree cs t1 r /\ legible_tree cs t2 r.
Proof. exact bytes_tell. Qed.
Print Assumptions C127_bytes_tell_the_shape.
(** In UTF-8 they tell the tree itself, if no label has half a surrogate pair. *)
Theorem C127_utf8_tells_the_tree : forall w1 w2 a1 a2 t1 t2, cw_linesep w1 = cw_linesep w2 ->
  asks_for w1 a1 t1 -> asks_for w2 a2 t2 -> labels_on_one_line t1 -> labels_on_one_line t2 -> labels_paired t1 -> labels_paired t2 ->
  encode UTF_8 (cs_out (snd (run_cli a1 w1 cli_start))) = encode UTF_8 (cs_out (snd (run_cli a2 w2 cli_start))) -> t1 = t2.
Proof. exact utf8_tells. Qed.
Print Assumptions C127_utf8_tells_the_tree.
Theorem C127_standard_charsets :
  (extends_ascii US_ASCII /\ decodable US_ASCII) /\ (extends_ascii ISO_8859_1 /\ decodable ISO_8859_1) /\ (extends_ascii UTF_8 /\ decodable UTF_8).
Proof. exact standard_charsets. Qed.
Print Assumptions C127_standard_charsets.

(** A file named e with a grave accent, and a smiling face (a surrogate pair), below the directory u, in three encodings. *)
Example C127_case :
  asks_for (one_cli smile) target_args (one_tree smile) /\ labels_on_one_line (one_tree smile) /\ labels_paired (one_tree smile) /\
  let out := cs_out (snd (run_cli target_args (one_cli smile) cli_start)) in
  encode US_ASCII out = js "u/" ++ [10%N] ++ js "?? ??" ++ [10%N] /\
  encode ISO_8859_1 out = js "u/" ++ [10%N] ++ js "?? " ++ [232%N] ++ js "?" ++ [10%N] /\
  encode UTF_8 out = js "u/" ++ [10; 226; 148; 148; 226; 148; 128; 32; 195; 168; 240; 159; 152; 128; 10]%N.
Proof.
  split; [exact smile_asked|]. split; [apply one_line; cbn; intuition discriminate|]. split; [apply one_paired, smile_paired|].
  vm_compute. repeat split; reflexivity.
Qed.
