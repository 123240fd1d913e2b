(** * Properties of writing to a device that may fail *)

From Verif Require Import SpecStream CharsetFacts StreamFacts CharsetCases.
Close Scope Z_scope.

(** C173. If the command ends with exit code 0, the tree has been written to standard output. False: failures of writing are noted by the stream, which is never asked,
    so that on a full disk or a closed pipe nothing may have arrived, with exit code 0 and without any message. C174 says what arrives. *)
Theorem C173_refuted : forall size, exists dev w a t pieces, asks_for w a t /\ written_in UTF_8 w a pieces /\ fst (run_cli a w cli_start) = 0%Z /\
  cs_err (snd (run_cli a w cli_start)) = [] /\ ps_arrived (print_all dev size pieces) = [] /\ concat pieces <> [].
Proof. exact exit_counterexample. Qed.
Print Assumptions C173_refuted.

(** C174. Everything arrives if the stream notes no failure, and so if the device takes everything. A device with room for some bytes has the first ones, as many as fit, and
    the stream notes a failure exactly if something did not fit; however the bytes are divided. *)
Theorem C174_what_arrives_on_a_device : forall dev size cs w a pieces, 0 < size -> written_in cs w a pieces ->
  let out := encode cs (cs_out (snd (run_cli a w cli_start))) in let r := print_all dev size pieces in
  (ps_trouble r = false -> ps_arrived r = out) /\
  (reliable dev -> ps_trouble r = false) /\
  (forall room, takes_only room dev -> ps_arrived r = firstn room out /\ (ps_trouble r = true <-> room < length out)).
Proof. exact arrival. Qed.
Print Assumptions C174_what_arrives_on_a_device.

(** ... so that the stream could tell whether the whole tree has arrived. *)
Theorem C174_the_stream_knows : forall dev size cs w a t pieces, 0 < size -> extends_ascii cs -> asks_for w a t -> written_in cs w a pieces ->
  ps_trouble (print_all dev size pieces) = false ->
  exists tf r, legible_format cs UNICODE_BOX_DRAWING tf /\ legible_tree cs t r /\ ps_arrived (print_all dev size pieces) = flat_map (bytes_of cs) (text tf r ++ cw_linesep w).
Proof. exact tree_arrival. Qed.
Print Assumptions C174_the_stream_knows.

(** The tree of C127_case in two pieces, on a device with room for ten bytes, on one that takes everything, and on one that fails once, after four bytes: it gets these
    four bytes twice. *)
Example C174_case :
  let pieces := [js "u/" ++ [10; 226; 148]; [148; 226; 148; 128; 32; 195; 168; 240; 159; 152; 128; 10]]%N in
  let ten : device := fun _ arrived _ => 10 - length arrived in
  let all : device := fun _ _ n => n in
  let once : device := fun k _ n => if k =? 0 then 4 else n in
  extends_ascii UTF_8 /\ asks_for (one_cli smile) target_args (one_tree smile) /\ written_in UTF_8 (one_cli smile) target_args pieces /\
  takes_only 10 ten /\ reliable all /\
  print_all ten 100 pieces = mkPStream (js "u/" ++ [10; 226; 148; 148; 226; 148; 128; 32])%N 2 [148; 226; 148; 128; 32; 195; 168; 240; 159; 152; 128; 10]%N true /\
  print_all all 100 pieces = mkPStream (concat pieces) 2 [] false /\
  print_all once 100 pieces = mkPStream (js "u/" ++ [10; 226]%N ++ concat pieces) 2 [] true.
Proof.
  split; [apply standard_charsets|]. split; [exact smile_asked|]. split; [vm_compute; reflexivity|]. split; [intros k l n; reflexivity|]. split; [intros k l n; apply le_n|].
  vm_compute. repeat split.
Qed.
