(** * Vocabulary for devices *)

From Verif Require Export Stream SpecCharset.
Close Scope Z_scope.

(** A device that takes whatever is written. *)
Definition reliable (dev : device) : Prop := forall k arrived n, n <= dev k arrived n.

(** A device that has room for [room] bytes: it takes what fits. *)
Definition takes_only (room : nat) (dev : device) : Prop := forall k arrived n, dev k arrived n = room - length arrived.

(** The pieces in which the command [a] writes its standard output, in the charset [cs]. *)
Definition written_in (cs : charset) (w : cworld) (a : cli_args) (pieces : list (list N)) : Prop :=
  concat pieces = encode cs (cs_out (snd (run_cli a w cli_start))).
