(** * Vocabulary for the properties of failing runs *)

From Verif Require Export SpecHist SpecScan Messages.

(** The access [ev] to [q] failed and [x] is the exception about it. *)
Inductive reports : exn -> path -> event -> Prop :=
| rp_attributes q : reports (ExUncheckedIO ReadAttributes q) q (EvStat q None)
| rp_open q : reports (ExUncheckedIO ListFiles q) q (EvOpenFail q)
| rp_close q : reports (ExUncheckedIO ListFiles q) q (EvClose q false)
| rp_iterate q : reports (ExDirectoryIterator q) q (EvIterFail q).

Definition is_close (ev : event) : Prop := match ev with EvClose _ _ => True | _ => False end.

(** Every failed access in [t] (the kind test is none: it has an answer) is one of a user callback, whose accesses satisfy [K]. *)
Definition unfailing (K : trace -> Prop) (t : trace) : Prop := forall ev q, In ev t -> failed ev q -> exists u, K u /\ In ev u.
