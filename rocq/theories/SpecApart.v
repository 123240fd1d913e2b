(** * Vocabulary: the directories of a tree, and the files of one directory (C175) *)

From Verif Require Export SpecMeta.

(** An entry that stands for a file.  States the result of C175; models no code. *)
Definition file_entry (e : entry) : bool := match e with EFile _ _ => true | _ => false end.

(** A tree after every file has been taken out of it.  States the result of C175; models no code. *)
Fixpoint without_files (e : entry) : entry :=
  match e with
  | EDir p es => EDir p (filter (fun x => negb (file_entry x)) (map without_files es))
  | _ => e
  end.

(** The files displayed directly in a directory with the entries [es], in order.  States the result of C175; models no code. *)
Definition files_in (es : list entry) : list entry := filter file_entry es.
