(** * Vocabulary for reading paths together with what they are *)

From Verif Require Export SpecScan SpecRead.

(** The paths in an outline that lies in [base]: directories without a mark, other files with theirs, which may be empty. *)
Fixpoint outline_items (base : path) (t : outline) {struct t} : list (path * option jstring) :=
  match t with
  | ODir names kids => map (fun d => (d, None)) (steps base names) ++ flat_map (outline_items (fold_left child names base)) kids
  | OFile n mark => [(child base n, Some mark)]
  | ODots => []
  end.

Definition read_items (tf : tree_format) (p : path) (out : jstring) : option (list (path * option jstring)) :=
  option_map (fun t => outline_items (directory_of p) (read_names t)) (read_text tf out).

(** What a path is on the disk: a directory (not a link to one) or not; then the mark is that of the file it leads to, links followed. The
    attributes of a file with links followed are never those of a link (C60), so "*" does not occur on a real disk. *)
Definition is_marked (dk : disk) (q : path) (m : option jstring) : Prop :=
  match m with
  | None => is_dir dk q
  | Some mark => ~ is_dir dk q /\ exists k, d_attr dk q = Some k /\ mark = match k with KLink => js "*" | KOther => js "?" | KReg | KDir => [] end
  end.
