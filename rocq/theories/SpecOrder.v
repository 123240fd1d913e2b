(** * How the entries of a directory are displayed, group by group *)

From Verif Require Export SpecScan SpecBuild.

Definition is_file_entry (e : entry) : Prop := match e with EFile _ _ => True | _ => False end.
Definition is_mark (e : entry) : Prop := match e with ESkipped _ | EMaxDepth _ => True | _ => False end.

(** A file whose name satisfies [P]. *)
Definition file_named (P : jstring -> Prop) (e : entry) : Prop := match e with EFile p _ => P (last_name p) | _ => False end.

(** An entry for a path that satisfies [P]. *)
Definition of_path (P : path -> Prop) (e : entry) : Prop := match entry_path e with Some p => P p | None => False end.

(** [es] consists of the given groups, one after the other (each possibly empty), the entries of a group being in the order that
    comes with the group; the "..." marker, if any, is at the end. *)
Definition in_groups (groups : list ((entry -> Prop) * (path -> path -> Prop))) (es : list entry) : Prop :=
  exists parts marks, es = concat parts ++ marks /\ Forall is_mark marks /\
    Forall2 (fun g part => Forall (fst g) part /\ StronglySorted (snd g) (child_paths part)) groups parts.

Definition by_name (a b : path) : Prop := name_lt (last_name a) (last_name b).

(** Case-insensitively by name, then by name. *)
Definition by_name_ci (fold : jchar -> jchar) (a b : path) : Prop :=
  before_ci fold (last_name a) (last_name b) \/ (same_ci fold (last_name a) (last_name b) /\ by_name a b).

(** By the extensions of the name, from the last to the first, then by name. *)
Definition by_parts (fold : jchar -> jchar) (a b : path) : Prop :=
  forall ea eb, has_parts (last_name a) ea -> has_parts (last_name b) eb ->
    parts_before fold (rev ea) (rev eb) \/ (Forall2 (same_ci fold) (rev ea) (rev eb) /\ by_name a b).

(** By precedence, then by name. *)
Definition by_precedence (prec : path -> Z) (a b : path) : Prop :=
  (prec a < prec b)%Z \/ (prec a = prec b /\ by_name a b).

(** The text is that of the tree configured by the options, and in the tree the entries of every directory satisfy [G]. *)
Definition prints_with (G : list entry -> Prop) (o : options) (p : path) (w : world) (out : jstring) (v : view) (dk : disk) (st : settings) : Prop :=
  exists e s, tree_at st dk 0 (location w p) e /\ shows v true e s /\ out = text (o_tree_format o) (labelled v s) /\
    forall k q es, at_depth k e (EDir q es) -> G es.
