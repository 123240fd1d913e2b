(** * Two texts that differ by a line *)

From Verif Require Export SpecMeta.

(** The row [r] when its ancestor-or-self [k] levels below the root has become the last of its siblings. *)
Definition now_last (k : nat) (r : row) : row := (firstn (k - 1) (fst r) ++ true :: skipn k (fst r), snd r).

(** The row [r] of a tree that is put below another one, at the place given by [flags]. *)
Definition placed (flags : list bool) (r : row) : row := (flags ++ fst r, snd r).

Definition lines (tf : tree_format) (rs : list row) : jstring := join [c_nl] (map (row_text tf) rs).

(** Without [f] its directory is not merged with another one: there is no compaction, or [f] is not shown beside exactly one entry, a directory, or they are in
    the printed directory itself or in one with a line extension. *)
Definition merges_nothing (st : settings) (dk : disk) (v : view) (root f : path) : Prop :=
  v_compact v = true -> forall d n names c, f = child d n -> d_list dk d = Some names ->
    Permutation (filter (accepts st dk) (map (child d) names)) [f; c] -> is_dir dk c -> d = root \/ v_ext v d <> None.

(** Neither with [f] nor without it its directory is merged with another one. *)
Definition stands_alone (st : settings) (dk : disk) (v : view) (root f : path) : Prop :=
  merges_nothing st dk v root f /\
  (v_compact v = true -> is_dir dk f -> forall d n names, f = child d n -> d_list dk d = Some names ->
    Permutation (filter (accepts st dk) (map (child d) names)) [f] -> d = root \/ v_ext v d <> None).
