(** * What the functions in the options are asked about *)

From Verif Require Export SpecScan SpecMeta.
Open Scope Z_scope.

(** [q] is [root] or below, at most [n] levels. *)
Definition within (root : path) (n : Z) (q : path) : Prop := exists ns, q = deeper root ns /\ Z.of_nat (length ns) <= n.

(** [a] and [b] are in the same listing of a directory, at most [n] levels below [root]. *)
Definition side_by_side (w : world) (root : path) (n : Z) (a b : path) : Prop :=
  exists d h dl x y, within root (n - 1) d /\ w_open w h d = Some dl /\ In x (dl_names dl) /\ In y (dl_names dl) /\ a = child d x /\ b = child d y.

(** The filter for its kind accepted [q], right after its kind was looked up. *)
Definition accepted (w : world) (o : options) (q : path) : Prop :=
  exists h a, w_lstat w h q = a /\
    match a with
    | Some KDir => fst (o_dir_matcher o q w (EvLstat q a :: h)) = Ok true
    | _ => fst (o_file_matcher o q w (EvLstat q a :: h)) = Ok true
    end.

(** The same depth, format and compaction, and functions that agree:
    the directory filter about paths below the root that were just found to be directories, the file filter about other paths below the root, the order about
    entries of the same directory that were accepted, the child limit about the root and accepted directories that were just opened and are above the maximal
    depth, the others about the root and accepted paths below. *)
Definition agree_where_asked (w : world) (root : path) (o o' : options) : Prop :=
  let n := o_max_depth o in
  let listed_at q := side_by_side w root n q q in
  o_max_depth o' = n /\ o_tree_format o' = o_tree_format o /\ o_compact o' = o_compact o /\
  (forall q h, listed_at q -> w_lstat w h q = Some KDir ->
     o_dir_matcher o' q w (EvLstat q (Some KDir) :: h) = o_dir_matcher o q w (EvLstat q (Some KDir) :: h)) /\
  (forall q h a, listed_at q -> w_lstat w h q = a -> a <> Some KDir -> o_file_matcher o' q w (EvLstat q a :: h) = o_file_matcher o q w (EvLstat q a :: h)) /\
  (forall a b h, side_by_side w root n a b -> accepted w o a -> accepted w o b -> o_comparator o' a b w h = o_comparator o a b w h) /\
  (forall q h dl, within root (n - 1) q -> q = root \/ accepted w o q -> w_open w h q = Some dl ->
     o_child_limit o' q w (EvOpen q :: h) = o_child_limit o q w (EvOpen q :: h)) /\
  (forall q h, q = root \/ (listed_at q /\ accepted w o q) -> o_emoji o' q w h = o_emoji o q w h) /\
  match o_line_extension o, o_line_extension o' with
  | Some f, Some f' => forall q h, q = root \/ (listed_at q /\ accepted w o q) -> f' q w h = f q w h
  | None, None => True
  | _, _ => False
  end.
