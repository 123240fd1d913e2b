(** * Specification of what a scan shows (independent of the scanner's code) *)

From Coq Require Export Permutation Sorted.
From Verif Require Export Printer SpecRender.

(** ** A file system that does not change during the run *)

(** What it answers: the kind of a path (links not followed), the attributes of a path (links followed),
    the names in a directory (in the order the operating system lists them), the length of a file. [None]: the call fails. *)
Record disk := mkDisk {
  d_kind : path -> option kind;
  d_attr : path -> option kind;
  d_list : path -> option (list jstring);
  d_length : path -> Z
}.

Definition steady (w : world) (dk : disk) : Prop :=
  (forall h p, w_lstat w h p = d_kind dk p) /\
  (forall h p, w_stat w h p = d_attr dk p) /\
  (forall h p, w_open w h p = opt_bind (d_list dk p) (fun l => Some (mkDirlist l false))) /\
  (forall h p, w_close_ok w h p = true) /\
  (forall h p, w_length w h p = d_length dk p).

Definition is_dir (dk : disk) (p : path) : Prop := d_kind dk p = Some KDir.
Definition is_dirb (dk : disk) (p : path) : bool :=
  match d_kind dk p with Some KDir => true | _ => false end.

(** The entry named [n] of the directory [p]. *)
Definition child (p : path) (n : jstring) : path := mkPath (p_abs p) (p_names p ++ [n]).

(** ** What the user configured *)

(** How an order ranks two paths: negative, zero or positive. *)
Definition ordering := path -> path -> Z.

Record settings := mkSettings {
  s_dirs : path -> bool;       (* directory filter *)
  s_files : path -> bool;      (* file filter *)
  s_limit : path -> Z;         (* child limit, negative = unlimited *)
  s_cmp : ordering;
  s_depth : Z
}.

(** The options [o] mean [st] in the world [w]: the callbacks return these values and do not throw. *)
Definition uses (w : world) (o : options) (st : settings) : Prop :=
  answers w (o_dir_matcher o) (s_dirs st) /\
  answers w (o_file_matcher o) (s_files st) /\
  answers w (o_child_limit o) (s_limit st) /\
  (forall a, answers w (o_comparator o a) (s_cmp st a)) /\
  o_max_depth o = s_depth st.

Definition accepts (st : settings) (dk : disk) (p : path) : bool :=
  if is_dirb dk p then s_dirs st p else s_files st p.

(** ** Order *)

(** The contract of [java.util.Comparator]. *)
Definition contract (c : ordering) : Prop :=
  (forall x y, Z.sgn (c x y) = (- Z.sgn (c y x))%Z) /\
  (forall x y z, (c x y > 0 -> c y z > 0 -> c x z > 0)%Z) /\
  (forall x y z, c x y = 0%Z -> Z.sgn (c x z) = Z.sgn (c y z)).

Definition in_order (c : ordering) (l order : list path) : Prop :=
  Permutation l order /\
  (contract c -> StronglySorted (fun a b => (c a b <= 0)%Z) order).

(** ** The tree *)

(** The children shown for a limit [n], and the "..." marker. *)
Definition limited (n : Z) (l : list path) : list path :=
  if (n <? 0)%Z then l else firstn (Z.to_nat n) l.

Definition marker (n : Z) (l : list path) (dir : path) : list entry :=
  if ((0 <=? n) && (n <? Z.of_nat (length l)))%Z then [ESkipped dir] else [].

(** [tree_at st dk d p e]: [e] is the tree to show for [p], [d] levels below the root. *)
Inductive tree_at (st : settings) (dk : disk) : Z -> path -> entry -> Prop :=
| tree_file d p k :
    ~ is_dir dk p -> d_attr dk p = Some k -> tree_at st dk d p (EFile p k)
| tree_cut d p :
    is_dir dk p -> (s_depth st <= d)%Z -> tree_at st dk d p (EDir p [EMaxDepth d])
| tree_dir d p names order es :
    is_dir dk p -> (d < s_depth st)%Z ->
    d_list dk p = Some names ->
    in_order (s_cmp st) (filter (accepts st dk) (map (child p) names)) order ->
    Forall2 (tree_at st dk (d + 1)%Z) (limited (s_limit st p) order) es ->
    tree_at st dk d p (EDir p (es ++ marker (s_limit st p) order p)).

(** ** Reachable paths *)

(** [reach st dk d0 p0 d q]: [q] is the start [p0] (at depth [d0]) or is reached from it through directories
    above the maximal depth, every path after the start being listed by its parent and accepted. *)
Inductive reach (st : settings) (dk : disk) (d0 : Z) (p0 : path) : Z -> path -> Prop :=
| reach_start : reach st dk d0 p0 d0 p0
| reach_child d p names n :
    reach st dk d0 p0 d p -> is_dir dk p -> (d < s_depth st)%Z ->
    d_list dk p = Some names -> In n names -> accepts st dk (child p n) = true ->
    reach st dk d0 p0 (d + 1)%Z (child p n).

Definition below (root p : path) : Prop := exists ns, p = mkPath (p_abs root) (p_names root ++ ns).

(** What is reached from [root] can be read: directories above the maximal depth can be listed, and the attributes of
    other files can be read. (Nothing is required of what the filter rejects.) It can also be sorted: the JDK may refuse to sort 32 paths or more
    with a comparator that breaks its contract. *)
Definition readable (st : settings) (dk : disk) (root : path) : Prop :=
  forall d p, reach st dk 0 root d p ->
    (is_dir dk p -> (d < s_depth st)%Z ->
       exists l, d_list dk p = Some l /\ (contract (s_cmp st) \/ (length (filter (accepts st dk) (map (child p) l)) < 32)%nat)) /\
    (~ is_dir dk p -> exists k, d_attr dk p = Some k).

(** Directory listings contain no name twice. *)
Definition distinct_names (dk : disk) : Prop := forall p l, d_list dk p = Some l -> NoDup l.

(** ** Positions in a tree *)

(** [at_depth k e x]: [x] occurs [k] levels below the top of [e]. *)
Inductive at_depth : nat -> entry -> entry -> Prop :=
| at_top e : at_depth 0 e e
| at_below k d es c x : In c es -> at_depth k c x -> at_depth (S k) (EDir d es) x.

(** The path an entry stands for. *)
Definition entry_path (e : entry) : option path :=
  match e with EDir p _ | EFile p _ => Some p | ESkipped _ | EMaxDepth _ => None end.

(** The paths of the displayed children of a directory, in display order, without markers. *)
Definition child_paths (es : list entry) : list path :=
  flat_map (fun e => match entry_path e with Some p => [p] | None => [] end) es.

(** The location [prettyPrint] prints: the absolute normalised path. *)
Definition location (w : world) (p : path) : path := normalize (to_absolute (jv_cwd (w_jvm w)) p).

(** The disk of a static file system. *)
Definition static_disk (fs : fsys) (j : jvm) : disk := {|
  d_kind := fun p => opt_bind (fs_lookup fs (jv_cwd j) p) (fun i => Some (lkind i));
  d_attr := fun p => opt_bind (fs_lookup fs (jv_cwd j) p) skind;
  d_list := fun p => opt_bind (fs_lookup fs (jv_cwd j) p)
                       (fun i => match i with IDir l => Some l | _ => None end);
  d_length := fun p => match fs_lookup fs (jv_cwd j) p with Some i => ilength i | None => 0%Z end
|}.

(** Two disks that differ only in the order in which they list directories. *)
Definition same_but_order (dk1 dk2 : disk) : Prop :=
  (forall p, d_kind dk1 p = d_kind dk2 p) /\ (forall p, d_attr dk1 p = d_attr dk2 p) /\
  (forall p, match d_list dk1 p, d_list dk2 p with
             | Some l1, Some l2 => Permutation l1 l2
             | None, None => True
             | _, _ => False
             end).

(** The text [out] displays the tree [e]. *)
Definition displayed (v : view) (tf : tree_format) (out : jstring) (e : entry) : Prop :=
  exists s, shows v true e s /\ out = text tf (labelled v s).

(** The order of names by UTF-16 code units. *)
Inductive name_lt : jstring -> jstring -> Prop :=
| name_lt_prefix y b : name_lt [] (y :: b)
| name_lt_unit x a y b : (x < y)%N -> name_lt (x :: a) (y :: b)
| name_lt_same x a b : name_lt a b -> name_lt (x :: a) (x :: b).

(** The order a user asked for with [withSort(c)]: [c], ties broken by name. *)
Definition refined (c : ordering) (a b : path) : Prop :=
  (c a b < 0)%Z \/ (c a b = 0%Z /\ name_lt (last_name a) (last_name b)).

(** ** Orders a user can configure: an order that honours the contract, ties broken by name. (By name alone: all ties.) *)
Definition configured_order (c : ordering) : Prop :=
  exists c0, contract c0 /\ forall a b, (c a b < 0 <-> refined c0 a b)%Z /\ (c a b > 0 <-> refined c0 b a)%Z.

(** [withSort(c)] was the last sort option given, or none was given at all. *)
Definition sorts_by (c : comparator) (o : options) : Prop :=
  o_comparator o = o_comparator (with_sort c default_options).
Definition sorts_by_default (o : options) : Prop :=
  o_comparator o = o_comparator default_options.

(** The printer with the options [o], which have the view [v], shows [s] for the path [p], as the text [out]. *)
Definition displays (o : options) (v : view) (w : world) (p : path) (s : shown) (out : jstring) : Prop :=
  sees w o v /\ exists e h k, scan o (location w p) w [] = (Ok e, h) /\ shows v true e s /\ pretty_print o p w [] = (Ok out, k).
