(** * Vocabulary for the properties of the path matchers *)

From Verif Require Export SpecText SpecScan SpecHist SpecPath.

(** On the paths of [D] the matcher [m] answers [g] (it may do anything on the others). *)
Definition answers_on (w : world) (D : path -> Prop) (m : matcher) (g : path -> bool) : Prop :=
  forall p h, D p -> exists h', m p w h = (Ok (g p), h').

(** ** Combinations *)

(** The matchers are asked about [p] from left to right until one answers [d]; the result says whether one did.
    An exception ends the evaluation. *)
Inductive asked (w : world) (p : path) (d : bool) : list matcher -> hist -> res bool -> hist -> Prop :=
| asked_end h : asked w p d [] h (Ok false) h
| asked_stop m ms h h' : m p w h = (Ok d, h') -> asked w p d (m :: ms) h (Ok true) h'
| asked_throw m ms h e h' : m p w h = (Throw e, h') -> asked w p d (m :: ms) h (Throw e) h'
| asked_next m ms h h' r h'' : m p w h = (Ok (negb d), h') -> asked w p d ms h' r h'' -> asked w p d (m :: ms) h r h''.

(** The answer that decides, and the result when one such answer was met. *)
Definition decisive (md : mode) : bool := match md with ALL => false | ANY => true | NONE => true end.
Definition verdict (md : mode) (met : bool) : bool := match md with ALL => negb met | ANY => met | NONE => negb met end.

(** The method that is called: [PathMatchers.allOf], [anyOf], [noneOf]. *)
Definition combination (md : mode) (ms : list (option matcher)) : res matcher :=
  match md with ALL => pm_all_of ms | ANY => pm_any_of ms | NONE => pm_none_of ms end.

(** How many matchers a client has combined. *)
Fixpoint combines (cmds : list coll_cmd) : nat :=
  match cmds with [] => 0 | CChange _ :: cmds => combines cmds | CCombine _ :: cmds => S (combines cmds) end.
(** The elements of the collection after the commands. *)
Fixpoint contents (l : list (option matcher)) (cmds : list coll_cmd) : list (option matcher) :=
  match cmds with [] => l | CChange l' :: cmds => contents l' cmds | CCombine _ :: cmds => contents l cmds end.

(** ** Ancestors and descendants *)

(** [q] is a proper ancestor of [p] as [p] is written: cut off at least one name, something being left. *)
Definition is_ancestor (q p : path) : Prop :=
  p_abs q = p_abs p /\ (exists rest, rest <> [] /\ p_names p = p_names q ++ rest) /\
  (p_abs q = true \/ p_names q <> []).

(** [q] is [k] levels below the directory [p], no link being followed. *)
Inductive descends (dk : disk) (p : path) : nat -> path -> Prop :=
| desc_child names n :
    is_dir dk p -> d_list dk p = Some names -> In n names -> descends dk p 1 (child p n)
| desc_deeper k q names n :
    descends dk p k q -> is_dir dk q -> d_list dk q = Some names -> In n names -> descends dk p (S k) (child q n).

(** What lies up to [z] levels below [p] can be read. *)
Definition readable_below (dk : disk) (z : Z) (p : path) : Prop :=
  (is_dir dk p -> exists l, d_list dk p = Some l) /\
  forall k q, descends dk p k q -> (Z.of_nat k <= z)%Z ->
    d_kind dk q <> None /\ (is_dir dk q -> (Z.of_nat k < z)%Z -> exists l, d_list dk q = Some l).

(** The children of [p] (if it is a directory) can be listed and their kinds read. *)
Definition readable_children (dk : disk) (p : path) : Prop :=
  is_dir dk p -> exists names, d_list dk p = Some names /\ forall n, In n names -> d_kind dk (child p n) <> None.

(** ** Names *)

(** [n] is the last name element of [p]; "/" has none (and that of the empty path is empty). *)
Inductive ends_with_name : path -> jstring -> Prop :=
| ewn_last abs l n : ends_with_name (mkPath abs (l ++ [n])) n
| ewn_empty : ends_with_name (mkPath false []) [].

(** What a walk of the file system throws when it cannot start or cannot go on. *)
Definition walk_failure (x : exn) : Prop := exists p, x = ExUncheckedIO WalkStart p \/ x = ExUncheckedIO WalkNext p.

(** ** Matchers assembled with PathMatchers from matchers in [base]; those that look for children, descendants or siblings only if [walks] *)
Inductive assembled (w : world) (walks : bool) (base : matcher -> Prop) : matcher -> Prop :=
| as_base m : base m -> assembled w walks base m
| as_not m : assembled w walks base m -> assembled w walks base (pm_not m)
| as_combined md ms c : (forall m, In (Some m) ms -> assembled w walks base m) -> combine_matchers ms md = Ok c -> assembled w walks base c
| as_if i t e : assembled w walks base i -> assembled w walks base t -> assembled w walks base e -> assembled w walks base (pm_if_then_else i t e)
| as_absolute m : assembled w walks base m -> assembled w walks base (pm_absolute_path m)
| as_relative ref m c h h' : assembled w walks base m -> pm_relative_path ref m w h = (Ok c, h') -> assembled w walks base c
| as_absolute_glob g c h h' : pm_absolute_path_glob g w h = (Ok c, h') -> assembled w walks base c
| as_relative_glob ref g c h h' : pm_relative_path_glob ref g w h = (Ok c, h') -> assembled w walks base c
| as_name n : assembled w walks base (pm_name n)
| as_name_ci n : assembled w walks base (pm_name_ignore_case n)
| as_name_matching f : assembled w walks base (pm_name_matching f)
| as_name_glob g c h h' : pm_name_glob g w h = (Ok c, h') -> assembled w walks base c
| as_prefix x : assembled w walks base (pm_name_starting_with x)
| as_suffix x : assembled w walks base (pm_name_ending_with x)
| as_extension x : assembled w walks base (pm_extension x)
| as_directory : assembled w walks base pm_is_directory
| as_file : assembled w walks base pm_is_file
| as_regular : assembled w walks base pm_is_regular_file
| as_link : assembled w walks base pm_is_symbolic_link
| as_parent m : assembled w walks base m -> assembled w walks base (pm_direct_parent m)
| as_ancestor m : assembled w walks base m -> assembled w walks base (pm_any_ancestor m)
| as_child m : walks = true -> assembled w walks base m -> assembled w walks base (pm_any_direct_child m)
| as_descendant m : walks = true -> assembled w walks base m -> assembled w walks base (pm_any_descendant m)
| as_sibling m : walks = true -> assembled w walks base m -> assembled w walks base (pm_sibling m).
