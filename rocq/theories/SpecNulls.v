(** * Vocabulary for C132 and C133: calls with arguments that may be null *)

From Verif Require Export Nulls.

(** The call that is meant, if none of the arguments that have to be there is null. *)
Definition limit_meant (r : limit_request) : option limit_cmd :=
  match r with
  | AskLimitDefault z => Some (LOp (LSetDefault z))
  | AskLimitRule (Some rule) => Some (LOp (LAdd rule))
  | AskLimitMatcher (Some m) z => Some (LOp (LAddMatcher m z))
  | AskLimitBuild => Some LBuild
  | _ => None
  end.

(** The text of a line extension may be null: it stands for no extension. *)
Definition ext_meant (r : ext_request) : option ext_cmd :=
  match r with
  | AskExtRule (Some rule) => Some (XOp (XAdd rule))
  | AskExtMatcher (Some m) x => Some (XOp (XAddMatcher m x))
  | AskExtLineBreak (Some m) => Some (XOp (XAddLineBreak m))
  | AskExtBuild => Some XBuild
  | _ => None
  end.

Definition sort_meant (r : sort_request) : option sort_cmd :=
  match r with
  | AskSortRule (Some order) => Some (SOp (SAdd order))
  | AskSortMatcher (Some m) z => Some (SOp (SAddMatcher m z))
  | AskSortFirst (Some m) => Some (SOp (SAddFirst m))
  | AskSortLast (Some m) => Some (SOp (SAddLast m))
  | AskSortBuild => Some SBuild
  | _ => None
  end.

Definition emoji_meant (r : emoji_request) : option emoji_cmd :=
  match r with
  | AskDefaultDir (Some e) => Some (EOp (ESetDefaultDir e))
  | AskDirName (Some n) (Some e) => Some (EOp (ESetDirName n e))
  | AskAddDir (Some m) (Some e) => Some (EOp (EAddDir m e))
  | AskDefaultFile (Some e) => Some (EOp (ESetDefaultFile e))
  | AskFileName (Some n) (Some e) => Some (EOp (ESetFileName n e))
  | AskFileExt (Some x) (Some e) => Some (EOp (ESetFileExt x e))
  | AskAddFile (Some m) (Some e) => Some (EOp (EAddFile m e))
  | AskEmojiBuild => Some EBuild
  | _ => None
  end.

(** The calls that are meant, in order; those with a null left out. *)
Fixpoint all_meant {R C} (meant : R -> option C) (l : list R) : list C :=
  match l with
  | [] => []
  | r :: l' => match meant r with Some c => c :: all_meant meant l' | None => all_meant meant l' end
  end.

(** What a call throws: NullPointerException if an argument is null, nothing otherwise. *)
Definition null_pointer {C} (c : option C) : option exn := match c with Some _ => None | None => Some ExNullPointer end.

(** [l] has a null where none is wanted. *)
Definition has_null {A} (l : option (list (option A))) : Prop := match l with Some l => In None l | None => True end.

(** Some argument of a call of a matcher factory is null. *)
Definition lacks (x : wish) : Prop :=
  match x with
  | WNot m | WAbsolute m | WParent m | WAncestor m | WChild m | WDescendant m | WSibling m => m = None
  | WOf _ m ms => m = None \/ has_null ms
  | WOfAll _ ms => has_null ms
  | WIf i t e => i = None \/ t = None \/ e = None
  | WAbsoluteGlob g | WNameGlob g => g = None
  | WRelativeGlob ref g => ref = None \/ g = None
  | WRelative ref m => ref = None \/ m = None
  | WName n | WNameIgnoreCase n | WNameStarting n | WNameEnding n | WExtension n => n = None
  | WNameMatching f => f = None
  | WDirectory | WFile | WRegularFile | WSymbolicLink => False
  end.

(** The factory call has to compile the glob [g]; "*" is not compiled. *)
Definition compiles (x : wish) (g : jstring) : Prop :=
  g <> js "*" /\ (x = WAbsoluteGlob (Some g) \/ x = WNameGlob (Some g) \/ exists ref, x = WRelativeGlob (Some ref) (Some g)).

(** The matcher of the other properties that a factory call without nulls is for. *)
Inductive makes : wish -> M matcher -> Prop :=
| mk_not m : makes (WNot (Some m)) (ret (pm_not m))
| mk_all m ms : makes (WOfAll ALL (Some (map Some (m :: ms)))) (ret (pm_all (m :: ms)))
| mk_any m ms : makes (WOfAll ANY (Some (map Some (m :: ms)))) (ret (pm_any (m :: ms)))
| mk_none m ms : makes (WOfAll NONE (Some (map Some (m :: ms)))) (ret (pm_none (m :: ms)))
| mk_if i t e : makes (WIf (Some i) (Some t) (Some e)) (ret (pm_if_then_else i t e))
| mk_abs_glob g : makes (WAbsoluteGlob (Some g)) (pm_absolute_path_glob g)
| mk_rel_glob ref g : makes (WRelativeGlob (Some ref) (Some g)) (pm_relative_path_glob ref g)
| mk_abs m : makes (WAbsolute (Some m)) (ret (pm_absolute_path m))
| mk_rel ref m : makes (WRelative (Some ref) (Some m)) (pm_relative_path ref m)
| mk_name n : makes (WName (Some n)) (ret (pm_name n))
| mk_name_ci n : makes (WNameIgnoreCase (Some n)) (ret (pm_name_ignore_case n))
| mk_pattern f : makes (WNameMatching (Some f)) (ret (pm_name_matching f))
| mk_name_glob g : makes (WNameGlob (Some g)) (pm_name_glob g)
| mk_start x : makes (WNameStarting (Some x)) (ret (pm_name_starting_with x))
| mk_end x : makes (WNameEnding (Some x)) (ret (pm_name_ending_with x))
| mk_ext x : makes (WExtension (Some x)) (ret (pm_extension x))
| mk_dir : makes WDirectory (ret pm_is_directory)
| mk_file : makes WFile (ret pm_is_file)
| mk_regular : makes WRegularFile (ret pm_is_regular_file)
| mk_link : makes WSymbolicLink (ret pm_is_symbolic_link)
| mk_parent m : makes (WParent (Some m)) (ret (pm_direct_parent m))
| mk_ancestor m : makes (WAncestor (Some m)) (ret (pm_any_ancestor m))
| mk_child m : makes (WChild (Some m)) (ret (pm_any_direct_child m))
| mk_descendant m : makes (WDescendant (Some m)) (ret (pm_any_descendant m))
| mk_sibling m : makes (WSibling (Some m)) (ret (pm_sibling m)).
