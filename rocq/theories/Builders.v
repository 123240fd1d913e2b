(** * Model of options/ChildLimitBuilder.java, options/LineExtensionBuilder.java, options/TreeFormat.java *)

From Verif Require Export Matchers.

(** ** ChildLimits.java, ChildLimitBuilder.java *)

(** ChildLimits.java:31. *)
Definition UNLIMITED : Z := (-1)%Z.

(** [ToIntFunction<Path>]. ChildLimitBuilder.java:41, 58. *)
Definition limit_fn := path -> M Z.

(** ChildLimitBuilder.java:41-42. *)
Record limit_builder := mkLimitBuilder { lb_limits : list limit_fn; lb_default : Z }.

(** ChildLimits.java:56-58, ChildLimitBuilder.java:44-47; ChildLimits.java:43-45. *)
Definition limit_builder_new (default : Z) : limit_builder := mkLimitBuilder [] default.

(** ChildLimits.java:43-45. *)
Definition limit_builder_default : limit_builder := limit_builder_new UNLIMITED.

(** The operations a client can call on the builder. ChildLimitBuilder.java:78-120. *)
Inductive limit_op :=
| LSetDefault (limit : Z)
| LAdd (rule : limit_fn)
| LAddMatcher (m : matcher) (limit : Z).

(** ChildLimitBuilder.java:97-101. *)
Definition limit_add (b : limit_builder) (rule : limit_fn) : limit_builder :=
  mkLimitBuilder (lb_limits b ++ [rule]) (lb_default b).

(** ChildLimitBuilder.java:119, the rule built from a matcher. *)
Definition limit_rule (m : matcher) (limit : Z) : limit_fn :=
  fun p => b <- m p; ret (if b then limit else UNLIMITED).

(** ChildLimitBuilder.java:78-81, 97-101, 117-120. *)
Definition limit_step (b : limit_builder) (o : limit_op) : limit_builder :=
  match o with
  | LSetDefault z => mkLimitBuilder (lb_limits b) z
  | LAdd rule => limit_add b rule
  | LAddMatcher m z => limit_add b (limit_rule m z)
  end.

(** ChildLimitBuilder.java:61-68: [result] starts as the default and is overwritten by each rule. *)
Fixpoint limit_loop (result : Z) (rules : list limit_fn) (p : path) : M Z :=
  match rules with
  | [] => ret result
  | rule :: rules' =>
      result <- rule p;
      if (0 <=? result)%Z then ret result else limit_loop result rules' p
  end.

(** One builder object and the functions it has built so far, oldest first. [build] copies the rules
    (ChildLimitBuilder.java:59), so a built function owns its list; but the lambda reads the field
    [defaultLimit] of the builder object each time it is called (line 61), so no default is kept here. *)
Record limit_session := mkLimitSession { ls_builder : limit_builder; ls_built : list (list limit_fn) }.

(** What a client does with a builder object: call one of its setters, or [build]. ChildLimitBuilder.java:58-120. *)
Inductive limit_cmd := LOp (o : limit_op) | LBuild.

(** ChildLimits.java:56-58. *)
Definition limit_start (default : Z) : limit_session := mkLimitSession (limit_builder_new default) [].

(** ChildLimitBuilder.java:58-59 for [LBuild]; the setters otherwise. *)
Definition limit_exec (s : limit_session) (c : limit_cmd) : limit_session :=
  match c with
  | LOp o => mkLimitSession (limit_step (ls_builder s) o) (ls_built s)
  | LBuild => mkLimitSession (ls_builder s) (ls_built s ++ [lb_limits (ls_builder s)])
  end.

(** A sequence of client calls. ChildLimitBuilder.java:58-120. *)
Definition limit_run (s : limit_session) (cmds : list limit_cmd) : limit_session := fold_left limit_exec cmds s.

(** ChildLimitBuilder.java:60-69: a call of the function returned by the [i]-th [build] (from 0), the
    builder object being in its present state. There is no such function when [i] is too large. *)
Definition limit_call (s : limit_session) (i : nat) : limit_fn :=
  fun p => match nth_error (ls_built s) i with
           | Some rules => limit_loop (lb_default (ls_builder s)) rules p
           | None => throw ExNullPointer
           end.

(** ** LineExtensions.java, LineExtensionBuilder.java *)

(** [Function<Path, @Nullable String>]; [None] is null (LineExtensions.java:35). *)
Definition ext_fn := path -> M (option jstring).

(** LineExtensions.java:38. *)
Definition LINE_BREAK_EXTENSION : jstring := [].

(** LineExtensionBuilder.java:41-45. *)
Definition ext_builder := list ext_fn.

(** The setters a client can call: LineExtensionBuilder.java:84-114. *)
Inductive ext_op :=
| XAdd (rule : ext_fn)
| XAddMatcher (m : matcher) (ext : option jstring)
| XAddLineBreak (m : matcher).

(** LineExtensionBuilder.java:102. *)
Definition ext_rule (m : matcher) (ext : option jstring) : ext_fn :=
  fun p => b <- m p; ret (if b then ext else None).

(** LineExtensionBuilder.java:84-88, 100-103, 112-114. *)
Definition ext_step (b : ext_builder) (o : ext_op) : ext_builder :=
  match o with
  | XAdd rule => b ++ [rule]
  | XAddMatcher m e => b ++ [ext_rule m e]
  | XAddLineBreak m => b ++ [ext_rule m (Some LINE_BREAK_EXTENSION)]
  end.

(** LineExtensionBuilder.java:59-66. *)
Fixpoint ext_loop (result : option jstring) (rules : list ext_fn) (p : path) : M (option jstring) :=
  match rules with
  | [] => ret result
  | rule :: rules' =>
      result <- rule p;
      if is_some result then ret result else ext_loop result rules' p
  end.

(** One builder object and the functions it has built so far, oldest first: [build] copies the rules
    (LineExtensionBuilder.java:57) and the lambda reads nothing else. *)
Record ext_session := mkExtSession { xs_builder : ext_builder; xs_built : list (list ext_fn) }.

(** What a client does with a builder object. LineExtensionBuilder.java:56-114. *)
Inductive ext_cmd := XOp (o : ext_op) | XBuild.

(** LineExtensions.java:49-51, LineExtensionBuilder.java:43-45. *)
Definition ext_start : ext_session := mkExtSession [] [].

(** LineExtensionBuilder.java:56-57 for [XBuild]; the [add] methods otherwise. *)
Definition ext_exec (s : ext_session) (c : ext_cmd) : ext_session :=
  match c with
  | XOp o => mkExtSession (ext_step (xs_builder s) o) (xs_built s)
  | XBuild => mkExtSession (xs_builder s) (xs_built s ++ [xs_builder s])
  end.

(** A sequence of client calls. LineExtensionBuilder.java:56-114. *)
Definition ext_run (s : ext_session) (cmds : list ext_cmd) : ext_session := fold_left ext_exec cmds s.

(** LineExtensionBuilder.java:58-67: a call of the function returned by the [i]-th [build]. *)
Definition ext_call (s : ext_session) (i : nat) : ext_fn :=
  fun p => match nth_error (xs_built s) i with
           | Some rules => ext_loop None rules p
           | None => throw ExNullPointer
           end.

(** ** TreeFormat.java, TreeFormats.java *)

(** TreeFormat.java:31-34. *)
Record tree_format := mkTreeFormat {
  tf_non_last : jstring;
  tf_last : jstring;
  tf_continuation : jstring;
  tf_empty : jstring
}.

(** [Stream.distinct()] on lengths. TreeFormat.java:60. *)
Fixpoint distinct (l : list nat) : list nat :=
  match l with
  | [] => []
  | x :: l' => x :: filter (fun y => negb (Nat.eqb x y)) (distinct l')
  end.

(** TreeFormat.java:47-65, TreeFormats.java:32-34. [None] arguments are Java nulls (List.of throws). *)
Definition tree_format_create (nl l c e : option jstring) : res tree_format :=
  match nl, l, c, e with
  | Some nl, Some l, Some c, Some e =>
      if negb (length (distinct (map (@length _) [nl; l; c; e])) =? 1)%nat
      then Throw ExIllegalArgument
      else Ok (mkTreeFormat nl l c e)
  | _, _, _, _ => Throw ExNullPointer
  end.

(** TreeFormats.java:8: "|--", "`--", U+2502 "  ", "   ". *)
Definition CLASSIC_ASCII : tree_format :=
  mkTreeFormat (js "|--") (js "`--") ([9474%N] ++ js "  ") (js "   ").

(** TreeFormats.java:13: U+251C U+2500, U+2514 U+2500, U+2502 " ", "  ". *)
Definition UNICODE_BOX_DRAWING : tree_format :=
  mkTreeFormat [9500; 9472]%N [9492; 9472]%N [9474; 32]%N (js "  ").
