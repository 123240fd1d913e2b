(** * Vocabulary for the properties of the option builders *)

From Verif Require Export SpecText Sorts Builders.

(** ** Outcomes: [outcome] is what one evaluation gave, with the histories before and after *)

(** What the matcher [m] answers for [p]. *)
Definition says (w : world) (m : matcher) (p : path) (h : hist) (a : res bool) (h' : hist) : Prop :=
  m p w h = (a, h').

(** ** Line extensions *)

(** The value a single [add] call of the client contributes for the path [p]. *)
Inductive ext_value (w : world) (p : path) : ext_op -> hist -> res (option jstring) -> hist -> Prop :=
| xv_fun f h r h' : f p w h = (r, h') -> ext_value w p (XAdd f) h r h'
| xv_match m x h h' : says w m p h (Ok true) h' -> ext_value w p (XAddMatcher m x) h (Ok x) h'
| xv_no_match m x h h' : says w m p h (Ok false) h' -> ext_value w p (XAddMatcher m x) h (Ok None) h'
| xv_match_throw m x e h h' : says w m p h (Throw e) h' -> ext_value w p (XAddMatcher m x) h (Throw e) h'
| xv_break m h h' : says w m p h (Ok true) h' -> ext_value w p (XAddLineBreak m) h (Ok (Some [])) h'
| xv_no_break m h h' : says w m p h (Ok false) h' -> ext_value w p (XAddLineBreak m) h (Ok None) h'
| xv_break_throw m e h h' : says w m p h (Throw e) h' -> ext_value w p (XAddLineBreak m) h (Throw e) h'.

(** The rules are tried in order; the first one that does not give null decides, the later ones are
    not evaluated. *)
Inductive first_non_null (w : world) (p : path) : list ext_op -> hist -> res (option jstring) -> hist -> Prop :=
| fnn_none h : first_non_null w p [] h (Ok None) h
| fnn_here o os h x h' : ext_value w p o h (Ok (Some x)) h' -> first_non_null w p (o :: os) h (Ok (Some x)) h'
| fnn_throw o os h e h' : ext_value w p o h (Throw e) h' -> first_non_null w p (o :: os) h (Throw e) h'
| fnn_next o os h h' r h'' :
    ext_value w p o h (Ok None) h' -> first_non_null w p os h' r h'' -> first_non_null w p (o :: os) h r h''.

(** The [add] calls of a sequence of client calls, and how many times it calls [build]. *)
Fixpoint ext_ops (cmds : list ext_cmd) : list ext_op :=
  match cmds with [] => [] | XOp o :: cmds => o :: ext_ops cmds | XBuild :: cmds => ext_ops cmds end.
Fixpoint ext_builds (cmds : list ext_cmd) : nat :=
  match cmds with [] => 0 | XOp _ :: cmds => ext_builds cmds | XBuild :: cmds => S (ext_builds cmds) end.

(** ** Child limits *)

(** The rules of a client: [setDefaultLimit] is not one. *)
Inductive limit_rule_of := RFun (f : limit_fn) | RMatch (m : matcher) (limit : Z).

(** The value a single rule gives for [p]: a rule made of a matcher that does not match gives -1. *)
Inductive limit_value (w : world) (p : path) : limit_rule_of -> hist -> res Z -> hist -> Prop :=
| lv_fun f h r h' : f p w h = (r, h') -> limit_value w p (RFun f) h r h'
| lv_match m z h h' : says w m p h (Ok true) h' -> limit_value w p (RMatch m z) h (Ok z) h'
| lv_no_match m z h h' : says w m p h (Ok false) h' -> limit_value w p (RMatch m z) h (Ok (-1)%Z) h'
| lv_throw m z e h h' : says w m p h (Throw e) h' -> limit_value w p (RMatch m z) h (Throw e) h'.

(** What the code really computes: the first value that is at least 0; if there is none, the value of
    the last rule; and the default only when there is no rule at all. *)
Inductive limit_result (w : world) (p : path) (default : Z) : list limit_rule_of -> hist -> res Z -> hist -> Prop :=
| lr_default h : limit_result w p default [] h (Ok default) h
| lr_here r rs h z h' : limit_value w p r h (Ok z) h' -> (0 <= z)%Z -> limit_result w p default (r :: rs) h (Ok z) h'
| lr_throw r rs h e h' : limit_value w p r h (Throw e) h' -> limit_result w p default (r :: rs) h (Throw e) h'
| lr_last r h z h' : limit_value w p r h (Ok z) h' -> (z < 0)%Z -> limit_result w p default [r] h (Ok z) h'
| lr_next r r' rs h z h' a h'' :
    limit_value w p r h (Ok z) h' -> (z < 0)%Z ->
    limit_result w p default (r' :: rs) h' a h'' -> limit_result w p default (r :: r' :: rs) h a h''.

(** The rules added by a sequence of client calls, its number of [build] calls, and the default limit
    after it when it was [d] before. *)
Fixpoint limit_rules (cmds : list limit_cmd) : list limit_rule_of :=
  match cmds with
  | [] => []
  | LOp (LAdd f) :: cmds => RFun f :: limit_rules cmds
  | LOp (LAddMatcher m z) :: cmds => RMatch m z :: limit_rules cmds
  | _ :: cmds => limit_rules cmds
  end.
Fixpoint limit_builds (cmds : list limit_cmd) : nat :=
  match cmds with [] => 0 | LBuild :: cmds => S (limit_builds cmds) | _ :: cmds => limit_builds cmds end.
Fixpoint last_default (d : Z) (cmds : list limit_cmd) : Z :=
  match cmds with [] => d | LOp (LSetDefault z) :: cmds => last_default z cmds | _ :: cmds => last_default d cmds end.

(** What the documentation says of a list of matcher rules, for matchers whose answers are given by a
    predicate: the first rule that matches decides, else the default. *)
Fixpoint documented_limit (default : Z) (rules : list ((path -> bool) * Z)) (p : path) : Z :=
  match rules with
  | [] => default
  | (m, z) :: rules => if m p then z else documented_limit default rules p
  end.

(** A matcher that answers [m] without looking at anything. *)
Definition pure (m : path -> bool) : matcher := fun p => ret (m p).

(** ** Sorts *)

(** The matcher and the precedence of an [add] call that has them. *)
Definition ranks (o : sort_op) (m : matcher) (z : Z) : Prop :=
  o = SAddMatcher m z \/ (o = SAddFirst m /\ z = (-2147483648)%Z) \/ (o = SAddLast m /\ z = 2147483647%Z).

(** The precedence a single [add] call gives to [p]: 0 when its matcher does not match. *)
Inductive precedence_value (w : world) (p : path) : sort_op -> hist -> res Z -> hist -> Prop :=
| pv_fun f h r h' : f p w h = (r, h') -> precedence_value w p (SAdd f) h r h'
| pv_match o m z h h' : ranks o m z -> says w m p h (Ok true) h' -> precedence_value w p o h (Ok z) h'
| pv_no_match o m z h h' : ranks o m z -> says w m p h (Ok false) h' -> precedence_value w p o h (Ok 0%Z) h'
| pv_throw o m z e h h' : ranks o m z -> says w m p h (Throw e) h' -> precedence_value w p o h (Throw e) h'.

(** The rules are tried in order; the first precedence different from 0 decides, the later rules are not evaluated; 0 if there is none. *)
Inductive first_non_zero (w : world) (p : path) : list sort_op -> hist -> res Z -> hist -> Prop :=
| fnz_none h : first_non_zero w p [] h (Ok 0%Z) h
| fnz_here o os h z h' : precedence_value w p o h (Ok z) h' -> z <> 0%Z -> first_non_zero w p (o :: os) h (Ok z) h'
| fnz_throw o os h e h' : precedence_value w p o h (Throw e) h' -> first_non_zero w p (o :: os) h (Throw e) h'
| fnz_next o os h h' r h'' :
    precedence_value w p o h (Ok 0%Z) h' -> first_non_zero w p os h' r h'' -> first_non_zero w p (o :: os) h r h''.

(** The rules give every path the precedence [prec], whatever happened before. *)
Definition give (w : world) (rules : list sort_op) (prec : path -> Z) : Prop :=
  forall p h, exists h', first_non_zero w p rules h (Ok (prec p)) h'.

Fixpoint sort_ops (cmds : list sort_cmd) : list sort_op :=
  match cmds with [] => [] | SOp o :: cmds => o :: sort_ops cmds | SBuild :: cmds => sort_ops cmds end.
Fixpoint sort_builds (cmds : list sort_cmd) : nat :=
  match cmds with [] => 0 | SOp _ :: cmds => sort_builds cmds | SBuild :: cmds => S (sort_builds cmds) end.

(** ** File name extensions *)

(** [l] are the pieces of [s] between its dots. *)
Definition pieces (s : jstring) (l : list jstring) : Prop :=
  l <> [] /\ s = join [c_dot] l /\ Forall (fun x => ~ In c_dot x) l.

(** [name] has the extension parts [exts], in the order of the name: "a.tar.gz" has "tar", "gz". Dots at
    the end of the name do not count; a name made of dots only has an empty list of parts. *)
Definition has_parts (name : jstring) (exts : list jstring) : Prop :=
  exists core k, name = core ++ repeat c_dot k /\
    ((exts <> [] /\ last exts [] <> [] /\ exists stem, pieces core (stem :: exts)) \/
     (exts = [] /\ core = [] /\ k <> 0)).

(** [name] has no extension: no dot, except at the end of a name that is not made of dots only. *)
Definition no_extension (name : jstring) : Prop :=
  exists core k, name = core ++ repeat c_dot k /\ ~ In c_dot core /\ (core <> [] \/ k = 0).

(** Lexicographic order of two lists of parts; a prefix comes first. *)
Inductive parts_before (fold : N -> N) : list jstring -> list jstring -> Prop :=
| pb_prefix y b : parts_before fold [] (y :: b)
| pb_less x a y b : before_ci fold x y -> parts_before fold (x :: a) (y :: b)
| pb_same x a y b : same_ci fold x y -> parts_before fold a b -> parts_before fold (x :: a) (y :: b).
