(** * Printers configured with the parts the library offers *)

From Verif Require Export SpecOptions SpecMatch SpecSeen.
Close Scope Z_scope.

(** What the user adds of their own: matchers; sort rules and limit functions; line-extension functions and emoji mappings; comparators. *)
Record own := mkOwn {
  own_matcher : matcher -> Prop;
  own_number : (path -> M Z) -> Prop;
  own_text : (path -> M (option jstring)) -> Prop;
  own_order : comparator -> Prop
}.

(** Nothing of their own. *)
Definition nothing_own : own := mkOwn (fun _ => False) (fun _ => False) (fun _ => False) (fun _ => False).

(** All the user's own parts keep to [K] and [E]. *)
Definition own_parts (w : world) (u : own) (K : trace -> Prop) (E : exn -> Prop) : Prop :=
  (forall m, own_matcher u m -> callback w m K E) /\ (forall f, own_number u f -> callback w f K E) /\
  (forall f, own_text u f -> callback w f K E) /\ (forall c, own_order u c -> forall a, callback w (c a) K E).

(** All the user's own parts are told what the world answers. *)
Definition own_honest (w : world) (u : own) : Prop :=
  (forall m, own_matcher u m -> honest w m) /\ (forall f, own_number u f -> honest w f) /\
  (forall f, own_text u f -> honest w f) /\ (forall c, own_order u c -> forall a, honest w (c a)).

Section Parts.
  (** [walks]: the matchers on children, descendants and siblings may be used. *)
  Context (w : world) (walks : bool) (u : own).

  Let part : matcher -> Prop := assembled w walks (own_matcher u).

  (** Calls on the builders with such parts. *)
  Definition sort_call_ok (c : sort_cmd) : Prop :=
    match c with
    | SOp (SAdd f) => own_number u f
    | SOp (SAddMatcher m _) | SOp (SAddFirst m) | SOp (SAddLast m) => part m
    | SBuild => True
    end.
  Definition limit_call_ok (c : limit_cmd) : Prop :=
    match c with LOp (LAdd f) => own_number u f | LOp (LAddMatcher m _) => part m | _ => True end.
  Definition ext_call_ok (c : ext_cmd) : Prop :=
    match c with XOp (XAdd f) => own_text u f | XOp (XAddMatcher m _) | XOp (XAddLineBreak m) => part m | XBuild => True end.
  Definition emoji_call_ok (c : emoji_cmd) : Prop :=
    match c with EOp (EAddDir m _) | EOp (EAddFile m _) => part m | _ => True end.

  (** Comparators: those of PathSorts, combinations of them, and what the sort builder builds (whatever is done with the builder later). *)
  Inductive order_part : comparator -> Prop :=
  | op_own c : own_order u c -> order_part c
  | op_alphabetical : order_part ALPHABETICAL
  | op_size : order_part BY_FILE_SIZE
  | op_first : order_part DIRECTORY_FIRST
  | op_last : order_part DIRECTORY_LAST
  | op_extension : order_part BY_EXTENSION
  | op_then c1 c2 : order_part c1 -> order_part c2 -> order_part (then_comparing c1 c2)
  | op_reversed c : order_part c -> order_part (reversed c)
  | op_built cmds i : (forall c, In c cmds -> sort_call_ok c) -> i < length (ss_built (sort_run sort_start cmds)) ->
      order_part (sort_call (sort_run sort_start cmds) i).

  Inductive limit_part : limit_fn -> Prop :=
  | lp_own f : own_number u f -> limit_part f
  | lp_built d cmds i : (forall c, In c cmds -> limit_call_ok c) -> i < length (ls_built (limit_run (limit_start d) cmds)) ->
      limit_part (limit_call (limit_run (limit_start d) cmds) i).

  Inductive ext_part : ext_fn -> Prop :=
  | xp_own f : own_text u f -> ext_part f
  | xp_built cmds i : (forall c, In c cmds -> ext_call_ok c) -> i < length (xs_built (ext_run ext_start cmds)) ->
      ext_part (ext_call (ext_run ext_start cmds) i).

  Inductive emoji_part : emoji_fn -> Prop :=
  | ep_own f : own_text u f -> emoji_part f
  | ep_none : emoji_part emoji_none
  | ep_default lower f : emoji_create_default lower = Ok f -> emoji_part f
  | ep_built lower o cmds i be : (forall c, In c cmds -> emoji_call_ok c) ->
      nth_error (es_built (emoji_run lower (emoji_start o) cmds)) i = Some (Ok be) ->
      emoji_part (emoji_call (emoji_run lower (emoji_start o) cmds) i).

  (** A call of a setter with such a part (or with a number, a boolean, a tree format, null). *)
  Definition setter_ok (s : setter) : Prop :=
    match s with
    | SetChildLimitFn (Some f) => limit_part f
    | SetEmojis (Some e) => emoji_part e
    | SetSort (Some c) => order_part c
    | SetDirFilter (Some m) | SetFileFilter (Some m) => part m
    | SetLineExtension (Some f) => ext_part f
    | _ => True
    end.
End Parts.
