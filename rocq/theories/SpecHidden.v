(** * What a displayed tree depends on (independent of the code) *)

From Verif Require Export SpecMeta SpecCalls.

(** [dk2] is as [dk1] where the tree [e] at [r] shows it: which of the entries of the shown directories above the maximal depth are directories,
    which entries there are (in whatever order), and the attributes of the shown files. *)
Definition as_shown (dk1 dk2 : disk) (r : path) (e : entry) : Prop :=
  (forall q, q = r \/ In q (contained dk1 (opened e)) -> is_dirb dk2 q = is_dirb dk1 q) /\
  (forall q, In q (entry_paths e) -> is_dirb dk1 q = false -> d_attr dk2 q = d_attr dk1 q) /\
  (forall q l, In q (opened e) -> d_list dk1 q = Some l -> exists l', d_list dk2 q = Some l' /\ Permutation l l').

(** The settings [st1] and [st2] treat alike what the shown directories above the maximal depth contain. *)
Definition treated_alike (dk1 : disk) (st1 st2 : settings) (e : entry) : Prop :=
  s_depth st1 = s_depth st2 /\
  (forall q, In q (contained dk1 (opened e)) -> accepts st2 dk1 q = accepts st1 dk1 q) /\
  (forall q, In q (opened e) -> s_limit st2 q = s_limit st1 q) /\
  (forall q a b, In q (opened e) -> In a (contained dk1 [q]) -> In b (contained dk1 [q]) -> Z.sgn (s_cmp st1 a b) = Z.sgn (s_cmp st2 a b)).

(** The views [v1] and [v2] decorate alike what is shown. *)
Definition decorated_alike (v1 v2 : view) (e : entry) : Prop :=
  v_compact v1 = v_compact v2 /\ forall q, In q (entry_paths e) -> v_ext v1 q = v_ext v2 q /\ v_emoji v1 q = v_emoji v2 q.
