(** * Comparing two runs: parts of a tree, and the same tree elsewhere (independent of the code) *)

From Verif Require Export SpecScan SpecPath.

(** ** Parts of a displayed tree *)

(** The levels of [e] above depth [m]; [d] is the depth of [e]. *)
Fixpoint cut (m d : Z) (e : entry) : entry :=
  match e with
  | EDir p es => if (m <=? d)%Z then EDir p [EMaxDepth d] else EDir p (map (cut m (d + 1)%Z) es)
  | _ => e
  end.

(** [e] with at most [f p] children for the directory [p] (negative: all of them), and a marker where children are left out. *)
Fixpoint prune (f : path -> Z) (e : entry) : entry :=
  match e with
  | EDir p es =>
      match es with
      | [EMaxDepth _] => e
      | _ => EDir p ((if (f p <? 0)%Z then map (prune f) es else firstn (Z.to_nat (f p)) (map (prune f) es)) ++
                     if ((0 <=? f p) && (f p <? Z.of_nat (length es)))%Z then [ESkipped p] else [])
      end
  | _ => e
  end.

(** Limits [f] that are as strict as [g] everywhere. *)
Definition as_strict (f g : path -> Z) : Prop := forall p, (g p < 0 \/ 0 <= f p <= g p)%Z.

(** [e] without the directories rejected by [fd] and the files rejected by [ff]; what is below a rejected directory goes with it. *)
Definition kept (fd ff : path -> bool) (e : entry) : bool :=
  match e with EDir p _ => fd p | EFile p _ => ff p | _ => true end.
Fixpoint select (fd ff : path -> bool) (e : entry) : entry :=
  match e with
  | EDir p es => EDir p (filter (kept fd ff) (map (select fd ff) es))
  | _ => e
  end.

(** ** Deleted files *)

(** [dk2] is [dk1] after the deletion of the files in [gone], up to the order of listings. *)
Definition deleted (gone : path -> bool) (dk1 dk2 : disk) : Prop :=
  forall q, gone q = false ->
    d_kind dk2 q = d_kind dk1 q /\ d_attr dk2 q = d_attr dk1 q /\
    forall l, d_list dk1 q = Some l ->
      exists l', d_list dk2 q = Some l' /\ Permutation (filter (fun n => negb (gone (child q n))) l) l'.

(** Where an accepted entry is missing, the child limit had no effect. (There is no condition on the limits of other directories.) *)
Definition roomy (st : settings) (gone : path -> bool) (dk : disk) : Prop :=
  forall q names n, gone q = false -> d_list dk q = Some names -> In n names -> gone (child q n) = true -> accepts st dk (child q n) = true ->
    (s_limit st q < 0 \/ Z.of_nat (length (filter (accepts st dk) (map (child q) names))) <= s_limit st q)%Z.

(** ** The same directory elsewhere *)

(** The path reached from [r] through the names [ns]. *)
Definition deeper (r : path) (ns : list jstring) : path := mkPath (p_abs r) (p_names r ++ ns).

(** [listed dk r ns]: from [r] one gets to [deeper r ns] through the listings of directories (not of links to directories). *)
Inductive listed (dk : disk) (r : path) : list jstring -> Prop :=
| listed_start : listed dk r []
| listed_entry ns l n : listed dk r ns -> is_dir dk (deeper r ns) -> d_list dk (deeper r ns) = Some l -> In n l -> listed dk r (ns ++ [n]).

(** What can be read at and below [r1] on [dk1] can be read at and below [r2] on [dk2] and is the same, up to the order of listings. *)
Definition same_content (dk1 : disk) (r1 : path) (dk2 : disk) (r2 : path) : Prop :=
  forall ns, listed dk1 r1 ns ->
    d_kind dk1 (deeper r1 ns) = d_kind dk2 (deeper r2 ns) /\
    (is_dir dk1 (deeper r1 ns) -> forall l1, d_list dk1 (deeper r1 ns) = Some l1 -> exists l2, d_list dk2 (deeper r2 ns) = Some l2 /\ Permutation l1 l2) /\
    (~ is_dir dk1 (deeper r1 ns) -> forall k, d_attr dk1 (deeper r1 ns) = Some k -> d_attr dk2 (deeper r2 ns) = Some k).

(** The settings [st1] treat what is below [r1] (on the disk [dk1]) as [st2] treats what is below [r2]; only the signs of comparisons
    of siblings matter, and the filter is not applied to the start itself. *)
Definition same_settings (dk1 : disk) (st1 : settings) (r1 : path) (st2 : settings) (r2 : path) : Prop :=
  (forall ns, listed dk1 r1 ns -> ns <> [] -> s_dirs st1 (deeper r1 ns) = s_dirs st2 (deeper r2 ns) /\
                                              s_files st1 (deeper r1 ns) = s_files st2 (deeper r2 ns)) /\
  (forall ns, listed dk1 r1 ns -> s_limit st1 (deeper r1 ns) = s_limit st2 (deeper r2 ns)) /\
  (forall ns a b, listed dk1 r1 (ns ++ [a]) -> listed dk1 r1 (ns ++ [b]) ->
     Z.sgn (s_cmp st1 (deeper r1 (ns ++ [a])) (deeper r1 (ns ++ [b]))) =
     Z.sgn (s_cmp st2 (deeper r2 (ns ++ [a])) (deeper r2 (ns ++ [b])))).

(** The views [v1] and [v2] decorate the lines alike. *)
Definition same_view (dk1 : disk) (v1 : view) (r1 : path) (v2 : view) (r2 : path) : Prop :=
  v_compact v1 = v_compact v2 /\
  forall ns, listed dk1 r1 ns ->
    v_ext v1 (deeper r1 ns) = v_ext v2 (deeper r2 ns) /\ v_emoji v1 (deeper r1 ns) = v_emoji v2 (deeper r2 ns).
