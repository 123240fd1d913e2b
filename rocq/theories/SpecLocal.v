(** * Vocabulary: a change below one directory (C179) *)

From Verif Require Export SpecLines.

(** The two file systems differ only in what is in the directory [d], at any depth.  A hypothesis of C179; models no code. *)
Definition same_except (d : path) (dk1 dk2 : disk) : Prop :=
  is_dir dk1 d /\ is_dir dk2 d /\
  forall q, ~ below d q ->
    d_kind dk1 q = d_kind dk2 q /\ d_attr dk1 q = d_attr dk2 q /\
    match d_list dk1 q, d_list dk2 q with
    | Some l1, Some l2 => Permutation l1 l2
    | None, None => True
    | _, _ => False
    end.

(** What the options answer about paths outside [d] (the filters and the order also about [d]) is the same.  A hypothesis of C179; models no code. *)
Definition settings_except (d : path) (st1 st2 : settings) : Prop :=
  s_depth st1 = s_depth st2 /\
  (forall q, ~ below d q \/ q = d -> s_dirs st1 q = s_dirs st2 q /\ s_files st1 q = s_files st2 q) /\
  (forall q, ~ below d q -> s_limit st1 q = s_limit st2 q) /\
  (forall a b, ~ below d a \/ a = d -> ~ below d b \/ b = d -> s_cmp st1 a b = s_cmp st2 a b).
Definition view_except (d : path) (v1 v2 : view) : Prop :=
  v_compact v1 = v_compact v2 /\ forall q, ~ below d q -> v_ext v1 q = v_ext v2 q /\ v_emoji v1 q = v_emoji v2 q.
