(** * Vocabulary: the same entries displayed in two ways (C180) *)

From Verif Require Export SpecMeta.

(** Two lines for the same entry: on the same level with the same branches to the left of it; both stand for entries left out, or both show the same
    name of the path [q], each with its own emoji in front of and its own extension behind the name.  States the result of C180; models no code. *)
Definition same_entry (v v' : view) (shown_paths : list path) (r r' : row) : Prop :=
  fst r = fst r' /\
  ((snd r = js "..." /\ snd r' = js "...") \/
   exists q name, In q shown_paths /\ (exists before after, name = before ++ last_name q ++ after) /\
     snd r = emoji_str v q ++ name ++ opt_str (v_ext v q) /\ snd r' = emoji_str v' q ++ name ++ opt_str (v_ext v' q)).

(** The extensions are null for the same directories.  A hypothesis of C180; models no code. *)
Definition null_alike (dk : disk) (v v' : view) : Prop := forall q, is_dir dk q -> (v_ext v q = None <-> v_ext v' q = None).
