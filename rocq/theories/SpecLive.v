(** * What is displayed when the options change during the run *)

From Verif Require Export SpecSeen Live.

(** The entry [x], [d] levels below the root, shows what was answered during the trace [t], which began in history [h], with the options of the
    moment: the maximal depth in force when the directory was found to be one; the limit and the order in force when it had been opened; and the
    filters of [start] throughout. For the rest see [seen_dir] in SpecSeen.v. *)
Definition live_seen_entry (w : world) (cur : hist -> options) (start : options) (h : hist) (t : trace) (d : Z) (x : entry) : Prop :=
  match x with
  | EFile q k => exists t1 a t2, t = t1 ++ EvLstat q a :: EvStat q (Some k) :: t2 /\ a <> Some KDir
  | EDir q es => exists t1 t', t = t1 ++ EvLstat q (Some KDir) :: t' /\
      let h1 := EvLstat q (Some KDir) :: rev t1 ++ h in
      if (d <? o_max_depth (cur h1))%Z then
        exists t2 t3 t4 t5 limit seen order real,
          t' = [EvOpen q] ++ t2 ++ t3 ++ t4 ++ t5 /\
          let o := cur (EvOpen q :: h1) in
          w_open w h1 q = Some (mkDirlist (map fst seen) false) /\
          o_child_limit o q w (EvOpen q :: h1) = (Ok limit, rev t2 ++ EvOpen q :: h1) /\
          looked_at w start q (rev t2 ++ EvOpen q :: h1) seen t3 /\
          compared w (o_comparator o) order (rev t3 ++ rev t2 ++ EvOpen q :: h1) t4 /\
          Permutation (map (fun nb => child q (fst nb)) (filter snd seen)) order /\
          (forall c, (forall a, agrees w (o_comparator o a) (c a)) -> contract c -> StronglySorted (fun a b => (c a b <= 0)%Z) order) /\
          es = real ++ marker limit order q /\
          map entry_path real = map Some (limited limit order)
      else es = [EMaxDepth d]
  | ESkipped _ | EMaxDepth _ => True
  end.

(** The lines look as [v] says: the emoji mapping of the line renderer; merging and extensions of the options of every moment. *)
Definition live_sees (w : world) (cur : hist -> options) (lr : line_renderer) (v : view) : Prop :=
  (forall q h, exists h', compute_line_extension (cur h) q w h = (Ok (v_ext v q), h')) /\
  answers w (lr_emoji lr) (v_emoji v) /\ forall h, o_compact (cur h) = v_compact v.

(** Two courses of the options that agree on everything a run reads: the filters in history [h], where the run begins, and the other options
    always. The tree format and the emoji mapping may differ, and the filters later on. *)
Definition read_alike (h : hist) (cur1 cur2 : hist -> options) : Prop :=
  o_dir_matcher (cur1 h) = o_dir_matcher (cur2 h) /\ o_file_matcher (cur1 h) = o_file_matcher (cur2 h) /\
  forall h', o_child_limit (cur1 h') = o_child_limit (cur2 h') /\ o_compact (cur1 h') = o_compact (cur2 h') /\
    o_max_depth (cur1 h') = o_max_depth (cur2 h') /\ o_comparator (cur1 h') = o_comparator (cur2 h') /\
    o_line_extension (cur1 h') = o_line_extension (cur2 h').
