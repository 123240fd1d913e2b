(** * What a run was told, in a world that may change while it runs *)

From Verif Require Export SpecHist.

(** Every answer of the trace [t], started in history [h], is the answer of the world at that moment. *)
Definition truthful_from (w : world) (h : hist) (t : trace) : Prop :=
  forall t1 ev t2, t = t1 ++ ev :: t2 ->
    match ev with
    | EvLstat q a => w_lstat w (rev t1 ++ h) q = a
    | EvStat q a => w_stat w (rev t1 ++ h) q = a
    | EvLength q n => w_length w (rev t1 ++ h) q = n
    | EvOpen q => w_open w (rev t1 ++ h) q <> None
    | EvOpenFail q => w_open w (rev t1 ++ h) q = None
    | EvClose q ok => w_close_ok w (rev t1 ++ h) q = ok
    | EvIterFail _ | EvUser _ _ => True
    end.

(** A callback may access the file system; what it is told is what the world answers at that moment. *)
Definition honest {A B} (w : world) (f : A -> M B) : Prop :=
  forall a h, exists r t, f a w h = (r, rev t ++ h) /\ truthful_from w h t.

Definition honest_callbacks (w : world) (o : options) : Prop :=
  honest w (o_dir_matcher o) /\ honest w (o_file_matcher o) /\ honest w (o_child_limit o) /\
  honest w (o_emoji o) /\ match o_line_extension o with Some f => honest w f | None => True end /\
  forall a, honest w (o_comparator o a).

(** [looked_at w o q h seen t]: from history [h] on, the names of [seen] were looked at one after the other, with the events [t]. For each, the
    world was asked for the kind of the child of [q] with that name, then the filter for directories or the filter for files, according to the
    answer; [seen] has the verdicts. *)
Inductive looked_at (w : world) (o : options) (q : path) : hist -> list (jstring * bool) -> trace -> Prop :=
| looked_at_nothing h : looked_at w o q h [] []
| looked_at_next h n a b u seen t :
    w_lstat w h (child q n) = a ->
    (match a with Some KDir => o_dir_matcher o | _ => o_file_matcher o end) (child q n) w (EvLstat (child q n) a :: h) =
      (Ok b, rev u ++ EvLstat (child q n) a :: h) ->
    looked_at w o q (rev u ++ EvLstat (child q n) a :: h) seen t ->
    looked_at w o q h ((n, b) :: seen) (EvLstat (child q n) a :: u ++ t).

(** [compared w c l h t]: from history [h] on, the comparator [c] was called a number of times in a row about paths of [l], always returning,
    with the events [t]. *)
Inductive compared (w : world) (c : comparator) (l : list path) : hist -> trace -> Prop :=
| compared_nothing h : compared w c l h []
| compared_next h a b z u t : In a l -> In b l -> c a b w h = (Ok z, rev u ++ h) -> compared w c l (rev u ++ h) t ->
    compared w c l h (u ++ t).

(** [seen_dir w o h t q es]: during the trace [t], [q] was found to be a directory and opened at once; then the limit was asked for (events
    [t2]), the names delivered by the opening were looked at one by one (events [t3]), and those that passed were compared (events [t4]);
    [es] are the entries for those names, in the order found and within the limit, and then the marker if some are left out. The order is that
    of the comparator whenever the comparator gives the same answers throughout the run. *)
Definition seen_dir (w : world) (o : options) (h : hist) (t : trace) (q : path) (es : list entry) : Prop :=
  exists t1 t2 t3 t4 t5 limit seen order real,
    t = t1 ++ [EvLstat q (Some KDir); EvOpen q] ++ t2 ++ t3 ++ t4 ++ t5 /\
    let h1 := EvLstat q (Some KDir) :: rev t1 ++ h in
    w_open w h1 q = Some (mkDirlist (map fst seen) false) /\
    o_child_limit o q w (EvOpen q :: h1) = (Ok limit, rev t2 ++ EvOpen q :: h1) /\
    looked_at w o q (rev t2 ++ EvOpen q :: h1) seen t3 /\
    compared w (o_comparator o) order (rev t3 ++ rev t2 ++ EvOpen q :: h1) t4 /\
    Permutation (map (fun nb => child q (fst nb)) (filter snd seen)) order /\
    (forall c, (forall a, agrees w (o_comparator o a) (c a)) -> contract c -> StronglySorted (fun a b => (c a b <= 0)%Z) order) /\
    es = real ++ marker limit order q /\
    map entry_path real = map Some (limited limit order).

(** The entry [x], [d] levels below the root, shows what was answered during the trace [t]. *)
Definition seen_entry (w : world) (o : options) (h : hist) (t : trace) (d : Z) (x : entry) : Prop :=
  match x with
  | EFile q k => exists t1 a t2, t = t1 ++ EvLstat q a :: EvStat q (Some k) :: t2 /\ a <> Some KDir
  | EDir q es =>
      if (d <? o_max_depth o)%Z then seen_dir w o h t q es
      else es = [EMaxDepth d] /\ exists t1 t2, t = t1 ++ EvLstat q (Some KDir) :: t2
  | ESkipped _ | EMaxDepth _ => True
  end.
