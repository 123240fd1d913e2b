(** * Specification of how a run accesses the file system *)

From Verif Require Export SpecScan.

(** A trace lists the events of a run in chronological order (the history has the newest event first). *)
Definition trace := list event.

(** ** Callbacks *)

(** The callback [f] appends a trace satisfying [K] to the history, and throws only exceptions satisfying [E]. *)
Definition callback {A B} (w : world) (f : A -> M B) (K : trace -> Prop) (E : exn -> Prop) : Prop :=
  forall a h, exists r t, f a w h = (r, rev t ++ h) /\ K t /\ (forall x, r = Throw x -> E x).

(** The six callbacks of the options. *)
Definition callbacks (w : world) (o : options) (K : trace -> Prop) (E : exn -> Prop) : Prop :=
  callback w (o_dir_matcher o) K E /\ callback w (o_file_matcher o) K E /\ callback w (o_child_limit o) K E /\
  callback w (o_emoji o) K E /\ match o_line_extension o with Some f => callback w f K E | None => True end /\
  forall a, callback w (o_comparator o a) K E.

(** A callback that does not access the file system (all it can leave in the history are log entries). *)
Definition is_user (ev : event) : Prop := match ev with EvUser _ _ => True | _ => False end.
Definition quiet (t : trace) : Prop := Forall is_user t.

(** A callback that does not read directories or attributes: all it does is to write log entries and to ask the world for the kind of paths
    (as [PathMatchers.isDirectory()] and [PathSorts.DIRECTORY_FIRST] do) and for the length of files (as [PathSorts.BY_FILE_SIZE] does). *)
Definition asks_kind (w : world) (ev : event) : Prop :=
  match ev with EvUser _ _ => True | EvLstat p a => exists h, w_lstat w h p = a | EvLength p n => exists h, w_length w h p = n | _ => False end.
Definition modest (w : world) (t : trace) : Prop := Forall (asks_kind w) t.

(** ** Properties of traces *)

(** Every opened directory is closed, last opened first. *)
Inductive balanced : trace -> Prop :=
| bal_nil : balanced []
| bal_other ev t : (forall p, ev <> EvOpen p) -> (forall p ok, ev <> EvClose p ok) -> balanced t -> balanced (ev :: t)
| bal_pair p ok t t' : balanced t -> balanced t' -> balanced (EvOpen p :: t ++ EvClose p ok :: t').

(** [P] holds of every event of [t], given what came before it ([pre] came before [t]). *)
Definition always (P : trace -> event -> Prop) (pre t : trace) : Prop :=
  forall t1 ev t2, t = t1 ++ ev :: t2 -> P (pre ++ t1) ev.

(** The events that look at or into the file [q]: opening it, or reading its attributes other than to find out whether it is a directory. *)
Definition looks_into (ev : event) (q : path) : Prop :=
  ev = EvOpen q \/ ev = EvOpenFail q \/ exists r, ev = EvStat q r.

Definition content_event (ev : event) : bool :=
  match ev with EvOpen _ | EvOpenFail _ | EvStat _ _ => true | _ => false end.

(** What the displayed tree [e] has been read with, in display order: each directory above the maximal depth is opened once,
    the attributes of every other file are read once. *)
Fixpoint reads (e : entry) : trace :=
  match e with
  | EDir _ [EMaxDepth _] => []
  | EDir p es => EvOpen p :: flat_map reads es
  | EFile p k => [EvStat p (Some k)]
  | ESkipped _ | EMaxDepth _ => []
  end.

(** A failed file-system call other than the swallowed "is it a directory" test. *)
Definition failed (ev : event) (q : path) : Prop :=
  ev = EvStat q None \/ ev = EvOpenFail q \/ ev = EvIterFail q \/ ev = EvClose q false.

(** Opening [q], successfully or not. *)
Definition opening (ev : event) (q : path) : Prop := ev = EvOpen q \/ ev = EvOpenFail q.

(** [f] may throw, but when it returns, it returns the value of [g]. *)
Definition agrees {A B} (w : world) (f : A -> M B) (g : A -> B) : Prop :=
  forall a h b h', f a w h = (Ok b, h') -> b = g a.

(** The comparator, whenever it returns, answers as one that honours the contract of [java.util.Comparator]. *)
Definition orderly (w : world) (o : options) : Prop :=
  exists g : ordering, contract g /\ forall a, agrees w (o_comparator o a) (g a).

(** [kept st dk d0 p0 d q]: [q] is the start, or is among the children shown (accepted by the filter, within the child limit)
    of a kept directory above the maximal depth. *)
Inductive kept (st : settings) (dk : disk) (d0 : Z) (p0 : path) : Z -> path -> Prop :=
| kept_start : kept st dk d0 p0 d0 p0
| kept_child d p names order c :
    kept st dk d0 p0 d p -> is_dir dk p -> (d < s_depth st)%Z -> d_list dk p = Some names ->
    in_order (s_cmp st) (filter (accepts st dk) (map (child p) names)) order ->
    In c (limited (s_limit st p) order) ->
    kept st dk d0 p0 (d + 1)%Z c.

(** The filters of the settings, for a path whose kind was read as [a]. *)
Definition passes (st : settings) (a : option kind) (q : path) : bool :=
  match a with Some KDir => s_dirs st q | _ => s_files st q end.
