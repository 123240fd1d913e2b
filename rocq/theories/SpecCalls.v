(** * How often the user's functions are called *)

From Verif Require Export SpecScan SpecHist.

(** The displayed directories above the maximal depth, in display order. *)
Fixpoint opened (e : entry) : list path :=
  match e with
  | EDir _ [EMaxDepth _] => []
  | EDir p es => p :: flat_map opened es
  | EFile _ _ | ESkipped _ | EMaxDepth _ => []
  end.

(** What the directories of a tree contain, shown or not, directory by directory. *)
Definition contained (dk : disk) (dirs : list path) : list path :=
  flat_map (fun q => match d_list dk q with Some names => map (child q) names | None => [] end) dirs.

(** The paths the lines of the text stand for; lines that are "..." are left out. *)
Definition labelled_paths (s : shown) : list path :=
  flat_map (fun p => match p with Some p => [p] | None => [] end) (line_paths s).

(** Directories are listed without repetition, whatever happens. *)
Definition lists_once (w : world) : Prop := forall h p dl, w_open w h p = Some dl -> NoDup (dl_names dl).

(** The callbacks other than the limit, the filters and the order do not log with [tag]. *)
Definition silent_lines (tag : nat) (o : options) : Prop :=
  silent tag (o_emoji o) /\ match o_line_extension o with Some f => silent tag f | None => True end.
(** The callbacks used while scanning, the child limit and the filters apart. *)
Definition silent_order (tag : nat) (o : options) : Prop := forall a, silent tag (o_comparator o a).

(** Of the child limit and the filters, one logs with [tag], around [f] (the limit and the filters have different types). *)
Inductive one_logs (tag : nat) (o : options) : Prop :=
| limit_logs f : o_child_limit o = logged tag f -> silent tag f -> silent tag (o_dir_matcher o) -> silent tag (o_file_matcher o) ->
    one_logs tag o
| directories_log f : o_dir_matcher o = logged tag f -> silent tag f -> silent tag (o_child_limit o) -> silent tag (o_file_matcher o) ->
    one_logs tag o
| files_log f : o_file_matcher o = logged tag f -> silent tag f -> silent tag (o_child_limit o) -> silent tag (o_dir_matcher o) ->
    one_logs tag o.

(** ** The accesses to the file system *)

(** A function of the user that neither accesses the file system nor logs. *)
Definition eventless {A B} (f : A -> M B) : Prop := forall a w h, snd (f a w h) = h.

Definition eventless_callbacks (o : options) : Prop :=
  eventless (o_dir_matcher o) /\ eventless (o_file_matcher o) /\ eventless (o_child_limit o) /\
  (forall a, eventless (o_comparator o a)) /\ eventless (o_emoji o) /\
  match o_line_extension o with Some f => eventless f | None => True end.

(** The accesses made for what is displayed: the kind of a path; for a file its attributes; for a directory above the maximal depth its
    opening, the kind of everything in it in listing order, the accesses for its displayed children in display order, its closing. *)
Fixpoint accesses (dk : disk) (e : entry) : trace :=
  match e with
  | EFile p k => [EvLstat p (d_kind dk p); EvStat p (Some k)]
  | EDir p [EMaxDepth _] => [EvLstat p (Some KDir)]
  | EDir p es =>
      [EvLstat p (Some KDir); EvOpen p] ++ map (fun c => EvLstat c (d_kind dk c)) (contained dk [p]) ++
      flat_map (accesses dk) es ++ [EvClose p true]
  | ESkipped _ | EMaxDepth _ => []
  end.
