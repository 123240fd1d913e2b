(** * Options that change while a printer runs

    The scanner and the entry renderer hold the options object and read it again whenever they need a value
    (DefaultPathToTreeScanner.java:26, 35, 48, 68, 97; DefaultTreeEntryRenderer.java:19, 46, 88, 91). Scanner.v and Renderer.v are for an object
    that stays as it is during a run. Here it may change: a function of the user may call setters of the object, and so may another thread.
    [cur h] are the contents of the object when [h] is what happened so far: a function of the user that calls setters leaves an event (as
    [logged] does), and what another thread does is known to [cur]. Simplification: the object
    does not change between two reads with no event in between (such as those of lines 88 and 91 of the renderer). *)

From Verif Require Export Printer.

(** Reading the options object. DefaultPathToTreeScanner.java:35, 48, 68, 97; DefaultTreeEntryRenderer.java:46, 88, 91. *)
Definition now (cur : hist -> options) : M options := fun _ h => (Ok (cur h), h).

(** DefaultPathToTreeScanner.java:38-63 (see [handle] in Scanner.v). The maximal depth is read once the path is known to be a directory (48);
    the comparator (97) and the child limit (68) when the directory has just been opened (55): nothing happens between the two reads. The
    filter is an argument. *)
Fixpoint live_handle (fuel : nat) (cur : hist -> options) (depth : Z) (p : path) (filter : matcher) : M (option entry) :=
  is_dir <- pm_is_directory p;
  if is_dir then
    o <- now cur;
    if (o_max_depth o <=? depth)%Z then
      (e <- new_max_depth_entry depth; ret (Some (EDir p [e])))
    else
      match fuel with
      | O => throw ExFuel
      | S fuel' =>
          dl <- open_dir p;
          match dl with
          | None => throw (ExUncheckedIO ListFiles p)
          | Some dl =>
              es <- with_close p (ExUncheckedIO ListFiles p)
                      (o <- now cur;
                       handle_directory_children o
                         (fun c => live_handle fuel' cur (depth + 1)%Z c filter) p dl filter);
              ret (Some (EDir p es))
          end
      end
  else handle_file p.

(** DefaultPathToTreeScanner.java:33-36: the filter is made from the matchers the object has now (PrettyPrintOptions.java:182-184). *)
Definition live_scan (fuel : nat) (cur : hist -> options) (root : path) : M entry :=
  cleaned_root <- clean_path root;
  o <- now cur;
  r <- live_handle fuel cur 0%Z cleaned_root (path_filter o);
  match r with Some e => ret e | None => throw ExNullPointer end.

(** DefaultTreeEntryRenderer.java:86-92. *)
Definition live_line_extension (cur : hist -> options) (p : path) : M (option jstring) :=
  o <- now cur; compute_line_extension o p.

(** DefaultTreeEntryRenderer.java:94-98. *)
Definition live_render_file (cur : hist -> options) (lr : line_renderer) (d : depth) (f : path) (attrs : kind) : M jstring :=
  line <- render_file_line lr d f attrs;
  e <- live_line_extension cur f;
  ret (line ++ or_empty e).

(** DefaultTreeEntryRenderer.java:31-106 (see [render_entry] in Renderer.v). Whether directories are merged is read for each directory (46). *)
Fixpoint live_render_entry (cur : hist -> options) (lr : line_renderer) (e : entry) (d : depth) (compact_paths : list path)
  {struct e} : M jstring :=
  match e with
  | EFile f attrs => live_render_file cur lr d f attrs
  | ESkipped _ => ret (render_child_limit_reached lr d)
  | EMaxDepth _ => ret (render_max_depth_reached lr d)
  | EDir dir entries =>
      let finish (evaluated : option (option jstring)) : M jstring :=
        line <- render_directory_begin lr d dir compact_paths;
        ext <- match evaluated with Some x => ret x | None => live_line_extension cur dir end;
        let line := line ++ or_empty ext in
        let line := match entries with [] => line | _ => line ++ [c_nl] end in
        children <- render_children (fun c cd => live_render_entry cur lr c cd (initial_compact_paths c)) d entries;
        ret (line ++ children)
      in
      o <- now cur;
      match entries with
      | [EDir child_dir child_entries as child] =>
          if o_compact o && negb (depth_is_root d) then
            ext <- live_line_extension cur dir;
            match ext with
            | None => live_render_entry cur lr child d (compact_paths ++ [child_dir])
            | Some x => finish (Some (Some x))
            end
          else finish None
      | _ => finish None
      end
  end.

(** DefaultTreeEntryRenderer.java:27-29. *)
Definition live_render_tree (cur : hist -> options) (lr : line_renderer) (e : entry) : M jstring :=
  live_render_entry cur lr e [] (initial_compact_paths e).

(** DefaultFileTreePrettyPrinter.java:20-26, with the line renderer created at build time. [fuel] is for the model's recursion: [ExFuel] means
    that more than that many directories would be open at once. *)
Definition live_print (fuel : nat) (cur : hist -> options) (lr : line_renderer) (p : path) : M jstring :=
  j <- get_jvm;
  tree <- live_scan fuel cur (normalize (to_absolute (jv_cwd j) p));
  live_render_tree cur lr tree.
