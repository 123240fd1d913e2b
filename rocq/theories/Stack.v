(** * The printer with a bounded stack

    The scanner and the tree renderer once more, as in Scanner.v, Renderer.v and Printer.v, but every call of one of their methods takes one of the
    [room] frames that are left, and is a StackOverflowError when there is none. C139 compares this with [pretty_print].
    Simplification: only calls of the methods of DefaultFileTreePrettyPrinter, DefaultPathToTreeScanner and DefaultTreeEntryRenderer that lie on a path to
    a recursive call or end one (handleFile, renderFile, renderSkippedChildrenEntry, renderMaxDepthReachEntry) are counted, one frame each. What they call
    besides (the JDK, the line renderer, the callbacks) has returned before the next such call, and is not counted. *)

From Verif Require Export Printer.

(** A method call: the body runs with one frame less. Such as DefaultPathToTreeScanner.java:35, 41, 57, 78; DefaultTreeEntryRenderer.java:29, 34,
    56, 77. *)
Definition in_frame {A} (room : nat) (body : nat -> M A) : M A :=
  match room with
  | O => throw ExStackOverflow
  | S room => body room
  end.

(** DefaultPathToTreeScanner.java:38-63, and the calls of [handleFile] (42), [handleDirectory] (41), [handleDirectoryChildren] (57) and
    [handle] (78). The fuel bounds the recursion as in [handle]. *)
Fixpoint stk_handle (room fuel : nat) (o : options) (depth : Z) (p : path) (filter : matcher) {struct fuel} : M (option entry) :=
  in_frame room (fun room =>
    is_dir <- pm_is_directory p;
    if is_dir then in_frame room (fun room =>
      if (o_max_depth o <=? depth)%Z then
        (e <- new_max_depth_entry depth; ret (Some (EDir p [e])))
      else
        match fuel with
        | O => throw ExFuel
        | S fuel' =>
            dl <- open_dir p;
            match dl with
            | None => throw (ExUncheckedIO ListFiles p)
            | Some dl =>
                es <- with_close p (ExUncheckedIO ListFiles p) (in_frame room (fun room =>
                        handle_directory_children o
                           (fun c => stk_handle room fuel' o (depth + 1)%Z c filter) p dl filter));
                ret (Some (EDir p es))
            end
        end)
    else in_frame room (fun _ => handle_file p)).

(** DefaultPathToTreeScanner.java:33-36. *)
Definition stk_scan (room : nat) (o : options) (root : path) : M entry :=
  in_frame room (fun room =>
    cleaned_root <- clean_path root;
    r <- stk_handle room (Z.to_nat (o_max_depth o)) o 0%Z cleaned_root (path_filter o);
    match r with Some e => ret e | None => throw ExNullPointer end).

(** DefaultTreeEntryRenderer.java:41-106, as [render_entry]: [renderDirectory], [renderFile], [renderSkippedChildrenEntry] and [renderMaxDepthReachEntry].
    A child is rendered by [renderTree] (77), a compacted directory by [renderDirectory] (56). *)
Fixpoint stk_render_entry (room : nat) (o : options) (lr : line_renderer) (e : entry) (d : depth) (compact_paths : list path)
  {struct e} : M jstring :=
  in_frame room (fun room =>
    match e with
    | EFile f attrs => render_file o lr d f attrs
    | ESkipped _ => ret (render_child_limit_reached lr d)
    | EMaxDepth _ => ret (render_max_depth_reached lr d)
    | EDir dir entries =>
        let finish (evaluated : option (option jstring)) : M jstring :=
          line <- render_directory_begin lr d dir compact_paths;
          ext <- match evaluated with Some x => ret x | None => compute_line_extension o dir end;
          let line := line ++ or_empty ext in
          let line := match entries with [] => line | _ => line ++ [c_nl] end in
          children <- render_children (fun c cd => in_frame room (fun room => stk_render_entry room o lr c cd (initial_compact_paths c))) d entries;
          ret (line ++ children)
        in
        match entries with
        | [EDir child_dir child_entries as child] =>
            if o_compact o && negb (depth_is_root d) then
              ext <- compute_line_extension o dir;
              match ext with
              | None => stk_render_entry room o lr child d (compact_paths ++ [child_dir])
              | Some _ => finish (Some ext)
              end
            else finish None
        | _ => finish None
        end
    end).

(** DefaultTreeEntryRenderer.java:27-39: [renderTree] with one argument and with two. *)
Definition stk_render_tree (room : nat) (o : options) (lr : line_renderer) (e : entry) : M jstring :=
  in_frame room (fun room => in_frame room (fun room => stk_render_entry room o lr e [] (initial_compact_paths e))).

(** DefaultFileTreePrettyPrinter.java:20-26. *)
Definition stk_pretty_print (room : nat) (o : options) (p : path) : M jstring :=
  in_frame room (fun room =>
    j <- get_jvm;
    tree <- stk_scan room o (normalize (to_absolute (jv_cwd j) p));
    stk_render_tree room o (line_renderer_create o) tree).
