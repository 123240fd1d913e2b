(** * Model of scanner/DefaultPathToTreeScanner.java and scanner/TreeEntry.java *)

From Verif Require Export Options.

(** scanner/TreeEntry.java:12-97. The attributes of a file entry are reduced to the file kind. *)
Inductive entry :=
| EDir (dir : path) (entries : list entry)
| EFile (file : path) (attrs : kind)
| ESkipped (dir : path)
| EMaxDepth (depth : Z).

(** scanner/TreeEntry.java:81-86, constructor of MaxDepthReachEntry. *)
Definition new_max_depth_entry (depth : Z) : M entry :=
  if (depth <? 0)%Z then throw ExIllegalArgument else ret (EMaxDepth depth).

(** DefaultPathToTreeScanner.java:101-109. The result is [Some]: the method never returns null. *)
Definition handle_file (file : path) : M (option entry) :=
  a <- stat file;
  match a with
  | Some k => ret (Some (EFile file k))
  | None => throw (ExUncheckedIO ReadAttributes file)
  end.

(** DefaultPathToTreeScanner.java:71-84. The iterator is the list of remaining paths. *)
Fixpoint children_loop (handle_child : path -> M (option entry)) (has_limit : bool) (max_children : Z)
                       (count : Z) (acc : list entry) (it : list path) : M (list entry * list path) :=
  match it with
  | [] => ret (acc, [])
  | child :: it' =>
      let count := (count + 1)%Z in
      if has_limit && (max_children <? count)%Z then ret (acc, it)
      else
        e <- handle_child child;
        match e with
        | None => children_loop handle_child has_limit max_children (count - 1)%Z acc it'
        | Some e => children_loop handle_child has_limit max_children count (acc ++ [e]) it'
        end
  end.

(** Iteration of the directory stream opened with the filter (JDK UnixDirectoryStream), pulled completely by the sort at the first [hasNext]; an
    I/O error while iterating is a DirectoryIteratorException. DefaultPathToTreeScanner.java:55. *)
Definition stream_paths (dir : path) (dl : dirlist) (filter : matcher) : M (list path) :=
  l <- filterM filter (map (resolve_name dir) (dl_names dl));
  if dl_fail dl then (iter_fail dir;; throw (ExDirectoryIterator dir)) else ret l.

(** DefaultPathToTreeScanner.java:65-99. *)
Definition handle_directory_children (o : options) (handle_child : path -> M (option entry))
                                     (dir : path) (dl : dirlist) (filter : matcher) : M (list entry) :=
  max_children <- o_child_limit o dir;
  let has_limit := (0 <=? max_children)%Z in
  unsorted <- stream_paths dir dl filter;
  it <- sorted (o_comparator o) unsorted;
  r <- children_loop handle_child has_limit max_children 0%Z [] it;
  let '(child_entries, rest) := r in
  ret (child_entries ++ match rest with [] => [] | _ :: _ => [ESkipped dir] end).

(** DefaultPathToTreeScanner.java:38-63. The model's fuel bounds the recursion
    [handle -> handleDirectory -> handleDirectoryChildren -> handle]; the code's own bound is line 48. *)
Fixpoint handle (fuel : nat) (o : options) (depth : Z) (p : path) (filter : matcher) : M (option entry) :=
  is_dir <- pm_is_directory p;
  if is_dir then
    if (o_max_depth o <=? depth)%Z then
      (e <- new_max_depth_entry depth; ret (Some (EDir p [e])))
    else
      match fuel with
      | O => throw ExFuel
      | S fuel' =>
          dl <- open_dir p;
          match dl with
          | None => throw (ExUncheckedIO ListFiles p)
          | Some dl =>
              es <- with_close p (ExUncheckedIO ListFiles p)
                      (handle_directory_children o
                         (fun c => handle fuel' o (depth + 1)%Z c filter) p dl filter);
              ret (Some (EDir p es))
          end
      end
  else handle_file p.

(** DefaultPathToTreeScanner.java:33-36. A null tree would make the renderer fail with a
    NullPointerException (its switch); [handle] never returns null. *)
Definition scan (o : options) (root : path) : M entry :=
  cleaned_root <- clean_path root;
  r <- handle (Z.to_nat (o_max_depth o)) o 0%Z cleaned_root (path_filter o);
  match r with Some e => ret e | None => throw ExNullPointer end.
