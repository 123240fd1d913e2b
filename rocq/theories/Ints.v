(** * The scanner with Java's int arithmetic

    scanner/DefaultPathToTreeScanner.java once more, as in Scanner.v but with the arithmetic of [int]: the sum of two numbers is taken modulo 2^32.
    C138 says that this makes no difference. *)

From Verif Require Export Printer.

(** Addition of [int]. DefaultPathToTreeScanner.java:73, 78, 80. *)
Definition int_add (a b : Z) : Z := ((a + b + 2147483648) mod 4294967296 - 2147483648)%Z.

(** DefaultPathToTreeScanner.java:71-84; [childCount++] is line 73, [childCount--] line 80. *)
Fixpoint int_children_loop (handle_child : path -> M (option entry)) (has_limit : bool) (max_children : Z)
                           (count : Z) (acc : list entry) (it : list path) : M (list entry * list path) :=
  match it with
  | [] => ret (acc, [])
  | child :: it' =>
      let count := int_add count 1 in
      if has_limit && (max_children <? count)%Z then ret (acc, it)
      else
        e <- handle_child child;
        match e with
        | None => int_children_loop handle_child has_limit max_children (int_add count (-1)) acc it'
        | Some e => int_children_loop handle_child has_limit max_children count (acc ++ [e]) it'
        end
  end.

(** DefaultPathToTreeScanner.java:65-99. *)
Definition int_handle_directory_children (o : options) (handle_child : path -> M (option entry))
                                         (dir : path) (dl : dirlist) (filter : matcher) : M (list entry) :=
  max_children <- o_child_limit o dir;
  let has_limit := (0 <=? max_children)%Z in
  unsorted <- stream_paths dir dl filter;
  it <- sorted (o_comparator o) unsorted;
  r <- int_children_loop handle_child has_limit max_children 0%Z [] it;
  let '(child_entries, rest) := r in
  ret (child_entries ++ match rest with [] => [] | _ :: _ => [ESkipped dir] end).

(** DefaultPathToTreeScanner.java:38-63; [depth + 1] is in line 78. The fuel bounds the recursion as in [handle]. *)
Fixpoint int_handle (fuel : nat) (o : options) (depth : Z) (p : path) (filter : matcher) : M (option entry) :=
  is_dir <- pm_is_directory p;
  if is_dir then
    if (o_max_depth o <=? depth)%Z then
      (e <- new_max_depth_entry depth; ret (Some (EDir p [e])))
    else
      match fuel with
      | O => throw ExFuel
      | S fuel' =>
          dl <- open_dir p;
          match dl with
          | None => throw (ExUncheckedIO ListFiles p)
          | Some dl =>
              es <- with_close p (ExUncheckedIO ListFiles p)
                      (int_handle_directory_children o
                         (fun c => int_handle fuel' o (int_add depth 1) c filter) p dl filter);
              ret (Some (EDir p es))
          end
      end
  else handle_file p.

(** DefaultPathToTreeScanner.java:33-36. *)
Definition int_scan (o : options) (root : path) : M entry :=
  cleaned_root <- clean_path root;
  r <- int_handle (Z.to_nat (o_max_depth o)) o 0%Z cleaned_root (path_filter o);
  match r with Some e => ret e | None => throw ExNullPointer end.

(** DefaultFileTreePrettyPrinter.java:20-26. *)
Definition int_pretty_print (o : options) (p : path) : M jstring :=
  j <- get_jvm;
  tree <- int_scan o (normalize (to_absolute (jv_cwd j) p));
  render_tree o (line_renderer_create o) tree.
