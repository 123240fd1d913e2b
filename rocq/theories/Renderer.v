(** * Model of the renderer package *)

From Verif Require Export Scanner.

(** renderer/TreeSymbol.java:6-32. *)
Inductive tree_symbol := NON_LAST_FILE | LAST_FILE | CONTINUATION | EMPTY.

(** renderer/Depth.java:12-46. *)
Definition depth := list tree_symbol.

(** renderer/Depth.java:25-31. *)
Definition depth_is_root (d : depth) : bool := (length d =? 0)%nat.

(** renderer/Depth.java:33-37. *)
Definition depth_append (d : depth) (s : tree_symbol) : depth := d ++ [s].

(** renderer/Depth.java:39-46. *)
Definition depth_pop (d : depth) : depth := match d with [] => d | _ => removelast d end.

(** renderer/DefaultTreeFormatter.java:37-44. *)
Definition format_symbol (tf : tree_format) (s : tree_symbol) : jstring :=
  match s with
  | NON_LAST_FILE => tf_non_last tf
  | LAST_FILE => tf_last tf
  | CONTINUATION => tf_continuation tf
  | EMPTY => tf_empty tf
  end.

(** renderer/DefaultTreeFormatter.java:20-35; [pre], [post] are the indents of 14-18. *)
Fixpoint format_symbols (tf : tree_format) (pre post : jstring) (l : list tree_symbol) : jstring :=
  match l with
  | [] => []
  | s :: l' =>
      let has_next := match l' with [] => false | _ => true end in
      let symbol := match s with
                    | LAST_FILE => if has_next then EMPTY else s
                    | NON_LAST_FILE => if has_next then CONTINUATION else s
                    | _ => s
                    end in
      pre ++ format_symbol tf symbol ++ post ++ format_symbols tf pre post l'
  end.

(** renderer/TreeFormatter.java:11-13: no space before, one space after. *)
Definition tree_formatter_format (tf : tree_format) (d : depth) : jstring :=
  format_symbols tf [] [c_space] d.

(** renderer/DefaultFileFormatter.java:18: [dir.getFileName().toString() + "/"]. *)
Definition dir_label (d : path) : M jstring :=
  match get_file_name d with
  | None => throw ExNullPointer
  | Some n => ret (path_str n ++ [c_slash])
  end.

(** renderer/DefaultFileFormatter.java:15-20. *)
Definition format_directory_begin (dirs : list path) : M jstring :=
  l <- mapM dir_label dirs; ret (concat l).

(** renderer/DefaultFileFormatter.java:22-31. *)
Definition format_file (f : path) (attrs : kind) : M jstring :=
  match get_file_name f with
  | None => throw ExNullPointer
  | Some n =>
      ret (if kind_eqb attrs KLink then path_str n ++ [42%N]
           else if kind_eqb attrs KOther then path_str n ++ [63%N]
           else path_str n)
  end.

(** renderer/DefaultFileFormatter.java:33-41. *)
Definition format_child_limit_reached : jstring := js "...".

(** renderer/DefaultFileFormatter.java:38-41. *)
Definition format_max_depth_reached : jstring := js "...".

(** renderer/EmojiFileFormatter.java:25-35. *)
Definition emoji_prefix (emoji : emoji_fn) (p : path) : M jstring :=
  e <- emoji p; ret (match e with None => [] | Some e => e ++ [c_space] end).

(** renderer/LineRenderer.java:27-34 with DefaultLineRenderer.java:18-21: tree format and emoji mapping are
    captured when the renderer is created. *)
Record line_renderer := mkLineRenderer { lr_tree_format : tree_format; lr_emoji : emoji_fn }.

(** renderer/LineRenderer.java:27-34. *)
Definition line_renderer_create (o : options) : line_renderer :=
  mkLineRenderer (o_tree_format o) (o_emoji o).

(** renderer/DefaultLineRenderer.java:23-26 through EmojiFileFormatter.java:37-40. *)
Definition render_directory_begin (lr : line_renderer) (d : depth) (dir : path) (dirs : list path) : M jstring :=
  e <- emoji_prefix (lr_emoji lr) dir;
  l <- format_directory_begin dirs;
  ret (tree_formatter_format (lr_tree_format lr) d ++ e ++ l).

(** renderer/DefaultLineRenderer.java:28-31 through EmojiFileFormatter.java:42-45. *)
Definition render_file_line (lr : line_renderer) (d : depth) (f : path) (attrs : kind) : M jstring :=
  e <- emoji_prefix (lr_emoji lr) f;
  l <- format_file f attrs;
  ret (tree_formatter_format (lr_tree_format lr) d ++ e ++ l).

(** renderer/DefaultLineRenderer.java:33-36 and 38-41 through EmojiFileFormatter.java:47-55. *)
Definition render_child_limit_reached (lr : line_renderer) (d : depth) : jstring :=
  tree_formatter_format (lr_tree_format lr) d ++ format_child_limit_reached.

(** renderer/DefaultLineRenderer.java:38-41 through EmojiFileFormatter.java:52-55. *)
Definition render_max_depth_reached (lr : line_renderer) (d : depth) : jstring :=
  tree_formatter_format (lr_tree_format lr) d ++ format_max_depth_reached.

(** renderer/DefaultTreeEntryRenderer.java:85-92. *)
Definition compute_line_extension (o : options) (p : path) : M (option jstring) :=
  match o_line_extension o with None => ret None | Some f => f p end.

(** [Optional.ofNullable(extension).orElse("")]: renderer/DefaultTreeEntryRenderer.java:64, 96. *)
Definition or_empty (e : option jstring) : jstring := match e with Some e => e | None => [] end.

(** renderer/DefaultTreeEntryRenderer.java:94-98. *)
Definition render_file (o : options) (lr : line_renderer) (d : depth) (f : path) (attrs : kind) : M jstring :=
  line <- render_file_line lr d f attrs;
  e <- compute_line_extension o f;
  ret (line ++ or_empty e).

(** The compact-paths argument [renderTree] starts a directory with (DefaultTreeEntryRenderer.java:33). *)
Definition initial_compact_paths (e : entry) : list path :=
  match e with EDir dir _ => [dir] | _ => [] end.

(** DefaultTreeEntryRenderer.java:72-81 (child loop; the separators are those of 78-80): loop over the children; [render] renders one child. *)
Definition render_children (render : entry -> depth -> M jstring) (d : depth) : list entry -> M jstring :=
  fix go (l : list entry) : M jstring :=
    match l with
    | [] => ret []
    | [c] => render c (depth_append d LAST_FILE)
    | c :: l' => s <- render c (depth_append d NON_LAST_FILE); r <- go l'; ret (s ++ [c_nl] ++ r)
    end.

(** DefaultTreeEntryRenderer.java:31-106: [renderTree] (31-39), [renderDirectory] (41-84), skipped (100-102) and
    max depth (104-106) entries. [compact_paths] is the third argument of [renderDirectory]; it is ignored for
    entries that are not directories. [finish] is lines 60-83, with the extension already evaluated or not. *)
Fixpoint render_entry (o : options) (lr : line_renderer) (e : entry) (d : depth) (compact_paths : list path)
  {struct e} : M jstring :=
  match e with
  | EFile f attrs => render_file o lr d f attrs
  | ESkipped _ => ret (render_child_limit_reached lr d)
  | EMaxDepth _ => ret (render_max_depth_reached lr d)
  | EDir dir entries =>
      let finish (evaluated : option (option jstring)) : M jstring :=
        line <- render_directory_begin lr d dir compact_paths;
        ext <- match evaluated with Some x => ret x | None => compute_line_extension o dir end;
        let line := line ++ or_empty ext in
        let line := match entries with [] => line | _ => line ++ [c_nl] end in
        children <- render_children (fun c cd => render_entry o lr c cd (initial_compact_paths c)) d entries;
        ret (line ++ children)
      in
      match entries with
      | [EDir child_dir child_entries as child] =>
          if o_compact o && negb (depth_is_root d) then
            ext <- compute_line_extension o dir;
            match ext with
            | None => render_entry o lr child d (compact_paths ++ [child_dir])
            | Some _ => finish (Some ext)
            end
          else finish None
      | _ => finish None
      end
  end.

(** DefaultTreeEntryRenderer.java:27-29. *)
Definition render_tree (o : options) (lr : line_renderer) (e : entry) : M jstring :=
  render_entry o lr e [] (initial_compact_paths e).
