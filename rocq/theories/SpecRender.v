(** * Specification of the printed text (independent of the renderer's code) *)

From Verif Require Import Printer.

(** [f] computes the function [g] in the world [w]: it never throws, whatever happened before. *)
Definition answers {A B} (w : world) (f : A -> M B) (g : A -> B) : Prop :=
  forall a h, exists h', f a w h = (Ok (g a), h').

(** ** Layout of a tree of labels *)

Inductive dtree := DT (label : jstring) (kids : list dtree).

(** One row per node, depth first. A row carries, for each level from the root's children down to the
    node, whether the ancestor-or-self at that level is the last of its siblings; and its label. *)
Definition row := (list bool * jstring)%type.

Definition under (last : bool) (r : row) : row := (last :: fst r, snd r).

Fixpoint rows (t : dtree) : list row :=
  match t with
  | DT label kids =>
      ([], label) ::
      (fix below (l : list dtree) : list row :=
         match l with
         | [] => []
         | [k] => map (under true) (rows k)
         | k :: l' => map (under false) (rows k) ++ below l'
         end) kids
  end.

Fixpoint row_prefix (tf : tree_format) (flags : list bool) : jstring :=
  match flags with
  | [] => []
  | [last] => (if last then tf_last tf else tf_non_last tf) ++ [c_space]
  | last :: flags' => (if last then tf_empty tf else tf_continuation tf) ++ [c_space] ++ row_prefix tf flags'
  end.

Definition row_text (tf : tree_format) (r : row) : jstring := row_prefix tf (fst r) ++ snd r.

Definition text (tf : tree_format) (t : dtree) : jstring := join [c_nl] (map (row_text tf) (rows t)).

(** ** From scanned entries to displayed nodes *)

(** Line extensions and emojis as plain functions; [None] is null. *)
Record view := mkView {
  v_ext : path -> option jstring;
  v_emoji : path -> option jstring;
  v_compact : bool
}.

(** A displayed line: a chain of directories (one directory unless compacted), a file, or "...". *)
Inductive shown :=
| SDir (chain : list path) (kids : list shown)
| SFile (f : path) (k : kind)
| SDots.

Definition is_dir_entry (e : entry) : Prop := match e with EDir _ _ => True | _ => False end.

(** A directory is merged with its child exactly when that child is a directory and its only displayed
    entry, and the directory itself has no line extension. *)
Definition mergeable (v : view) (d : path) (es : list entry) : Prop :=
  v_ext v d = None /\ exists c, es = [c] /\ is_dir_entry c.

(** [chain_of v e ds es]: [ds] is the maximal chain of merged directories starting at [e]; [es] are the
    entries of its last directory. *)
Inductive chain_of (v : view) : entry -> list path -> list entry -> Prop :=
| chain_stop d es : ~ mergeable v d es -> chain_of v (EDir d es) [d] es
| chain_next d c ds es : mergeable v d [c] -> chain_of v c ds es -> chain_of v (EDir d [c]) (d :: ds) es.

(** [shows v top e s]: the entry [e] is displayed as [s]; [top] for the root. *)
Inductive shows (v : view) : bool -> entry -> shown -> Prop :=
| shows_file top f k : shows v top (EFile f k) (SFile f k)
| shows_skipped top d : shows v top (ESkipped d) SDots
| shows_max_depth top n : shows v top (EMaxDepth n) SDots
| shows_plain top d es ks :
    top = true \/ v_compact v = false ->
    Forall2 (shows v false) es ks -> shows v top (EDir d es) (SDir [d] ks)
| shows_compact e ds es ks :
    v_compact v = true -> chain_of v e ds es ->
    Forall2 (shows v false) es ks -> shows v false e (SDir ds ks).

Definition last_name (p : path) : jstring := last (p_names p) [].
Definition opt_str (o : option jstring) : jstring := match o with Some s => s | None => [] end.
Definition emoji_str (v : view) (p : path) : jstring :=
  match v_emoji v p with Some e => e ++ [c_space] | None => [] end.
Definition kind_mark (k : kind) : jstring :=
  match k with KLink => js "*" | KOther => js "?" | KReg | KDir => [] end.

(** The label of a line. *)
Fixpoint labelled (v : view) (s : shown) : dtree :=
  match s with
  | SDir chain kids =>
      let d := last chain (mkPath true []) in
      DT (emoji_str v d ++ concat (map (fun d => last_name d ++ js "/") chain) ++ opt_str (v_ext v d))
         (map (labelled v) kids)
  | SFile f k => DT (emoji_str v f ++ last_name f ++ kind_mark k ++ opt_str (v_ext v f)) []
  | SDots => DT (js "...") []
  end.

(** Every file and directory of the entry has a name (it is not "/"). *)
Inductive named : entry -> Prop :=
| named_file f k : p_names f <> [] -> named (EFile f k)
| named_skipped d : named (ESkipped d)
| named_max n : named (EMaxDepth n)
| named_dir d es : p_names d <> [] -> Forall named es -> named (EDir d es).

(** The paths displayed by an entry, in display order (depth first). *)
Fixpoint entry_paths (e : entry) : list path :=
  match e with
  | EDir d es => d :: flat_map entry_paths es
  | EFile f _ => [f]
  | ESkipped _ | EMaxDepth _ => []
  end.

Fixpoint shown_paths (s : shown) : list path :=
  match s with
  | SDir chain kids => chain ++ flat_map shown_paths kids
  | SFile f _ => [f]
  | SDots => []
  end.

(** ** Symbol widths and columns *)

Definition same_width (tf : tree_format) (w : nat) : Prop :=
  length (tf_non_last tf) = w /\ length (tf_last tf) = w /\
  length (tf_continuation tf) = w /\ length (tf_empty tf) = w.

(** Branch symbols can be told apart from indentation symbols, and no symbol breaks the line. *)
Definition distinguishable (tf : tree_format) : Prop :=
  (exists w, same_width tf w) /\
  (forall b i, In b [tf_non_last tf; tf_last tf] -> In i [tf_continuation tf; tf_empty tf] -> b <> i) /\
  (forall s, In s [tf_non_last tf; tf_last tf; tf_continuation tf; tf_empty tf] -> ~ In c_nl s).

Definition labels_on_one_line (t : dtree) : Prop := forall r, In r (rows t) -> ~ In c_nl (snd r).

Inductive column := ColNonLast | ColLast | ColContinuation | ColEmpty | ColNone.

(** What a row shows at column [j] (counting from the left, one column per level). *)
Definition column_at (flags : list bool) (j : nat) : column :=
  match nth_error flags j with
  | None => ColNone
  | Some last =>
      if (S j =? length flags)%nat then (if last then ColLast else ColNonLast)
      else (if last then ColEmpty else ColContinuation)
  end.

Definition adjacent {A} (l : list A) (a b : A) : Prop := exists l1 l2, l = l1 ++ a :: b :: l2.

(** The text a format prints for what a row shows in a column. *)
Definition column_symbol (tf : tree_format) (c : column) : jstring :=
  match c with
  | ColNonLast => tf_non_last tf
  | ColLast => tf_last tf
  | ColContinuation => tf_continuation tf
  | ColEmpty => tf_empty tf
  | ColNone => []
  end.

(** The slice of length [n] starting at offset [i]. *)
Definition slice {A} (i n : nat) (l : list A) : list A := firstn n (skipn i l).

(** ** Sub-entries and merged directories *)

(** [inside e x]: [x] lies strictly inside [e]. *)
Inductive inside : entry -> entry -> Prop :=
| inside_child d es x : In x es -> inside (EDir d es) x
| inside_deeper d es y x : In y es -> inside y x -> inside (EDir d es) x.

(** [line_of s x]: [x] is a line of [s] (the first one included). *)
Inductive line_of : shown -> shown -> Prop :=
| line_self s : line_of s s
| line_below c ks k s : In k ks -> line_of k s -> line_of (SDir c ks) s.

(** [c] directly follows [d] on the same line. *)
Definition merged_on (s : shown) (d c : path) : Prop :=
  exists chain kids, line_of s (SDir chain kids) /\ adjacent chain d c.

(** Number of entries, "..." markers included. *)
Fixpoint entry_count (e : entry) : nat :=
  match e with
  | EDir _ es => S (list_sum (map entry_count es))
  | _ => 1%nat
  end.

(** Changing one component of a view. *)
Definition set_compact (b : bool) (v : view) : view := mkView (v_ext v) (v_emoji v) b.
Definition no_emoji (v : view) : view := mkView (v_ext v) (fun _ => None) (v_compact v).

(** The path each line stands for (the last one of a merged chain), none for "..." lines; in line order. *)
Fixpoint line_paths (s : shown) : list (option path) :=
  match s with
  | SDir chain kids => Some (last chain (mkPath true [])) :: flat_map line_paths kids
  | SFile f _ => [Some f]
  | SDots => [None]
  end.

(** Put [emoji + " "] before the label of a row, if there is a path and it has an emoji. *)
Definition add_emoji (emoji : path -> option jstring) (p : option path) (r : row) : row :=
  match p with
  | None => r
  | Some p => match emoji p with Some e => (fst r, e ++ [c_space] ++ snd r) | None => r end
  end.

(** The view without line extensions; append the extension to the label of a row, if there is a path and it has one. *)
Definition no_ext (v : view) : view := mkView (fun _ => None) (v_emoji v) (v_compact v).
Definition add_ext (ext : path -> option jstring) (p : option path) (r : row) : row :=
  match p with
  | None => r
  | Some p => match ext p with Some x => (fst r, snd r ++ x) | None => r end
  end.

(** ** Calls of a user callback *)

Definition is_call (tag : nat) (e : event) : bool :=
  match e with EvUser t _ => Nat.eqb t tag | _ => false end.

Definition call_path (e : event) : list path :=
  match e with EvUser _ p => [p] | _ => [] end.

(** The arguments of the calls logged with [tag], oldest first. *)
Definition calls (tag : nat) (h : hist) : list path := rev (flat_map call_path (filter (is_call tag) h)).

(** [f] made observable: each call is logged with [tag] before it is made. *)
Definition logged {B} (tag : nat) (f : path -> M B) : path -> M B :=
  fun p w h => f p w (EvUser tag p :: h).

(** [f] does not itself log with [tag]. *)
Definition silent {A B} (tag : nat) (f : A -> M B) : Prop :=
  forall a w h, calls tag (snd (f a w h)) = calls tag h.

(** The configured line extension computes [g]; without one nothing is appended. *)
Definition extension_is (w : world) (o : options) (g : path -> option jstring) : Prop :=
  match o_line_extension o with
  | None => forall p, g p = None
  | Some f => answers w f g
  end.

(** The view a pair of options produces in a world. *)
Definition sees (w : world) (o : options) (v : view) : Prop :=
  extension_is w o (v_ext v) /\ answers w (o_emoji o) (v_emoji v) /\ o_compact o = v_compact v.

(** ** What a reader wants to know: the names, the marks and the nesting *)

Inductive outline :=
| ODir (names : list jstring) (kids : list outline)
| OFile (name mark : jstring)
| ODots.

Fixpoint outline_of (s : shown) : outline :=
  match s with
  | SDir chain kids => ODir (map last_name chain) (map outline_of kids)
  | SFile f k => OFile (last_name f) (kind_mark k)
  | SDots => ODots
  end.

(** A name as file systems have it, without a line break. *)
Definition one_line_name (n : jstring) : Prop := n <> [] /\ ~ In c_slash n /\ ~ In c_nl n.
(** A file name that is not "..." and does not look marked. *)
Definition unmarked (n : jstring) : Prop := n <> js "..." /\ forall n', n <> n' ++ js "*" /\ n <> n' ++ js "?".

(** All names shown are like that. *)
Inductive clear_names : shown -> Prop :=
| cn_dir chain kids : chain <> [] -> (forall d, In d chain -> one_line_name (last_name d)) -> (forall k, In k kids -> clear_names k) ->
    clear_names (SDir chain kids)
| cn_file f k : one_line_name (last_name f) -> unmarked (last_name f) -> clear_names (SFile f k)
| cn_dots : clear_names SDots.

(** Neither extensions nor emojis. *)
Definition bare (v : view) : Prop := (forall p, v_ext v p = None) /\ (forall p, v_emoji v p = None).
