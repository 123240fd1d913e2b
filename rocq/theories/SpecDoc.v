(** * Vocabulary for the trees that options documents ask for *)

From Verif Require Export SpecCli SpecEmoji SpecScan SpecMeta SpecGlob.

(** What the document [x] asks for: for the paths [rest] below the target at the names [T], the filters are the meaning of the document's
    matchers, the limit is that of the first matching item whose limit is not negative, the extension that of the first matching rule; names
    are in alphabetical order; the depth is 20 unless the document says otherwise; emojis and compaction only if the document says so. *)
Record follows (j : jvm) (dk : disk) (T : list jstring) (x : xoptions) (st : settings) (v : view) : Prop := mkFollows {
  fo_depth : s_depth st = match x_max_depth x with Some d => d | None => 20%Z end;
  fo_order : contract (s_cmp st);
  fo_names : forall a b, (s_cmp st a b < 0)%Z <-> name_lt (last_name a) (last_name b);
  fo_compact : v_compact v = true <-> x_compact x = Some true;
  fo_no_emoji : forall p, x_emojis x <> Some true -> v_emoji v p = None;
  fo_dir_emoji : forall p, x_emojis x = Some true -> is_dir dk p -> v_emoji v p = Some DEFAULT_DIR_EMOJI;
  fo_file_emoji : forall p, x_emojis x = Some true -> ~ is_dir dk p ->
    exists e, v_emoji v p = Some e /\ own_emoji (jv_lower j) default_names default_exts DEFAULT_FILE_EMOJI p e;
  fo_dirs : forall rest, Forall real_name rest ->
    s_dirs st (mkPath true (T ++ rest)) = match x_filter x with Some f => meaning j T rest (xf_dir f) | None => true end;
  fo_files : forall rest, Forall real_name rest ->
    s_files st (mkPath true (T ++ rest)) = match x_filter x with Some f => meaning j T rest (xf_file f) | None => true end;
  fo_limit : forall rest, Forall real_name rest ->
    same_limit (s_limit st (mkPath true (T ++ rest)))
      match x_child_limit x with
      | Some (XStatic n) => n
      | Some (XDynamic (Some l)) => first_limit (fun n => (0 <=? n)%Z) (meaning j T rest) l
      | _ => None
      end;
  fo_extension : forall rest, Forall real_name rest ->
    v_ext v (mkPath true (T ++ rest)) = match x_line_extensions x with Some l => first_extension (meaning j T rest) l | None => None end
}.

(** The text that shows the tree of the document [x] for the directory or file at the names [T]. *)
Definition shows_document (j : jvm) (dk : disk) (T : list jstring) (x : xoptions) (out : jstring) : Prop :=
  exists st v e s, follows j dk T x st v /\
    tree_at st dk 0 (mkPath true T) e /\ shows v true e s /\ out = text (o_tree_format default_options) (labelled v s).

(** The same, with the tree [e] that is shown. *)
Definition shows_document_as (j : jvm) (dk : disk) (T : list jstring) (x : xoptions) (e : entry) (out : jstring) : Prop :=
  exists st v s, follows j dk T x st v /\
    tree_at st dk 0 (mkPath true T) e /\ shows v true e s /\ out = text (o_tree_format default_options) (labelled v s).

(** The options made of the document [x] for the target at the names [T] print [out] for that target. *)
Definition document_displayed (w : world) (T : list jstring) (x : xoptions) (out : jstring) : Prop :=
  exists h o h1 h2, map_to_options (mkPath true T) x w h = (Ok o, h1) /\ pretty_print o (mkPath true T) w h1 = (Ok out, h2).

(** Directories list real names only: neither "." nor "..", no '/' and not empty. *)
Definition real_listings (dk : disk) : Prop := forall p l, d_list dk p = Some l -> Forall real_name l.

(** What is at and below [r] can be read. *)
Definition all_can_be_read (dk : disk) (r : path) : Prop :=
  forall ns, listed dk r ns -> (is_dir dk (deeper r ns) -> d_list dk (deeper r ns) <> None) /\ (~ is_dir dk (deeper r ns) -> d_attr dk (deeper r ns) <> None).

(** A document with no setting. *)
Definition bare_document : xoptions := mkXOptions None None None None None None.

(** The document that is followed: without options file, the empty one. *)
Definition followed (sel : selection) (x : xoptions) : Prop := sel = UseDocument x \/ (sel = UseDefault /\ x = bare_document).

(** The example options file of the README (README.md:462-481). *)
Definition readme_document : xoptions :=
  mkXOptions (Some true) (Some true) (Some 2%Z) (Some (XStatic (Some 3%Z)))
    (Some (mkXFilter (XmName (Some (js "src/main/**"))) (XmName (Some (js "*.java")))))
    (Some [Some (mkXExtension (Some (js " // Main entry point")) (XmName (Some (js "FileTreePrettyPrinter.java"))))]).

(** From [r] one gets to [deeper r ns] through directories that list each other; no link is followed. *)
Inductive folders (dk : disk) (r : path) : list jstring -> Prop :=
| fd_start : is_dir dk r -> folders dk r []
| fd_down ns l n : folders dk r ns -> d_list dk (deeper r ns) = Some l -> In n l -> is_dir dk (deeper r (ns ++ [n])) -> folders dk r (ns ++ [n]).

(** The names [rest] lead towards [d], to it, or from it to something below it; "**" does not match line terminators. *)
Definition on_the_way (d rest : list jstring) : Prop :=
  (exists r, d = rest ++ r) \/ (exists r, rest = d ++ r /\ no_terminator (slashed r)).

(** The globs [l] name every directory on the way to [d], and what is below [d]: for a/b, these are a, a/b and a/b/**, in any order. *)
Record names_the_way (d : list jstring) (l : list jstring) : Prop := mkWay {
  nw_only : forall g, In g l -> (exists b r, b <> [] /\ d = b ++ r /\ literal g (slashed b)) \/ (exists g', g = g' ++ js "/**" /\ literal g' (slashed d));
  nw_way : forall b r, b <> [] -> d = b ++ r -> exists g, In g l /\ literal g (slashed b);
  nw_below : exists g, In (g ++ js "/**") l /\ literal g (slashed d)
}.

(** The depth a document asks for. *)
Definition depth_of (x : xoptions) : Z := match x_max_depth x with Some d => d | None => 20%Z end.
