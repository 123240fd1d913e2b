(** * What the example programs are meant to print *)

From Verif Require Export Examples SpecDoc SpecMatch.

(** What a program wants to see: format, depth, compaction, default emojis, which directories and files, how many children ([None]: all), which
    sibling comes before which, what is written after the name. *)
Record wish := mkWish {
  wi_format : tree_format;
  wi_depth : Z;
  wi_compact : bool;
  wi_emojis : bool;
  wi_dirs : path -> Prop;
  wi_files : path -> Prop;
  wi_limit : path -> option Z -> Prop;
  wi_before : path -> path -> Prop;
  wi_extension : path -> option jstring -> Prop
}.

(** Settings and view that grant the wish [a] on the disk [dk] for the names below [T]. *)
Record grants (lower : jstring -> jstring) (dk : disk) (T : list jstring) (a : wish) (st : settings) (v : view) : Prop := mkGrants {
  gr_depth : s_depth st = wi_depth a;
  gr_order : configured_order (s_cmp st);
  gr_before : forall p q, (s_cmp st p q < 0)%Z <-> wi_before a p q;
  gr_compact : v_compact v = wi_compact a;
  gr_no_emoji : forall p, wi_emojis a = false -> v_emoji v p = None;
  gr_dir_emoji : forall p, wi_emojis a = true -> is_dir dk p -> v_emoji v p = Some DEFAULT_DIR_EMOJI;
  gr_file_emoji : forall p, wi_emojis a = true -> ~ is_dir dk p ->
    exists e, v_emoji v p = Some e /\ own_emoji lower default_names default_exts DEFAULT_FILE_EMOJI p e;
  gr_dirs : forall rest, Forall real_name rest -> s_dirs st (mkPath true (T ++ rest)) = true <-> wi_dirs a (mkPath true (T ++ rest));
  gr_files : forall rest, Forall real_name rest -> s_files st (mkPath true (T ++ rest)) = true <-> wi_files a (mkPath true (T ++ rest));
  gr_limit : forall rest l, Forall real_name rest -> wi_limit a (mkPath true (T ++ rest)) l -> same_limit (s_limit st (mkPath true (T ++ rest))) l;
  gr_extension : forall rest x, Forall real_name rest -> wi_extension a (mkPath true (T ++ rest)) x -> v_ext v (mkPath true (T ++ rest)) = x
}.

(** The text that shows the tree wished for, for the directory or file at the names [T]. *)
Definition shows_wish (lower : jstring -> jstring) (dk : disk) (T : list jstring) (a : wish) (out : jstring) : Prop :=
  exists st v e s, grants lower dk T a st v /\
    tree_at st dk 0 (mkPath true T) e /\ shows v true e s /\ out = text (wi_format a) (labelled v s).

(** A Unix machine whose disk does not change: directories list real names once, globs are those of the JDK, lower-casing leaves the keys of
    the default emojis alone. *)
Record usual (w : world) (dk : disk) : Prop := mkUsual {
  us_steady : steady w dk;
  us_distinct : distinct_names dk;
  us_real : real_listings dk;
  us_cwd : Forall real_name (jv_cwd (w_jvm w));
  us_globs : unix_globs w;
  us_lower : forall k v, default_names k v \/ default_exts k v -> jv_lower (w_jvm w) k = k
}.

(** The names of a resource directory of the examples: the current directory is that of the module. *)
Definition resource (w : world) (name : jstring) : list jstring := jv_cwd (w_jvm w) ++ [js "src"; js "main"; js "resources"] ++ [name].

(** ** Parts of wishes *)
Definition box_lines : tree_format := mkTreeFormat [9500; 9472]%N [9492; 9472]%N [9474; 32]%N (js "  ").
Definition ascii_lines : tree_format := mkTreeFormat (js "|--") (js "`--") ([9474%N] ++ js "  ") (js "   ").
Definition everything (p : path) : Prop := True.
Definition all_children (p : path) (l : option Z) : Prop := l = None.
Definition nothing_added (p : path) (x : option jstring) : Prop := x = None.
Definition by_names (p q : path) : Prop := name_lt (last_name p) (last_name q).

(** Names that satisfy a condition. *)
Definition named (Q : jstring -> Prop) (p : path) : Prop := exists n, ends_with_name p n /\ Q n.
Definition starting (s n : jstring) : Prop := exists t, n = s ++ t.

(** The first rule whose condition holds decides; [other] if none does. *)
Inductive first_rule {A} (other : A) : list (Prop * A) -> A -> Prop :=
| fr_none : first_rule other [] other
| fr_here (Q : Prop) a l : Q -> first_rule other ((Q, a) :: l) a
| fr_later (Q : Prop) a l r : ~ Q -> first_rule other l r -> first_rule other ((Q, a) :: l) r.

(** ** The wishes of the example programs *)
Definition basic_wish : wish := mkWish box_lines 20 false false everything everything all_children by_names nothing_added.
Definition format_wish : wish := mkWish ascii_lines 20 false false everything everything all_children by_names nothing_added.
Definition depth_wish : wish := mkWish box_lines 3 false false everything everything all_children by_names nothing_added.
Definition compact_wish : wish := mkWish box_lines 20 true false everything everything all_children by_names nothing_added.
Definition emojis_wish : wish := mkWish box_lines 20 false true everything everything all_children by_names nothing_added.
Definition three_wish : wish := mkWish box_lines 20 false false everything everything (fun _ l => l = Some 3%Z) by_names nothing_added.

(** Directories whose name does not end with "no_java_file"; files whose name ends with ".java". *)
Definition java_wish : wish := mkWish box_lines 20 false false
  (fun p => ~ named (fun n => ending n (js "no_java_file")) p) (named (fun n => ending n (js ".java"))) all_children by_names nothing_added.

(** Nothing in node_modules. *)
Definition modules_wish : wish := mkWish box_lines 20 false false everything everything
  (fun p => first_rule None [(named (eq (js "node_modules")) p, Some 0%Z)]) by_names nothing_added.

(** Directories first. *)
Definition sorting_wish (dk : disk) : wish := mkWish box_lines 20 false false everything everything all_children
  (fun p q => (is_dir dk p /\ ~ is_dir dk q) \/ ((is_dir dk p <-> is_dir dk q) /\ by_names p q)) nothing_added.

(** Comments on three directories of the printed directory [T] and on .properties files. *)
Definition tabbed (k : nat) (s : jstring) : option jstring := Some (repeat 9%N k ++ s).
Definition comments_wish (T : list jstring) : wish := mkWish box_lines 20 false false everything everything all_children by_names
  (fun p => first_rule None [
    (p_names p = T ++ [js "src"; js "main"; js "java"; js "api"], tabbed 3 (js "// All API code: controllers, etc."));
    (p_names p = T ++ [js "src"; js "main"; js "java"; js "domain"], tabbed 3 (js "// All domain code: value objects, etc."));
    (p_names p = T ++ [js "src"; js "main"; js "java"; js "infra"], tabbed 3 (js "// All infra code: database, email service, etc."));
    (named (fun n => ending n (js ".properties")) p, tabbed 1 (js "// Config file"))]).

(** *** The structure of the project at the names [T] *)
Definition core_module : jstring := js "jfiletreeprettyprinter-core".
Definition main_class : jstring := js "FileTreePrettyPrinter.java".

(** [p] is somewhere below a directory named [d], neither what precedes nor what follows contains a line terminator (a '.' in a Java regular
    expression does not match one). *)
Definition clean_below (d : jstring) (p : path) : Prop := exists a b, p_names p = a ++ d :: b /\ b <> [] /\ no_terminator (slashed a) /\ no_terminator (slashed b).
(** Likewise [p] is called [n]; at least one directory is between. *)
Definition clean_deep (d n : jstring) (p : path) : Prop :=
  exists a b, p_names p = a ++ d :: b ++ [n] /\ b <> [] /\ no_terminator (slashed a) /\ no_terminator (slashed b).
(** [p] is called [n], no directory it is in has a line terminator in its name. *)
Definition clean_name (n : jstring) (p : path) : Prop := exists a, p_names p = a ++ [n] /\ no_terminator (slashed a).

(** A directory that contains the main class, somewhere. *)
Definition has_main_class (dk : disk) (p : path) : Prop :=
  exists k q, (Z.of_nat k <= 2147483647)%Z /\ descends dk p k q /\ named (eq main_class) q.

Definition project_dirs (dk : disk) (T : list jstring) (p : path) : Prop :=
  has_main_class dk p \/
  ~ (named (starting (js ".")) p \/ p_names p = T ++ [js "target"] \/ p_names p = T ++ [js "src"] \/
     exists m l, p_names p = T ++ m :: js "src" :: l /\ l <> [] /\ no_terminator (slashed l)).

Definition project_files (p : path) : Prop :=
  clean_deep core_module main_class p \/ ~ (clean_below core_module p \/ named (starting (js ".")) p).

(** Position among siblings. *)
Definition project_rank (dk : disk) (p : path) : Z -> Prop :=
  first_rule 0%Z [
    (named (eq core_module) p, (-100)%Z);
    (named (eq (js "jfiletreeprettyprinter-examples")) p, (-90)%Z);
    (named (eq (js "jfiletreeprettyprinter-cli")) p, (-80)%Z);
    (named (eq (js "assets")) p, (-70)%Z);
    (named (eq (js "docs")) p, (-60)%Z);
    (is_dir dk p, (-1)%Z)].

Definition project_wish (dk : disk) (T : list jstring) : wish := mkWish box_lines 20 true true
  (project_dirs dk T) project_files
  (fun p => first_rule None [
    (clean_name (js "jfiletreeprettyprinter-cli") p, Some 0%Z);
    (clean_name (js "jfiletreeprettyprinter-examples") p, Some 0%Z);
    (clean_name core_module p, Some 1%Z)])
  (fun p q => exists a b, project_rank dk p a /\ project_rank dk q b /\ ((a < b)%Z \/ (a = b /\ by_names p q)))
  (fun p => first_rule None [
    (named (eq (js "project-structure.png")) p, tabbed 1 (js "// This image"));
    (named (eq (js "README.md")) p, tabbed 2 (js "// You're reading at this!"));
    (named (eq main_class) p, tabbed 1 (js "// Lib main entry point"));
    (named (eq (js "jfiletreeprettyprinter-cli")) p, tabbed 1 (js "// Everything to build the executable"));
    (named (eq core_module) p, tabbed 1 (js "// The Java lib"));
    (named (eq (js "jfiletreeprettyprinter-examples")) p, tabbed 1 (js "// Some examples"));
    (p_names p = T ++ [js "src"; js "main"; js "java"], Some [])]).

(** Every directory can be listed and the kind of everything it lists can be read. *)
Definition whole_disk_readable (dk : disk) : Prop := forall p, readable_children dk p.

(** The program [m] returns exactly the text that shows the wish [a] for what is at the names [T]; there is one if what is there can be read. *)
Definition prints_wish (m : M jstring) (w : world) (dk : disk) (T : list jstring) (a : wish) : Prop :=
  (forall h out, (exists h', m w h = (Ok out, h')) <-> shows_wish (jv_lower (w_jvm w)) dk T a out) /\
  (all_can_be_read dk (mkPath true T) -> exists out, shows_wish (jv_lower (w_jvm w)) dk T a out).
