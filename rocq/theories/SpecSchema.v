(** * Vocabulary for the properties about the contents of options files *)

From Verif Require Export Binding SpecCli.

(** [v] is [t] or a value in it. *)
Inductive within (v : tree) : tree -> Prop :=
| wi_here : within v v
| wi_item l x : In x l -> within v x -> within v (TArr l)
| wi_field fields k x : In (k, x) fields -> within v x -> within v (TObj fields).

(** No object repeats a key. *)
Definition unambiguous (t : tree) : Prop := forall fields, within (TObj fields) t -> NoDup (map fst fields).

(** [v] is the value of the key [k] of [t]. *)
Definition has (t : tree) (k : string) (v : tree) : Prop := exists fields, t = TObj fields /\ In (js k, v) fields.

(** [t] does not have the key [k], or only with the value null. *)
Definition blank (t : tree) (k : string) : Prop := forall v, has t k v -> v = TNull.

Definition is_object (t : tree) : Prop := exists fields, t = TObj fields.

(** The range of Java's int. *)
Definition fits_int (z : Z) : Prop := (-2147483648 <= z <= 2147483647)%Z.

(** ** The documents a file says *)

Inductive written_matcher : tree -> xmatcher -> Prop :=
| wm_everything t : has t "type" (TStr (js "everything")) -> written_matcher t XmTrue
| wm_nothing t : has t "type" (TStr (js "nothing")) -> written_matcher t XmFalse
| wm_all t l ms : has t "type" (TStr (js "allOf")) -> has t "matchers" (TArr l) -> Forall2 written_matcher l ms ->
    written_matcher t (XmAllOf (Some ms))
| wm_any t l ms : has t "type" (TStr (js "anyOf")) -> has t "matchers" (TArr l) -> Forall2 written_matcher l ms ->
    written_matcher t (XmAnyOf (Some ms))
| wm_none t l ms : has t "type" (TStr (js "noneOf")) -> has t "matchers" (TArr l) -> Forall2 written_matcher l ms ->
    written_matcher t (XmNoneOf (Some ms))
| wm_name t g : has t "type" (TStr (js "name")) -> has t "glob" (TStr g) -> written_matcher t (XmName (Some g))
| wm_path t g : has t "type" (TStr (js "path")) -> has t "glob" (TStr g) -> written_matcher t (XmPath (Some g)).

Definition written_item (t : tree) (i : option xitem) : Prop :=
  exists n v m, has t "limit" (TInt n) /\ fits_int n /\ has t "matcher" v /\ written_matcher v m /\ i = Some (mkXItem (Some n) m).

Inductive written_limit : tree -> xlimit -> Prop :=
| wl_static t n : has t "type" (TStr (js "static")) -> has t "limit" (TInt n) -> fits_int n -> written_limit t (XStatic (Some n))
| wl_dynamic t l items : has t "type" (TStr (js "dynamic")) -> has t "limits" (TArr l) -> Forall2 written_item l items ->
    written_limit t (XDynamic (Some items)).

Definition written_extension (t : tree) (e : option xextension) : Prop :=
  exists s v m, has t "extension" (TStr s) /\ has t "matcher" v /\ written_matcher v m /\ e = Some (mkXExtension (Some s) m).

(** A matcher that may be missing. *)
Definition written_side (t : tree) (k : string) (m : xmatcher) : Prop :=
  (blank t k /\ m = XmNull) \/ (exists v, has t k v /\ written_matcher v m).

(** A setting that may be missing; [P] says how it is written. *)
Definition setting {A} (t : tree) (k : string) (P : tree -> A -> Prop) (o : option A) : Prop :=
  match o with None => blank t k | Some a => exists v, has t k v /\ P v a end.

(** The file [t] says the document [x]. *)
Record written (t : tree) (x : xoptions) : Prop := mkWritten {
  wr_object : is_object t;
  wr_emojis : setting t "emojis" (fun v b => v = TBool b) (x_emojis x);
  wr_compact : setting t "compactDirectories" (fun v b => v = TBool b) (x_compact x);
  wr_depth : setting t "maxDepth" (fun v n => v = TInt n /\ fits_int n) (x_max_depth x);
  wr_limit : setting t "childLimit" written_limit (x_child_limit x);
  wr_filter : setting t "filter" (fun v f => is_object v /\ written_side v "dir" (xf_dir f) /\ written_side v "file" (xf_file f)) (x_filter x);
  wr_extensions : setting t "lineExtensions" (fun v l => exists vs, v = TArr vs /\ Forall2 written_extension vs l) (x_line_extensions x)
}.

(** Reading [t] gives the document [x] for certain. *)
Definition read_as (t : tree) (x : xoptions) : Prop := forall r, reads_as t r <-> r = LoadDoc x.

(** ** What the schema does not say *)

(** No glob is empty, nor a list of matchers or of limits. *)
Definition filled (t : tree) : Prop :=
  (forall v, within v t -> ~ has v "glob" (TStr [])) /\
  (forall v, within v t -> ~ has v "matchers" (TArr []) /\ ~ has v "limits" (TArr [])).

(** Every number fits Java's int. *)
Definition numbers_fit (t : tree) : Prop := forall z, within (TInt z) t -> fits_int z.

(** No number is written with a fraction or an exponent, such as 3.0 for 3. *)
Definition plain_numbers (t : tree) : Prop := forall z b, ~ within (TFloat z b) t.

(** ** Files that differ in keys nobody reads *)

Definition known_keys : list jstring := map js
  ["emojis"; "compactDirectories"; "maxDepth"; "childLimit"; "filter"; "lineExtensions"; "type"; "limit"; "limits"; "matcher"; "matchers";
   "glob"; "dir"; "file"; "extension"]%string.

(** The same but for the order of keys and keys that are not among [known_keys], whatever their values. *)
Inductive same_settings : tree -> tree -> Prop :=
| ss_same t : same_settings t t
| ss_items l l' : Forall2 same_settings l l' -> same_settings (TArr l) (TArr l')
| ss_fields f f' : NoDup (map fst f) -> NoDup (map fst f') ->
    (forall k v, In k known_keys -> In (k, v) f -> exists v', In (k, v') f' /\ same_settings v v') ->
    (forall k v', In k known_keys -> In (k, v') f' -> exists v, In (k, v) f) ->
    same_settings (TObj f) (TObj f').

(** ** The command with an explicit options file: [t] is what is written in the file at [q] *)
Record given (w : cworld) (fs : files) (a : cli_args) (T q : path) (t : tree) : Prop := mkGiven {
  gv_steady : steady_files w fs;
  gv_quiet : a_debug a = false;
  gv_target : resolved (jv_cwd (w_jvm (cw_world w))) (asked_target a) T;
  gv_exists : f_exists fs T = true;
  gv_options : exists p, a_options a = Some p /\ resolved (jv_cwd (w_jvm (cw_world w))) p q;
  gv_file : f_exists fs q = true /\ f_is_file fs q = true /\ f_can_read fs q = true;
  gv_contents : reads_as t (f_load fs q)
}.
