(** * Vocabulary for the properties of the command line *)

From Verif Require Export Cli SpecEmoji.

Definition no_percent (s : jstring) : Prop := ~ In c_percent s.

(** [q] is the absolute path of [p], without "." and ".." elements. *)
Definition resolved (cwd : list jstring) (p q : path) : Prop :=
  p_abs q = true /\ same_location cwd p q /\ Forall (fun n => n <> n_dot /\ n <> n_dotdot) (p_names q).

(** The path the user asks to print. *)
Definition asked_target (a : cli_args) : path := match a_target a with Some p => p | None => mkPath false [n_dot] end.

(** ** Documents *)

(** A matcher of a document that can be used. *)
Inductive usable_matcher : xmatcher -> Prop :=
| us_everything : usable_matcher XmTrue
| us_nothing : usable_matcher XmFalse
| us_all l : l <> [] -> (forall m, In m l -> usable_matcher m) -> usable_matcher (XmAllOf (Some l))
| us_any l : l <> [] -> (forall m, In m l -> usable_matcher m) -> usable_matcher (XmAnyOf (Some l))
| us_none l : l <> [] -> (forall m, In m l -> usable_matcher m) -> usable_matcher (XmNoneOf (Some l))
| us_name g : g <> [] -> usable_matcher (XmName (Some g))
| us_path g : g <> [] -> usable_matcher (XmPath (Some g)).

(** The documents that are accepted: nothing that is required is missing. *)
Record acceptable (x : xoptions) : Prop := mkAcceptable {
  acc_limit : forall l, x_child_limit x = Some l ->
    (exists n, l = XStatic (Some n)) \/
    (exists items, l = XDynamic (Some items) /\ items <> [] /\
      forall i, In i items -> exists n m, i = Some (mkXItem (Some n) m) /\ usable_matcher m);
  acc_filter : forall f, x_filter x = Some f ->
    (xf_dir f = XmNull \/ usable_matcher (xf_dir f)) /\ (xf_file f = XmNull \/ usable_matcher (xf_file f));
  acc_extensions : forall l, x_line_extensions x = Some l ->
    forall e, In e l -> exists s m, e = Some (mkXExtension (Some s) m) /\ usable_matcher m
}.

(** ** Options files, when the file system does not change during the run *)

Record files := mkFiles { f_exists : path -> bool; f_is_file : path -> bool; f_can_read : path -> bool; f_load : path -> loaded }.

Definition steady_files (w : cworld) (fs : files) : Prop :=
  forall s p, cw_exists w s p = f_exists fs p /\ cw_is_file w s p = f_is_file fs p /\
              cw_can_read w s p = f_can_read fs p /\ cw_load w s p = f_load fs p.

Definition missing (fs : files) (p : path) : Prop := f_exists fs p = false.
Definition good (fs : files) (p : path) (x : xoptions) : Prop :=
  f_exists fs p = true /\ f_is_file fs p = true /\ f_can_read fs p = true /\ f_load fs p = LoadDoc x /\ acceptable x.

(** The file exists but cannot be used, as reported by the message. *)
Inductive defective (w : cworld) (fs : files) (p : path) : jstring -> Prop :=
| df_not_a_file : f_exists fs p = true -> f_is_file fs p = false ->
    defective w fs p (js "Options file is actually not a file: " ++ path_str p)
| df_unreadable : f_exists fs p = true -> f_is_file fs p = true -> f_can_read fs p = false ->
    defective w fs p (js "Options file exist but is not readable: " ++ path_str p)
| df_malformed : f_exists fs p = true -> f_is_file fs p = true -> f_can_read fs p = true -> f_load fs p = LoadFails ->
    defective w fs p (js "IO error or malformed options file: " ++ path_str p)
| df_null : f_exists fs p = true -> f_is_file fs p = true -> f_can_read fs p = true -> f_load fs p = LoadNull ->
    defective w fs p (js "Error while pretty printing: " ++ cw_message w XNullDocument)
| df_invalid x : f_exists fs p = true -> f_is_file fs p = true -> f_can_read fs p = true -> f_load fs p = LoadDoc x ->
    ~ acceptable x ->
    defective w fs p (js "Invalid options file:" ++ cw_linesep w ++ cw_violations w x).

(** [Refuse]: the command fails with this message. *)
Inductive selection := UseDefault | UseDocument (x : xoptions) | Refuse (message : jstring).

(** The first file that exists decides; the files examined. *)
Inductive first_existing (w : cworld) (fs : files) : list path -> list path -> selection -> Prop :=
| fe_none : first_existing w fs [] [] UseDefault
| fe_skip p l ex sel : missing fs p -> first_existing w fs l ex sel -> first_existing w fs (p :: l) (p :: ex) sel
| fe_use p l x : good fs p x -> first_existing w fs (p :: l) [p] (UseDocument x)
| fe_refuse p l msg : defective w fs p msg -> first_existing w fs (p :: l) [p] (Refuse msg).

(** The choice among the options files for the arguments [a] and the target [T]. *)
Inductive chooses (w : cworld) (fs : files) (a : cli_args) (T : path) : list path -> selection -> Prop :=
| ch_explicit p q x : a_options a = Some p -> resolved (jv_cwd (w_jvm (cw_world w))) p q -> good fs q x ->
    chooses w fs a T [q] (UseDocument x)
| ch_missing p q : a_options a = Some p -> resolved (jv_cwd (w_jvm (cw_world w))) p q -> missing fs q ->
    chooses w fs a T [q] (Refuse (js "Options file does not exist: " ++ path_str q))
| ch_defective p q msg : a_options a = Some p -> resolved (jv_cwd (w_jvm (cw_world w))) p q -> defective w fs q msg ->
    chooses w fs a T [q] (Refuse msg)
| ch_fallback here home ex sel :
    a_options a = None ->
    resolved (jv_cwd (w_jvm (cw_world w))) (mkPath false [js ".prettyprint"]) here ->
    resolved (jv_cwd (w_jvm (cw_world w))) (mkPath (p_abs (cw_home w)) (p_names (cw_home w) ++ [js ".prettyprint"])) home ->
    first_existing w fs [mkPath true (p_names T ++ [js ".prettyprint"]); here; home] ex sel ->
    chooses w fs a T ex sel.

(** The options in effect, with the history after they were computed: the default ones, or those the chosen document is mapped to. *)
Inductive effective (w : cworld) (T : path) (h : hist) : selection -> options -> hist -> Prop :=
| eff_default : effective w T h UseDefault default_options h
| eff_document x o h' : map_to_options T x (cw_world w) h = (Ok o, h') -> effective w T h (UseDocument x) o h'.

(** The message of an exception of the library: the library tells what it was doing, and with which path; other messages are those of the JDK. *)
Inductive explains (w : cworld) : exn -> jstring -> Prop :=
| sy_list q : explains w (ExUncheckedIO ListFiles q) (js "Unable to list files for directory: " ++ path_str q)
| sy_attributes q : explains w (ExUncheckedIO ReadAttributes q) (js "Unable to read file attributes: " ++ path_str q)
| sy_walk q : explains w (ExUncheckedIO WalkStart q) (js "Exception while walking files of " ++ path_str q)
| sy_other x : (forall t q, x = ExUncheckedIO t q -> t = WalkNext) -> explains w x (cw_message w (XLibrary x)).

(** The command fails with a message: the choice is refused, the document cannot be mapped or the library throws. *)
Inductive fails (w : cworld) (T : path) (h : hist) : selection -> jstring -> Prop :=
| fl_refused msg : fails w T h (Refuse msg) msg
| fl_mapping x e h' m : map_to_options T x (cw_world w) h = (Throw e, h') -> explains w e m ->
    fails w T h (UseDocument x) (js "Error while pretty printing: " ++ m)
| fl_printing sel o h' e h'' m : effective w T h sel o h' -> pretty_print o T (cw_world w) h' = (Throw e, h'') -> explains w e m ->
    fails w T h sel (js "Error while pretty printing: " ++ m).

(** ** What debug mode reports *)

(** About the options file [q]. *)
Inductive told (w : cworld) (fs : files) (q : path) : list jstring -> Prop :=
| td_unread : f_exists fs q = false \/ f_is_file fs q = false \/ f_can_read fs q = false -> told w fs q []
| td_malformed : f_exists fs q = true -> f_is_file fs q = true -> f_can_read fs q = true -> f_load fs q = LoadFails ->
    told w fs q [js "Options file found: " ++ path_str q]
| td_null : f_exists fs q = true -> f_is_file fs q = true -> f_can_read fs q = true -> f_load fs q = LoadNull ->
    told w fs q [js "Options file found: " ++ path_str q; js "null"]
| td_invalid x : f_exists fs q = true -> f_is_file fs q = true -> f_can_read fs q = true -> f_load fs q = LoadDoc x -> ~ acceptable x ->
    told w fs q [js "Options file found: " ++ path_str q; to_text_block (cw_linesep w) (v_options x)]
| td_valid x : good fs q x ->
    told w fs q [js "Options file found: " ++ path_str q; to_text_block (cw_linesep w) (v_options x); js "Options file is valid"].

(** About the fallbacks: each as it is written and as it is resolved. *)
Inductive told_fallback (w : cworld) (fs : files) : list (path * path) -> list jstring -> Prop :=
| tf_none : told_fallback w fs [] [js "No options file provided/found"]
| tf_skip p q l msgs : missing fs q -> told_fallback w fs l msgs ->
    told_fallback w fs ((p, q) :: l) ((js "Options file does not exist: " ++ path_str p) :: msgs)
| tf_found p q l msgs : f_exists fs q = true -> told w fs q msgs -> told_fallback w fs ((p, q) :: l) msgs.

Inductive told_options (w : cworld) (fs : files) (a : cli_args) (T : path) : list jstring -> Prop :=
| to_no_target : f_exists fs T = false -> told_options w fs a T []
| to_explicit p q msgs : f_exists fs T = true -> a_options a = Some p -> resolved (jv_cwd (w_jvm (cw_world w))) p q -> told w fs q msgs ->
    told_options w fs a T msgs
| to_fallback here home msgs :
    f_exists fs T = true -> a_options a = None ->
    resolved (jv_cwd (w_jvm (cw_world w))) (mkPath false [js ".prettyprint"]) here ->
    resolved (jv_cwd (w_jvm (cw_world w))) (mkPath (p_abs (cw_home w)) (p_names (cw_home w) ++ [js ".prettyprint"])) home ->
    told_fallback w fs [(mkPath true (p_names T ++ [js ".prettyprint"]), mkPath true (p_names T ++ [js ".prettyprint"]));
                        (mkPath false [n_dot; js ".prettyprint"], here);
                        (mkPath (p_abs (cw_home w)) (p_names (cw_home w) ++ [js ".prettyprint"]), home)] msgs ->
    told_options w fs a T (js "No options file provided, looking for fallback options files..." :: msgs).

(** All messages of a run. *)
Definition reported (w : cworld) (fs : files) (a : cli_args) (T : path) (msgs : list jstring) : Prop :=
  exists rest, told_options w fs a T rest /\
    msgs = match a_target a with None => [js "No target provided: use current directory"] | Some _ => [] end ++
           (js "Target path: " ++ path_str T) :: rest.

Definition event_path (e : cli_event) : path :=
  match e with CExists p | CIsFile p | CCanRead p | CLoad p | CPrint p => p end.

(** ** Meaning of the matchers of a document, for the path [rest] below the target *)

Definition glob_says (j : jvm) (g : jstring) (q : path) : bool := match jv_glob j g with Some f => f q | None => false end.

Fixpoint meaning (j : jvm) (target rest : list jstring) (m : xmatcher) : bool :=
  match m with
  | XmNull => true
  | XmTrue => true
  | XmFalse => false
  | XmAllOf l => match l with Some l => forallb (meaning j target rest) l | None => false end
  | XmAnyOf l => match l with Some l => existsb (meaning j target rest) l | None => false end
  | XmNoneOf l => match l with Some l => negb (existsb (meaning j target rest) l) | None => false end
  | XmName None | XmPath None => false
  | XmName (Some g) =>
      jeqb g (js "*") || match rev (target ++ rest) with n :: _ => glob_says j g (mkPath false [n]) | [] => false end
  | XmPath (Some g) => jeqb g (js "*") || glob_says j g (mkPath false rest)
  end.

(** The globs of a document. *)
Fixpoint globs (m : xmatcher) : list jstring :=
  match m with
  | XmNull | XmTrue | XmFalse => []
  | XmAllOf l | XmAnyOf l | XmNoneOf l => match l with Some l => flat_map globs l | None => [] end
  | XmName g | XmPath g => match g with Some g => [g] | None => [] end
  end.
Definition limit_globs (l : xlimit) : list jstring :=
  match l with
  | XDynamic (Some l) => flat_map (fun i => match i with Some i => globs (xi_matcher i) | None => [] end) l
  | _ => []
  end.
Definition all_globs (x : xoptions) : list jstring :=
  match x_child_limit x with Some l => limit_globs l | None => [] end ++
  match x_filter x with Some f => globs (xf_dir f) ++ globs (xf_file f) | None => [] end ++
  match x_line_extensions x with
  | Some l => flat_map (fun e => match e with Some e => globs (xe_matcher e) | None => [] end) l
  | None => []
  end.

(** A glob the file system accepts; "*" is never given to it. *)
Definition good_glob (j : jvm) (g : jstring) : Prop := g = js "*" \/ jv_glob j g <> None.

(** The limit of the first item that matches and satisfies [P]. *)
Fixpoint first_limit (P : Z -> bool) (holds : xmatcher -> bool) (l : list (option xitem)) : option Z :=
  match l with
  | Some (mkXItem (Some n) m) :: l' => if holds m && P n then Some n else first_limit P holds l'
  | _ :: l' => first_limit P holds l'
  | [] => None
  end.

(** The text of the first extension that matches. *)
Fixpoint first_extension (holds : xmatcher -> bool) (l : list (option xextension)) : option jstring :=
  match l with
  | Some (mkXExtension t m) :: l' => if holds m then t else first_extension holds l'
  | None :: l' => first_extension holds l'
  | [] => None
  end.

(** The limit [z] amounts to the limit [e] of a document: a negative limit is no limit. *)
Definition same_limit (z : Z) (e : option Z) : Prop :=
  match e with Some n => (0 <= n)%Z -> z = n | None => True end /\ (match e with Some n => (n < 0)%Z | None => True end -> (z < 0)%Z).

(** What the options [o] made of the document [x] do; [P] are the limits of items that stop the search. *)
Definition does_what (j : jvm) (w : world) (T : path) (P : Z -> bool) (x : xoptions) (o : options) : Prop :=
  o_tree_format o = o_tree_format default_options /\
  o_comparator o = o_comparator default_options /\
  (o_compact o = true <-> x_compact x = Some true) /\
  o_max_depth o = match x_max_depth x with Some d => d | None => 20%Z end /\
  (x_emojis x = Some true -> emoji_create_default (jv_lower j) = Ok (o_emoji o)) /\
  (x_emojis x <> Some true -> o_emoji o = o_emoji default_options) /\
  (x_line_extensions x = None -> o_line_extension o = None) /\
  forall rest h, Forall real_name (p_names T ++ rest) ->
    let p := mkPath true (p_names T ++ rest) in
    let holds := meaning j (p_names T) rest in
    o_dir_matcher o p w h = (Ok (match x_filter x with Some f => holds (xf_dir f) | None => true end), h) /\
    o_file_matcher o p w h = (Ok (match x_filter x with Some f => holds (xf_file f) | None => true end), h) /\
    (exists z, o_child_limit o p w h = (Ok z, h) /\
       same_limit z (match x_child_limit x with
                     | Some (XStatic n) => n
                     | Some (XDynamic (Some l)) => first_limit P holds l
                     | _ => None
                     end)) /\
    (forall l, x_line_extensions x = Some l -> exists f, o_line_extension o = Some f /\ f p w h = (Ok (first_extension holds l), h)).

(** ** The text block of an object *)

(** The part of [v] reached by the indices [k], with its name. *)
Inductive part (v : value) : list nat -> option jstring -> value -> Prop :=
| part_root : part v [] None v
| part_component k name cls l i n x : part v k name (VRecord cls l) -> nth_error l i = Some (n, x) -> part v (k ++ [i]) (Some n) x
| part_item k name l i x : part v k name (VColl l) -> nth_error l i = Some x ->
    part v (k ++ [i]) (Some (js "[" ++ n_str (N.of_nat i) ++ js "]")) x.

Definition spaces (n : nat) : jstring := repeat c_space n.

(** How a part is announced. *)
Inductive announced : option jstring -> value -> jstring -> Prop :=
| an_record_root cls l : announced None (VRecord cls l) cls
| an_record n cls l : announced (Some n) (VRecord cls l) (n ++ js " -> " ++ cls)
| an_coll_root l : announced None (VColl l) (js "[")
| an_coll n l : announced (Some n) (VColl l) (n ++ js ": [")
| an_string n s : announced (Some n) (VString s) (n ++ js ": " ++ [34%N] ++ s ++ [34%N])
| an_other n s : announced (Some n) (VOther s) (n ++ js ": " ++ s)
| an_string_root s : announced None (VString s) (js "null: " ++ [34%N] ++ s ++ [34%N])
| an_other_root s : announced None (VOther s) (js "null: " ++ s).

(** The line for the key [k]: that of a part, or the end of the collection with key [k] without its last index. *)
Inductive line_for (v : value) : list nat -> jstring -> Prop :=
| lf_part k name x t : part v k name x -> announced name x t -> line_for v k (spaces (2 * length k) ++ t)
| lf_end k name l : part v k name (VColl l) -> line_for v (k ++ [length l]) (spaces (2 * length k) ++ js "]").

(** The matchers of a document: [holds_matcher x k name m] says that [m] stands in [x] at the key [k], under the name [name]. *)
Inductive holds_matcher (x : xoptions) : list nat -> jstring -> xmatcher -> Prop :=
| hm_dir f : x_filter x = Some f -> holds_matcher x [4; 0] (js "dir") (xf_dir f)
| hm_file f : x_filter x = Some f -> holds_matcher x [4; 1] (js "file") (xf_file f)
| hm_limit l i it : x_child_limit x = Some (XDynamic (Some l)) -> nth_error l i = Some (Some it) ->
    holds_matcher x [3; 0; i; 1] (js "matcher") (xi_matcher it)
| hm_extension l i e : x_line_extensions x = Some l -> nth_error l i = Some (Some e) -> holds_matcher x [5; i; 1] (js "matcher") (xe_matcher e)
| hm_all k name l i m : holds_matcher x k name (XmAllOf (Some l)) -> nth_error l i = Some m ->
    holds_matcher x (k ++ [0; i]) (js "[" ++ n_str (N.of_nat i) ++ js "]") m
| hm_any k name l i m : holds_matcher x k name (XmAnyOf (Some l)) -> nth_error l i = Some m ->
    holds_matcher x (k ++ [0; i]) (js "[" ++ n_str (N.of_nat i) ++ js "]") m
| hm_none k name l i m : holds_matcher x k name (XmNoneOf (Some l)) -> nth_error l i = Some m ->
    holds_matcher x (k ++ [0; i]) (js "[" ++ n_str (N.of_nat i) ++ js "]") m.

(** What a document says, as lines without their indentation: every setting that is not null, at its key. *)
Inductive says (x : xoptions) : list nat -> jstring -> Prop :=
| sy_root : says x [] (js "ExternalOptions")
| sy_emojis b : x_emojis x = Some b -> says x [0] (js "emojis: " ++ if b then js "true" else js "false")
| sy_compact b : x_compact x = Some b -> says x [1] (js "compactDirectories: " ++ if b then js "true" else js "false")
| sy_depth n : x_max_depth x = Some n -> says x [2] (js "maxDepth: " ++ z_str n)
| sy_static n : x_child_limit x = Some (XStatic n) -> says x [3] (js "childLimit -> StaticLimit")
| sy_static_limit n : x_child_limit x = Some (XStatic (Some n)) -> says x [3; 0] (js "limit: " ++ z_str n)
| sy_dynamic l : x_child_limit x = Some (XDynamic l) -> says x [3] (js "childLimit -> DynamicLimit")
| sy_limits l : x_child_limit x = Some (XDynamic (Some l)) -> says x [3; 0] (js "limits: [")
| sy_item l i it : x_child_limit x = Some (XDynamic (Some l)) -> nth_error l i = Some (Some it) ->
    says x [3; 0; i] (js "[" ++ n_str (N.of_nat i) ++ js "] -> DynamicLimitItem")
| sy_item_limit l i it n : x_child_limit x = Some (XDynamic (Some l)) -> nth_error l i = Some (Some it) -> xi_limit it = Some n ->
    says x [3; 0; i; 0] (js "limit: " ++ z_str n)
| sy_filter f : x_filter x = Some f -> says x [4] (js "filter -> Filter")
| sy_extensions l : x_line_extensions x = Some l -> says x [5] (js "lineExtensions: [")
| sy_extension l i e : x_line_extensions x = Some l -> nth_error l i = Some (Some e) ->
    says x [5; i] (js "[" ++ n_str (N.of_nat i) ++ js "] -> LineExtension")
| sy_extension_text l i e t : x_line_extensions x = Some l -> nth_error l i = Some (Some e) -> xe_extension e = Some t ->
    says x [5; i; 0] (js "extension: " ++ [34%N] ++ t ++ [34%N])
| sy_true k name : holds_matcher x k name XmTrue -> says x k (name ++ js " -> AlwaysTrue")
| sy_false k name : holds_matcher x k name XmFalse -> says x k (name ++ js " -> AlwaysFalse")
| sy_all k name l : holds_matcher x k name (XmAllOf l) -> says x k (name ++ js " -> AllOf")
| sy_any k name l : holds_matcher x k name (XmAnyOf l) -> says x k (name ++ js " -> AnyOf")
| sy_none k name l : holds_matcher x k name (XmNoneOf l) -> says x k (name ++ js " -> NoneOf")
| sy_all_list k name l : holds_matcher x k name (XmAllOf (Some l)) -> says x (k ++ [0]) (js "matchers: [")
| sy_any_list k name l : holds_matcher x k name (XmAnyOf (Some l)) -> says x (k ++ [0]) (js "matchers: [")
| sy_none_list k name l : holds_matcher x k name (XmNoneOf (Some l)) -> says x (k ++ [0]) (js "matchers: [")
| sy_name k name g : holds_matcher x k name (XmName g) -> says x k (name ++ js " -> NameGlob")
| sy_name_glob k name g : holds_matcher x k name (XmName (Some g)) -> says x (k ++ [0]) (js "glob: " ++ [34%N] ++ g ++ [34%N])
| sy_path k name g : holds_matcher x k name (XmPath g) -> says x k (name ++ js " -> PathGlob")
| sy_path_glob k name g : holds_matcher x k name (XmPath (Some g)) -> says x (k ++ [0]) (js "glob: " ++ [34%N] ++ g ++ [34%N]).

(** The lists of a document: [lists x k n] says that a list of [n] elements stands in [x] at the key [k]. *)
Inductive lists (x : xoptions) : list nat -> nat -> Prop :=
| ls_limits l : x_child_limit x = Some (XDynamic (Some l)) -> lists x [3; 0] (length l)
| ls_extensions l : x_line_extensions x = Some l -> lists x [5] (length l)
| ls_all k name l : holds_matcher x k name (XmAllOf (Some l)) -> lists x (k ++ [0]) (length l)
| ls_any k name l : holds_matcher x k name (XmAnyOf (Some l)) -> lists x (k ++ [0]) (length l)
| ls_none k name l : holds_matcher x k name (XmNoneOf (Some l)) -> lists x (k ++ [0]) (length l).

(** Lexicographic order of keys: a part comes before its own parts. *)
Inductive key_before : list nat -> list nat -> Prop :=
| kb_prefix i k : key_before [] (i :: k)
| kb_less i k i' k' : i < i' -> key_before (i :: k) (i' :: k')
| kb_same i k k' : key_before k k' -> key_before (i :: k) (i :: k').

(** The texts of a document: globs and extensions. *)
Definition all_texts (x : xoptions) : list jstring :=
  all_globs x ++
  match x_line_extensions x with
  | Some l => flat_map (fun e => match e with Some (mkXExtension (Some t) _) => [t] | _ => [] end) l
  | None => []
  end.
