(** * Model of the CLI's options documents: cli/options/model, cli/options/mapper, cli/RecordUtils.java

    Paths below are relative to jfiletreeprettyprinter-cli/src/main/java/io/github/computerdaddyguy/jfiletreeprettyprinter/cli. *)

From Verif Require Export Options.

(** ** Documents as read from the file, before validation: every component may be null *)

(** options/model/Matcher.java:11-79; [XmNull] is null. *)
Inductive xmatcher :=
| XmNull
| XmTrue
| XmFalse
| XmAllOf (matchers : option (list xmatcher))
| XmAnyOf (matchers : option (list xmatcher))
| XmNoneOf (matchers : option (list xmatcher))
| XmName (glob : option jstring)
| XmPath (glob : option jstring).

(** options/model/ChildLimit.java:37-42. *)
Record xitem := mkXItem { xi_limit : option Z; xi_matcher : xmatcher }.

(** options/model/ChildLimit.java:11-32. *)
Inductive xlimit :=
| XStatic (limit : option Z)
| XDynamic (limits : option (list (option xitem))).

(** options/model/Filter.java:6-9. *)
Record xfilter := mkXFilter { xf_dir : xmatcher; xf_file : xmatcher }.

(** options/model/LineExtension.java:6-9. *)
Record xextension := mkXExtension { xe_extension : option jstring; xe_matcher : xmatcher }.

(** options/model/ExternalOptions.java:8-15. *)
Record xoptions := mkXOptions {
  x_emojis : option bool;
  x_compact : option bool;
  x_max_depth : option Z;
  x_child_limit : option xlimit;
  x_filter : option xfilter;
  x_line_extensions : option (list (option xextension))
}.

(** ** Validation *)

(** [@NotEmpty String]. options/model/Matcher.java:64, 74. *)
Definition valid_glob (g : option jstring) : bool := match g with Some (_ :: _) => true | _ => false end.

(** What Jakarta validation makes of the annotations in options/model/Matcher.java:33-76 on a matcher marked [@Valid @NotNull]. *)
Fixpoint valid_matcher (m : xmatcher) : bool :=
  match m with
  | XmNull => false
  | XmTrue | XmFalse => true
  | XmAllOf l | XmAnyOf l | XmNoneOf l =>
      match l with
      | Some (x :: l') => valid_matcher x && forallb valid_matcher l'
      | _ => false
      end
  | XmName g | XmPath g => valid_glob g
  end.

(** A matcher marked [@Valid @Nullable] (options/model/Filter.java:7-8). *)
Definition valid_or_null (m : xmatcher) : bool := match m with XmNull => true | _ => valid_matcher m end.

(** options/model/ChildLimit.java:37-42. *)
Definition valid_item (i : option xitem) : bool :=
  match i with Some i => is_some (xi_limit i) && valid_matcher (xi_matcher i) | None => false end.

(** options/model/LineExtension.java:6-9. *)
Definition valid_extension (e : option xextension) : bool :=
  match e with Some e => is_some (xe_extension e) && valid_matcher (xe_matcher e) | None => false end.

(** options/reader/SimpleExternalOptionsReader.java:67-79 with the annotations of options/model: no violation is found. *)
Definition valid_options (x : xoptions) : bool :=
  match x_child_limit x with
  | None => true
  | Some (XStatic l) => is_some l
  | Some (XDynamic (Some (i :: l))) => forallb valid_item (i :: l)
  | Some (XDynamic _) => false
  end &&
  match x_filter x with None => true | Some f => valid_or_null (xf_dir f) && valid_or_null (xf_file f) end &&
  match x_line_extensions x with None => true | Some l => forallb valid_extension l end.

(** ** Mapping to printer options *)

(** A null dereference. Such as options/mapper/DefaultExternalOptionsMapper.java:54, 58 (unboxing). *)
Definition non_null {A} (x : option A) : M A := match x with Some a => ret a | None => throw ExNullPointer end.

(** A call of a library function that may throw, such as options/mapper/DefaultExternalOptionsMapper.java:94-96. *)
Definition lift_res {A} (r : res A) : M A := fun _ h => (r, h).

(** options/mapper/DefaultExternalOptionsMapper.java:90-100. The stream of lines 94-96 maps the elements in order. *)
Fixpoint map_matcher (target : path) (m : xmatcher) : M matcher :=
  let map_all := fix go (l : list xmatcher) : M (list (option matcher)) :=
    match l with
    | [] => ret []
    | x :: l' => a <- map_matcher target x; r <- go l'; ret (Some a :: r)
    end in
  match m with
  | XmNull => throw ExNullPointer
  | XmTrue => ret (fun _ => ret true)
  | XmFalse => ret (fun _ => ret false)
  | XmAllOf None | XmAnyOf None | XmNoneOf None => throw ExNullPointer
  | XmAllOf (Some l) => ms <- map_all l; lift_res (pm_all_of ms)
  | XmAnyOf (Some l) => ms <- map_all l; lift_res (pm_any_of ms)
  | XmNoneOf (Some l) => ms <- map_all l; lift_res (pm_none_of ms)
  | XmName g => g <- non_null g; pm_name_glob g
  | XmPath g => g <- non_null g; pm_relative_path_glob target g
  end.

(** DefaultExternalOptionsMapper.java:27-32. *)
Definition map_emojis (o : options) (x : xoptions) : M options :=
  match x_emojis x with
  | Some true => j <- get_jvm; e <- lift_res (emoji_create_default (jv_lower j)); ret (with_emojis e o)
  | _ => ret o
  end.

(** DefaultExternalOptionsMapper.java:34-39. *)
Definition map_compact (o : options) (x : xoptions) : M options :=
  match x_compact x with Some true => ret (with_compact_directories true o) | _ => ret o end.

(** DefaultExternalOptionsMapper.java:41-47. *)
Definition map_max_depth (o : options) (x : xoptions) : M options :=
  match x_max_depth x with Some d => ret (with_max_depth d o) | None => ret o end.

(** DefaultExternalOptionsMapper.java:57-59. *)
Fixpoint map_items (target : path) (b : limit_builder) (l : list (option xitem)) : M limit_builder :=
  match l with
  | [] => ret b
  | i :: l' =>
      i <- non_null i;
      m <- map_matcher target (xi_matcher i);
      n <- non_null (xi_limit i);
      map_items target (limit_step b (LAddMatcher m n)) l'
  end.

(** DefaultExternalOptionsMapper.java:49-64. Nothing refers to the builder any more when the function is called, so [limit_loop] gets the
    builder's default as it is now. *)
Definition map_child_limit (o : options) (x : xoptions) (target : path) : M options :=
  match x_child_limit x with
  | None => ret o
  | Some (XStatic n) => n <- non_null n; ret (with_child_limit n o)
  | Some (XDynamic l) =>
      l <- non_null l;
      b <- map_items target limit_builder_default l;
      ret (with_child_limit_fn (fun p => limit_loop (lb_default b) (lb_limits b) p) o)
  end.

(** DefaultExternalOptionsMapper.java:66-77. *)
Definition map_filter (o : options) (x : xoptions) (target : path) : M options :=
  match x_filter x with
  | None => ret o
  | Some f =>
      o <- match xf_dir f with XmNull => ret o | m => m' <- map_matcher target m; ret (filter_directories m' o) end;
      match xf_file f with XmNull => ret o | m => m' <- map_matcher target m; ret (filter_files m' o) end
  end.

(** DefaultExternalOptionsMapper.java:84-86. *)
Fixpoint map_extensions (target : path) (b : ext_builder) (l : list (option xextension)) : M ext_builder :=
  match l with
  | [] => ret b
  | e :: l' =>
      e <- non_null e;
      m <- map_matcher target (xe_matcher e);
      map_extensions target (ext_step b (XAddMatcher m (xe_extension e))) l'
  end.

(** DefaultExternalOptionsMapper.java:79-88. *)
Definition map_line_extensions (o : options) (x : xoptions) (target : path) : M options :=
  match x_line_extensions x with
  | None => ret o
  | Some l => b <- map_extensions target [] l; ret (with_line_extension (Some (fun p => ext_loop None b p)) o)
  end.

(** DefaultExternalOptionsMapper.java:16-25. *)
Definition map_to_options (target : path) (x : xoptions) : M options :=
  o <- map_emojis default_options x;
  o <- map_compact o x;
  o <- map_max_depth o x;
  o <- map_child_limit o x target;
  o <- map_filter o x target;
  map_line_extensions o x target.

(** ** RecordUtils.java *)

(** The objects [toTextBlock] distinguishes: null, records with their components, collections, strings, anything else by its [toString].
    RecordUtils.java:28-39. *)
Inductive value :=
| VNull
| VRecord (cls : jstring) (components : list (jstring * value))
| VColl (items : list value)
| VString (s : jstring)
| VOther (s : jstring).

(** Decimal digits, most significant first; [fuel] bounds their number. For [z_str] (RecordUtils.java:69, 79). *)
Fixpoint digits (fuel : nat) (n : N) : jstring :=
  match fuel with
  | O => []
  | S f => (if (n <? 10)%N then [] else digits f (n / 10)%N) ++ [(48 + n mod 10)%N]
  end.

(** The decimal text of a number that is not negative (RecordUtils.java:69, 79). *)
Definition n_str (n : N) : jstring := digits (S (N.to_nat (N.log2 n))) n.
(** [Integer.toString]. RecordUtils.java:69, 79. *)
Definition z_str (z : Z) : jstring := if (z <? 0)%Z then 45%N :: n_str (Z.to_N (- z)) else n_str (Z.to_N z).

(** RecordUtils.java:62-66. *)
Definition coll_head (shift : jstring) (name : option jstring) : jstring :=
  match name with None => shift ++ js "[" | Some n => shift ++ n ++ js ": [" end.
(** RecordUtils.java:42-46. *)
Definition record_head (shift : jstring) (name : option jstring) (cls : jstring) : jstring :=
  match name with None => shift ++ cls | Some n => shift ++ n ++ js " -> " ++ cls end.
(** [String.format("%s", attrName)]. RecordUtils.java:37. *)
Definition name_str (name : option jstring) : jstring := match name with None => js "null" | Some n => n end.

(** RecordUtils.java:24. *)
Definition text_indent : jstring := js "  ".

(** RecordUtils.java:28-80; the lines added. Reflection is taken not to fail (line 55). *)
Fixpoint text_lines (shift : jstring) (name : option jstring) (v : value) : list jstring :=
  match v with
  | VNull => []
  | VRecord cls components =>
      record_head shift name cls ::
      (fix go (l : list (jstring * value)) : list jstring :=
         match l with
         | [] => []
         | (n, x) :: l' => text_lines (shift ++ text_indent) (Some n) x ++ go l'
         end) components
  | VColl items =>
      coll_head shift name ::
      (fix go (i : nat) (l : list value) : list jstring :=
         match l with
         | [] => []
         | x :: l' => text_lines (shift ++ text_indent) (Some (js "[" ++ n_str (N.of_nat i) ++ js "]")) x ++ go (S i) l'
         end) 0%nat items ++
      [shift ++ js "]"]
  | VString s => [shift ++ name_str name ++ js ": " ++ [34%N] ++ s ++ [34%N]]
  | VOther s => [shift ++ name_str name ++ js ": " ++ s]
  end.

(** RecordUtils.java:19-26; [linesep] is [System.lineSeparator()]. *)
Definition to_text_block (linesep : jstring) (v : value) : jstring :=
  match v with VNull => js "null" | _ => join linesep (text_lines [] None v) end.

(** The document as an object. RecordUtils.java:53: the component of a record, which may be null. *)
Definition v_opt {A} (f : A -> value) (x : option A) : value := match x with Some a => f a | None => VNull end.

(** [Boolean.toString], RecordUtils.java:79. *)
Definition v_bool (b : bool) : value := VOther (if b then js "true" else js "false").

(** [Integer.toString], RecordUtils.java:79. *)
Definition v_int (z : Z) : value := VOther (z_str z).

(** options/model/Matcher.java. options/model/Matcher.java:16-77 as an object for RecordUtils.java:41-59. *)
Fixpoint v_matcher (m : xmatcher) : value :=
  let v_list (l : option (list xmatcher)) : value :=
    match l with Some l => VColl (map v_matcher l) | None => VNull end in
  match m with
  | XmNull => VNull
  | XmTrue => VRecord (js "AlwaysTrue") []
  | XmFalse => VRecord (js "AlwaysFalse") []
  | XmAllOf l => VRecord (js "AllOf") [(js "matchers", v_list l)]
  | XmAnyOf l => VRecord (js "AnyOf") [(js "matchers", v_list l)]
  | XmNoneOf l => VRecord (js "NoneOf") [(js "matchers", v_list l)]
  | XmName g => VRecord (js "NameGlob") [(js "glob", v_opt VString g)]
  | XmPath g => VRecord (js "PathGlob") [(js "glob", v_opt VString g)]
  end.

(** options/model/ChildLimit.java. options/model/ChildLimit.java:37-42 as an object for RecordUtils.java:41-59. *)
Definition v_item (i : xitem) : value :=
  VRecord (js "DynamicLimitItem") [(js "limit", v_opt v_int (xi_limit i)); (js "matcher", v_matcher (xi_matcher i))].

(** options/model/ChildLimit.java:17-32 as an object for RecordUtils.java:41-59. *)
Definition v_limit (l : xlimit) : value :=
  match l with
  | XStatic n => VRecord (js "StaticLimit") [(js "limit", v_opt v_int n)]
  | XDynamic l => VRecord (js "DynamicLimit") [(js "limits", v_opt (fun l => VColl (map (v_opt v_item) l)) l)]
  end.
(** options/model/Filter.java. options/model/Filter.java:6-11 as an object for RecordUtils.java:41-59. *)
Definition v_filter (f : xfilter) : value :=
  VRecord (js "Filter") [(js "dir", v_matcher (xf_dir f)); (js "file", v_matcher (xf_file f))].
(** options/model/LineExtension.java. options/model/LineExtension.java:6-11 as an object for RecordUtils.java:41-59. *)
Definition v_extension (e : xextension) : value :=
  VRecord (js "LineExtension") [(js "extension", v_opt VString (xe_extension e)); (js "matcher", v_matcher (xe_matcher e))].
(** options/model/ExternalOptions.java. options/model/ExternalOptions.java:8-17 as an object for RecordUtils.java:41-59. *)
Definition v_options (x : xoptions) : value :=
  VRecord (js "ExternalOptions")
    [(js "emojis", v_opt v_bool (x_emojis x)); (js "compactDirectories", v_opt v_bool (x_compact x));
     (js "maxDepth", v_opt v_int (x_max_depth x)); (js "childLimit", v_opt v_limit (x_child_limit x));
     (js "filter", v_opt v_filter (x_filter x));
     (js "lineExtensions", v_opt (fun l => VColl (map (v_opt v_extension) l)) (x_line_extensions x))].
