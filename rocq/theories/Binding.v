(** * Model of how an options file becomes a document: cli/options/model with the Jackson annotations, and the published JSON schema

    Paths below are relative to jfiletreeprettyprinter-cli/src/main/java/io/github/computerdaddyguy/jfiletreeprettyprinter/cli, except for the
    schema, which is jfiletreeprettyprinter-cli/src/main/resources/schemas/jfiletreeprettyprinter-options.schema.json.
    The YAML parser is not modelled: a file is given by the tree of values written in it. *)

From Verif Require Export Cli.

(** Values of JSON and YAML. [TFloat]: a number with a fraction or an exponent, rounded down, and whether it is a whole number. The contents of
    the file read at options/reader/SimpleExternalOptionsReader.java:56. *)
Inductive tree :=
| TNull
| TBool (b : bool)
| TInt (z : Z)
| TFloat (floor : Z) (whole : bool)
| TStr (s : jstring)
| TArr (items : list tree)
| TObj (fields : list (jstring * tree)).

(** ** Binding by Jackson 3 with its default settings (options/reader/SimpleExternalOptionsReader.java:55-56)

    Not repository code, except for the records and their annotations. Modelled: fields are found by their exact names; absent and null fields
    are null; unknown fields are ignored; the subtype of a sealed interface is found by the value of "type", and its absence or an unknown
    value is an exception; an integer out of the range of int is an exception. Everything else ([Unmodelled]: values of another type than
    expected, which Jackson converts or rejects, keys given twice) is left open. *)
Inductive bound (A : Type) := Bound (a : A) | Rejected | Unmodelled.
Arguments Bound {A} a.
Arguments Rejected {A}.
Arguments Unmodelled {A}.

(** An exception anywhere is an exception of the whole. Within options/reader/SimpleExternalOptionsReader.java:56. *)
Definition b_ap {A B} (f : bound (A -> B)) (x : bound A) : bound B :=
  match f, x with
  | Rejected, _ | _, Rejected => Rejected
  | Bound f, Bound a => Bound (f a)
  | _, _ => Unmodelled
  end.

(** A result that is processed further, within options/reader/SimpleExternalOptionsReader.java:56. *)
Definition b_map {A B} (f : A -> B) (x : bound A) : bound B := b_ap (Bound f) x.

(** All items of a list, within options/reader/SimpleExternalOptionsReader.java:56. *)
Fixpoint b_all {A} (l : list (bound A)) : bound (list A) :=
  match l with [] => Bound [] | x :: l' => b_ap (b_map cons x) (b_all l') end.

(** The value of a key, within options/reader/SimpleExternalOptionsReader.java:56. *)
Fixpoint lookup {A} (k : jstring) (l : list (jstring * A)) : option A :=
  match l with [] => None | (k', v) :: l' => if jeqb k k' then Some v else lookup k l' end.

(** No key occurs twice, within options/reader/SimpleExternalOptionsReader.java:56 (the YAML parser rejects repeated keys). *)
Fixpoint distinct_keys {A} (l : list (jstring * A)) : bool :=
  match l with [] => true | (k, _) :: l' => negb (is_some (lookup k l')) && distinct_keys l' end.

(** A field of a record; [f] binds its value. Such as options/model/Filter.java:7-8. *)
Definition b_field {A} (k : jstring) (fields : list (jstring * tree)) (none : A) (f : tree -> bound A) : bound A :=
  match lookup k fields with None => Bound none | Some v => f v end.

(** A record: an object without repeated keys. Such as options/model/Filter.java:6-9. *)
Definition b_record {A} (t : tree) (f : list (jstring * tree) -> bound A) : bound A :=
  match t with TObj fields => if distinct_keys fields then f fields else Unmodelled | _ => Unmodelled end.

(** A component that may be null, such as options/model/ExternalOptions.java:12-14. *)
Definition b_nullable {A} (f : tree -> bound A) (t : tree) : bound (option A) :=
  match t with TNull => Bound None | _ => b_map Some (f t) end.

(** [Boolean], [Integer], [String], [List]. options/model/ExternalOptions.java:9-10. *)
Definition b_bool (t : tree) : bound (option bool) := match t with TNull => Bound None | TBool b => Bound (Some b) | _ => Unmodelled end.

(** [Integer]: options/model/ExternalOptions.java:11, options/model/ChildLimit.java:19, 38. *)
Definition b_int (t : tree) : bound (option Z) :=
  match t with
  | TNull => Bound None
  | TInt z => if ((-2147483648 <=? z) && (z <=? 2147483647))%Z then Bound (Some z) else Rejected
  | _ => Unmodelled
  end.

(** [String]: options/model/Matcher.java:64, 74, options/model/LineExtension.java:7. *)
Definition b_str (t : tree) : bound (option jstring) := match t with TNull => Bound None | TStr s => Bound (Some s) | _ => Unmodelled end.

(** [List]: options/model/Matcher.java:34, 44, 54, options/model/ExternalOptions.java:14, options/model/ChildLimit.java:29. *)
Definition b_list {A} (f : tree -> bound A) (t : tree) : bound (option (list A)) :=
  match t with TNull => Bound None | TArr l => b_map Some (b_all (map f l)) | _ => Unmodelled end.

(** [@JsonTypeInfo(use = NAME, include = PROPERTY, property = "type")] (options/model/Matcher.java:10, ChildLimit.java:10) with the
    [@JsonTypeName]s of the subtypes. *)
Definition b_typed {A} (fields : list (jstring * tree)) (subtypes : list (jstring * bound A)) : bound A :=
  match lookup (js "type") fields with
  | None => Rejected
  | Some (TStr ty) => match lookup ty subtypes with Some r => r | None => Rejected end
  | Some _ => Unmodelled
  end.

(** options/model/Matcher.java:10-79. *)
Fixpoint bind_matcher (t : tree) : bound xmatcher :=
  match t with
  | TNull => Bound XmNull
  | TObj fields =>
      let lists := (fix go (l : list (jstring * tree)) : list (jstring * bound (option (list xmatcher))) :=
        match l with
        | [] => []
        | (k, v) :: l' => (k, match v with TNull => Bound None | TArr items => b_map Some (b_all (map bind_matcher items)) | _ => Unmodelled end) :: go l'
        end) fields in
      let matchers := match lookup (js "matchers") lists with None => Bound None | Some r => r end in
      if distinct_keys fields then
        b_typed fields
          [(js "everything", Bound XmTrue); (js "nothing", Bound XmFalse); (js "allOf", b_map XmAllOf matchers); (js "anyOf", b_map XmAnyOf matchers);
           (js "noneOf", b_map XmNoneOf matchers); (js "name", b_map XmName (b_field (js "glob") fields None b_str));
           (js "path", b_map XmPath (b_field (js "glob") fields None b_str))]
      else Unmodelled
  | _ => Unmodelled
  end.

(** options/model/ChildLimit.java:37-42. *)
Definition bind_item (t : tree) : bound xitem :=
  b_record t (fun fields => b_ap (b_map mkXItem (b_field (js "limit") fields None b_int)) (b_field (js "matcher") fields XmNull bind_matcher)).

(** options/model/ChildLimit.java:10-32. *)
Definition bind_limit (t : tree) : bound xlimit :=
  b_record t (fun fields =>
    b_typed fields
      [(js "static", b_map XStatic (b_field (js "limit") fields None b_int));
       (js "dynamic", b_map XDynamic (b_field (js "limits") fields None (b_list (b_nullable bind_item))))]).

(** options/model/Filter.java:6-9. *)
Definition bind_filter (t : tree) : bound xfilter :=
  b_record t (fun fields => b_ap (b_map mkXFilter (b_field (js "dir") fields XmNull bind_matcher)) (b_field (js "file") fields XmNull bind_matcher)).

(** options/model/LineExtension.java:6-9. *)
Definition bind_extension (t : tree) : bound xextension :=
  b_record t (fun fields =>
    b_ap (b_map mkXExtension (b_field (js "extension") fields None b_str)) (b_field (js "matcher") fields XmNull bind_matcher)).

(** options/model/ExternalOptions.java:8-15. *)
Definition bind_options (t : tree) : bound xoptions :=
  b_record t (fun fields =>
    b_ap (b_ap (b_ap (b_ap (b_ap (b_map mkXOptions
      (b_field (js "emojis") fields None b_bool))
      (b_field (js "compactDirectories") fields None b_bool))
      (b_field (js "maxDepth") fields None b_int))
      (b_field (js "childLimit") fields None (b_nullable bind_limit)))
      (b_field (js "filter") fields None (b_nullable bind_filter)))
      (b_field (js "lineExtensions") fields None (b_list (b_nullable bind_extension)))).

(** options/reader/SimpleExternalOptionsReader.java:55-56: what reading a file with the contents [t] may give. *)
Definition reads_as (t : tree) (r : loaded) : Prop :=
  match t with
  | TNull => r = LoadNull
  | _ => match bind_options t with Bound x => r = LoadDoc x | Rejected => r = LoadFails | Unmodelled => True end
  end.

(** ** The published schema *)

(** Schema (jfiletreeprettyprinter-options.schema.json:6-179): the values of "type". *)
Inductive jtype := JObject | JArray | JBoolean | JInteger | JString.

(** The keywords used in the file. [SObject]: "properties" and "required" with "additionalProperties": false. [SBoth]: side by side. [SRef]:
    "$ref": "#/$defs/matcher". jfiletreeprettyprinter-options.schema.json:1-181. *)
Inductive schema :=
| SType (ty : jtype)
| SConst (s : jstring)
| SMinimum (n : Z)
| SObject (properties : list (jstring * schema)) (required : list jstring)
| SItems (s : schema)
| SOneOf (l : list schema)
| SBoth (s1 s2 : schema)
| SRef.

(** jfiletreeprettyprinter-options.schema.json:95-179: the property "type" with a "const". *)
Definition type_is (s : string) : jstring * schema := (js "type", SConst (js s)).

(** jfiletreeprettyprinter-options.schema.json:95-179: the property "glob". *)
Definition glob_is : jstring * schema := (js "glob", SType JString).

(** jfiletreeprettyprinter-options.schema.json:95-179: the property "matchers". *)
Definition matchers_are : jstring * schema := (js "matchers", SBoth (SType JArray) (SItems SRef)).

(** Schema, lines 95-179. jfiletreeprettyprinter-options.schema.json:95-179. *)
Definition matcher_schema : schema :=
  SBoth (SType JObject) (SOneOf
    [SObject [type_is "everything"] [js "type"];
     SObject [type_is "nothing"] [js "type"];
     SObject [type_is "allOf"; matchers_are] [js "type"; js "matchers"];
     SObject [type_is "anyOf"; matchers_are] [js "type"; js "matchers"];
     SObject [type_is "noneOf"; matchers_are] [js "type"; js "matchers"];
     SObject [type_is "name"; glob_is] [js "type"; js "glob"];
     SObject [type_is "path"; glob_is] [js "type"; js "glob"]]).

(** Schema, lines 24-62. jfiletreeprettyprinter-options.schema.json:24-62. *)
Definition limit_schema : schema :=
  SOneOf
    [SObject [type_is "static"; (js "limit", SType JInteger)] [js "type"; js "limit"];
     SObject [type_is "dynamic";
              (js "limits", SBoth (SType JArray) (SItems (SBoth (SType JObject)
                 (SObject [(js "limit", SBoth (SType JInteger) (SMinimum (-1))); (js "matcher", SRef)] [js "limit"; js "matcher"]))))]
             [js "type"; js "limits"]].

(** Schema, lines 6-91. jfiletreeprettyprinter-options.schema.json:6-91. *)
Definition options_schema : schema :=
  SBoth (SType JObject) (SObject
    [(js "emojis", SType JBoolean);
     (js "compactDirectories", SType JBoolean);
     (js "maxDepth", SType JInteger);
     (js "childLimit", limit_schema);
     (js "filter", SBoth (SType JObject) (SObject [(js "dir", SRef); (js "file", SRef)] []));
     (js "lineExtensions", SBoth (SType JArray) (SItems (SBoth (SType JObject)
        (SObject [(js "extension", SType JString); (js "matcher", SRef)] [js "extension"; js "matcher"]))))]
    []).

(** The keyword "type", as in jfiletreeprettyprinter-options.schema.json:6-179. *)
Definition has_type (ty : jtype) (t : tree) : bool :=
  match ty, t with
  | JObject, TObj _ | JArray, TArr _ | JBoolean, TBool _ | JInteger, TInt _ | JInteger, TFloat _ true | JString, TStr _ => true
  | _, _ => false
  end.

(** JSON Schema 2020-12: keywords for objects, arrays or numbers say nothing about other values. [fields] and [items] say which schemas the fields
    and items of [t] conform to, [ref] whether [t] conforms to the definition "matcher". The keywords of
    jfiletreeprettyprinter-options.schema.json:6-179. *)
Fixpoint satisfies (t : tree) (fields : list (jstring * (schema -> bool))) (items : list (schema -> bool)) (ref : bool) (s : schema) : bool :=
  match s with
  | SType ty => has_type ty t
  | SConst c => match t with TStr s => jeqb s c | _ => false end
  | SMinimum n => match t with TInt z => (n <=? z)%Z | TFloat z _ => (n <=? z)%Z | _ => true end
  | SObject properties required =>
      match t with
      | TObj _ =>
          forallb (fun kf => match lookup (fst kf) properties with Some s => snd kf s | None => false end) fields &&
          forallb (fun k => is_some (lookup k fields)) required
      | _ => true
      end
  | SItems s => match t with TArr _ => forallb (fun f => f s) items | _ => true end
  | SOneOf l => Nat.eqb (length (filter (satisfies t fields items ref) l)) 1
  | SBoth s1 s2 => satisfies t fields items ref s1 && satisfies t fields items ref s2
  | SRef => ref
  end.

(** The matcher definition does not refer to itself for the same value, so that [ref] does not matter in it. Validity against
    jfiletreeprettyprinter-options.schema.json:6-179. *)
Fixpoint conforms (t : tree) : schema -> bool :=
  let fields := match t with
    | TObj l => (fix go (l : list (jstring * tree)) : list (jstring * (schema -> bool)) :=
                   match l with [] => [] | (k, v) :: l' => (k, conforms v) :: go l' end) l
    | _ => []
    end in
  let items := match t with TArr l => map conforms l | _ => [] end in
  satisfies t fields items (satisfies t fields items false matcher_schema).
