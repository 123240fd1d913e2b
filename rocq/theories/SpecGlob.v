(** * Vocabulary for the properties about particular globs *)

From Verif Require Export SpecText Glob SpecMatch SpecScan SpecCli.

(** The globs of the platform are those of the JDK on Unix (Glob.v). *)
Definition unix_globs (w : world) : Prop := forall g, jv_glob (w_jvm w) g = jdk_glob g.

(** ** The texts an item of a glob stands for, as code points *)

Inductive in_item : gitem -> list N -> Prop :=
| ii_lit c : in_item (GLit c) [c]
| ii_one c : c <> c_slash -> in_item GOne [c]
| ii_name s : ~ In c_slash s -> in_item GName s
| ii_any s : Forall (fun c => is_line_terminator c = false) s -> in_item GAny s
| ii_in ranges c a b : c <> c_slash -> In (a, b) ranges -> (a <= c <= b)%N -> in_item (GClass false ranges) [c]
| ii_out ranges c : c <> c_slash -> (forall a b, In (a, b) ranges -> ~ (a <= c <= b)%N) -> in_item (GClass true ranges) [c]
| ii_alt alts l s : In l alts -> in_items l s -> in_item (GAlt alts) s
with in_items : list gitem -> list N -> Prop :=
| is_end : in_items [] []
| is_next i l a b : in_item i a -> in_items l b -> in_items (i :: l) (a ++ b).

(** ** Texts *)

(** The characters with a meaning of their own in a glob (outside groups): \ [ { * ? *)
Definition glob_special (c : jchar) : Prop := In c [92; 91; 123; 42; 63]%N.
Definition verbatim (s : jstring) : Prop := Forall (fun c => ~ glob_special c) s.

(** A backslash before every character. *)
Definition escaped (s : jstring) : jstring := flat_map (fun c => [92%N; c]) s.

(** [with_gaps pieces s]: [s] is the pieces in order with anything between them. *)
Inductive with_gaps : list jstring -> jstring -> Prop :=
| fl_last x : with_gaps [x] x
| fl_more x gap l s : with_gaps l s -> with_gaps (x :: l) (x ++ gap ++ s).

(** A glob of verbatim pieces separated by single stars: the inner pieces are not empty. *)
Definition pieces_ok (pieces : list jstring) : Prop :=
  Forall verbatim pieces /\ forall l x y r, pieces = l ++ x :: y :: r -> l <> [] -> x <> [].

Definition no_terminator (s : jstring) : Prop := Forall (fun c => is_line_terminator c = false) s.

(** The glob [g] spells the text [s] literally: characters with a meaning of their own are escaped, the others may be. *)
Inductive literal : jstring -> jstring -> Prop :=
| lit_end : literal [] []
| lit_plain c g s : ~ glob_special c -> literal g s -> literal (c :: g) (c :: s)
| lit_escaped c g s : literal g s -> literal (92%N :: c :: g) (c :: s).

(** The text [s] ends with [t]. *)
Definition ending (s t : jstring) : Prop := exists m, s = m ++ t.

(** Names as they occur on a disk joined by '/'. *)
Definition slashed (l : list jstring) : jstring := join [c_slash] l.

(** Asked about [p], the matcher tells whether [Q] holds, without an exception, an access or a message. *)
Definition tells (w : world) (c : matcher) (p : path) (Q : Prop) : Prop :=
  exists b, (forall h, c p w h = (Ok b, h)) /\ (b = true <-> Q).

(** [p] names the location with the real names [L]. *)
Definition at_names (w : world) (p : path) (L : list jstring) : Prop :=
  Forall real_name L /\ same_location (jv_cwd (w_jvm w)) p (mkPath true L).

(** ** Globs in general *)

(** The text [s] is one of those that the items [l] stand for. *)
Definition among (l : list gitem) (s : jstring) : Prop := exists cs, points_of s cs /\ in_items l cs.

(** The characters without a meaning of their own in a class. *)
Definition class_char (c : N) : Prop := ~ In c [93; 47; 45; 91; 92; 38; 33; 94]%N.   (* ] / - [ \ & ! ^ *)

(** The inside of a class: characters and ranges like a-z. A range starts with a character of one code unit; if it ends with one of two code units,
    it starts below the surrogates. *)
Inductive class_text : list (N * N) -> jstring -> Prop :=
| ct_none : class_text [] []
| ct_one c u r t : character c u -> class_char c -> class_text r t -> class_text ((c, c) :: r) (u ++ t)
| ct_range a b u r t : character a [a] -> class_char a -> character b u -> class_char b -> (a <= b)%N -> (b < 65536 \/ a < 55296)%N ->
    class_text r t -> class_text ((a, b) :: r) (a :: 45%N :: u ++ t).

(** The text [g] spells the items [l], without groups. Inside a group a comma and a closing brace must be escaped. *)
Inductive spells_plain (in_group : bool) : list gitem -> jstring -> Prop :=
| sp_end : spells_plain in_group [] []
| sp_char c u l g : character c u -> ~ glob_special c -> (in_group = true -> c <> 44%N /\ c <> 125%N) -> spells_plain in_group l g ->
    spells_plain in_group (GLit c :: l) (u ++ g)
| sp_escaped c u l g : character c u -> spells_plain in_group l g -> spells_plain in_group (GLit c :: l) (92%N :: u ++ g)
| sp_one l g : spells_plain in_group l g -> spells_plain in_group (GOne :: l) (63%N :: g)
| sp_name l g : hd_error g <> Some 42%N -> spells_plain in_group l g -> spells_plain in_group (GName :: l) (42%N :: g)
| sp_any l g : spells_plain in_group l g -> spells_plain in_group (GAny :: l) (42%N :: 42%N :: g)
| sp_class negated ranges t l g : ranges <> [] -> class_text ranges t -> spells_plain in_group l g ->
    spells_plain in_group (GClass negated ranges :: l) (91%N :: (if negated : bool then [33%N] else []) ++ t ++ 93%N :: g).

(** The text [g] spells the items [l]. *)
Inductive spells : list gitem -> jstring -> Prop :=
| sp_plain l g : spells_plain false l g -> spells l g
| sp_group l1 g1 alternatives texts l2 g2 :
    spells_plain false l1 g1 -> texts <> [] -> Forall2 (spells_plain true) alternatives texts -> spells l2 g2 ->
    spells (l1 ++ GAlt alternatives :: l2) (g1 ++ [123%N] ++ join [44%N] texts ++ [125%N] ++ g2).
