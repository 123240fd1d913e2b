(** * The glob language of the JDK on Unix

    Not a model of repository code but of the JDK class sun.nio.fs.Globs behind [FileSystem.getPathMatcher("glob:...")], which the library
    calls at PathMatchers.java:309, 346, 489. The library's model takes an arbitrary function from globs to predicates ([jv_glob]); this file
    gives the one of the JDK, for the properties that are about particular globs and for the transcribed tests of the repository.
    Globs translates the code units of the glob one by one into a regular expression, which [java.util.regex.Pattern] then reads, and matches
    with texts, by code points: here the items of the glob are read unit by unit and then joined to code points ([pair_items]). *)

From Verif Require Export World.

(** The items of a glob given to PathMatchers.java:309, 346, 489. *)
Inductive gitem :=
| GLit (c : N)                                           (* the character itself *)
| GOne                                                   (* "?": one character other than '/' *)
| GName                                                  (* "*": any characters other than '/' *)
| GAny                                                   (* "**": any characters; the regular expression ".*" excludes line terminators *)
| GClass (negated : bool) (ranges : list (N * N))        (* "[...]": one character other than '/' *)
| GAlt (alternatives : list (list gitem)).               (* "{...,...}", not nested *)

(** Whether a class "[...]" of a glob given to PathMatchers.java:309, 346, 489 has the character. *)
Definition in_ranges (ranges : list (N * N)) (c : N) : bool :=
  existsb (fun r => (fst r <=? c) && (c <=? snd r))%N ranges.

(** What the ".*" for "**" does not match (globs of PathMatchers.java:309, 346, 489). *)
Definition is_line_terminator (c : N) : bool := existsb (N.eqb c) [10; 13; 133; 8232; 8233]%N.

(** ** Reading a glob *)

(** What was read last in a class, globs of PathMatchers.java:309, 346, 489. A range starts with the unit read last; the second half of a pair
    continues the character read last. *)
Inductive class_state :=
| NoStart                  (* no character yet that a range could start with *)
| From (c : jchar)         (* the unit [c] *)
| After (c : jchar)        (* a range that ends with the unit [c] *)
| FromPair                 (* a pair *)
| AfterPair (d : jchar).   (* a range that ends with a pair whose second half is [d] *)

(** A unit without a meaning of its own in a class, with the class read so far, latest first. Globs of PathMatchers.java:309, 346, 489. *)
Definition class_unit (c : jchar) (st : class_state) (acc : list (N * N)) : class_state * list (N * N) :=
  match st, acc with
  | From h, _ :: acc' => if is_high h && is_low c then (FromPair, (to_code_point h c, to_code_point h c) :: acc') else (From c, (c, c) :: acc)
  | After h, (a, _) :: acc' => if is_high h && is_low c then (AfterPair c, (a, to_code_point h c) :: acc') else (From c, (c, c) :: acc)
  | _, _ => (From c, (c, c) :: acc)
  end.

(** The rest of a class after "[" and the negation sign. The second half of a pair counts as the start of a range for Globs: a smaller unit after the
    hyphen is refused at once. Otherwise Pattern refuses a range that starts with a pair and ends with a unit, and reads the hyphen after a range
    that ends with a pair as itself. Globs of PathMatchers.java:309, 346, 489. *)
Fixpoint parse_class (s : jstring) (st : class_state) (acc : list (N * N)) : option (list (N * N) * jstring) :=
  match s with
  | [] => None
  | 93%N :: s' => Some (rev acc, s')
  | 47%N :: _ => None
  | 45%N :: s' =>
      match st with
      | NoStart | After _ => None
      | From a =>
          match s' with
          | [] => None
          | 93%N :: s'' => Some (rev ((45, 45)%N :: acc), s'')
          | c :: s'' => if (c <? a)%N then None else parse_class s'' (After c) ((a, c) :: acc)
          end
      | FromPair => match s' with 93%N :: s'' => Some (rev ((45, 45)%N :: acc), s'') | _ => None end
      | AfterPair d =>
          match s' with
          | [] => None
          | 93%N :: s'' => Some (rev ((45, 45)%N :: acc), s'')
          | c :: s'' => if (c <? d)%N then None else parse_class s'' NoStart ((c, c) :: (45, 45)%N :: acc)
          end
      end
  | c :: s' => let (st', acc') := class_unit c st acc in parse_class s' st' acc'
  end.

(** A class, after "[". Globs of PathMatchers.java:309, 346, 489. *)
Definition parse_bracket (s : jstring) : option (gitem * jstring) :=
  let finish negated r :=
    match r with
    | Some (ranges, s') => match ranges with [] => None | _ => Some (GClass negated ranges, s') end
    | None => None
    end in
  let body negated s :=
    match s with
    | 45%N :: s' => finish negated (parse_class s' NoStart [(45, 45)%N])
    | _ => finish negated (parse_class s NoStart [])
    end in
  match s with
  | 94%N :: s' => finish false (parse_class s' NoStart [(94, 94)%N])
  | 33%N :: s' => body true s'
  | _ => body false s
  end.

(** What has been read: the items before the group, and the alternatives of an open group; latest first. Globs of PathMatchers.java:309, 346, 489.
    *)
Record partial := mkPartial { pa_items : list gitem; pa_group : option (list (list gitem)) }.

(** The next item, outside of a group or in the current alternative (globs of PathMatchers.java:309, 346, 489). *)
Definition add_item (i : gitem) (p : partial) : partial :=
  match pa_group p with
  | None => mkPartial (i :: pa_items p) None
  | Some (cur :: alts) => mkPartial (pa_items p) (Some ((i :: cur) :: alts))
  | Some [] => mkPartial (pa_items p) (Some [[i]])
  end.

(** The items of a glob of PathMatchers.java:309, 346, 489; [None] for a malformed one. The fuel is the length of the glob and never runs out. *)
Fixpoint parse_glob (fuel : nat) (s : jstring) (p : partial) : option (list gitem) :=
  match fuel with
  | O => None
  | S fuel =>
      match s with
      | [] => match pa_group p with None => Some (rev (pa_items p)) | Some _ => None end
      | 92%N :: s' => match s' with [] => None | c :: s'' => parse_glob fuel s'' (add_item (GLit c) p) end
      | 91%N :: s' => match parse_bracket s' with Some (i, s'') => parse_glob fuel s'' (add_item i p) | None => None end
      | 123%N :: s' => match pa_group p with Some _ => None | None => parse_glob fuel s' (mkPartial (pa_items p) (Some [[]])) end
      | 125%N :: s' =>
          match pa_group p with
          | Some alts => parse_glob fuel s' (mkPartial (GAlt (rev (map (@rev gitem) alts)) :: pa_items p) None)
          | None => parse_glob fuel s' (add_item (GLit 125%N) p)
          end
      | 44%N :: s' =>
          match pa_group p with
          | Some alts => parse_glob fuel s' (mkPartial (pa_items p) (Some ([] :: alts)))
          | None => parse_glob fuel s' (add_item (GLit 44%N) p)
          end
      | 42%N :: s' =>
          match s' with
          | 42%N :: s'' => parse_glob fuel s'' (add_item GAny p)
          | _ => parse_glob fuel s' (add_item GName p)
          end
      | 63%N :: s' => parse_glob fuel s' (add_item GOne p)
      | c :: s' => parse_glob fuel s' (add_item (GLit c) p)
      end
  end.

(** Neighbouring literal halves are one character, globs of PathMatchers.java:309, 346, 489. *)
Fixpoint pair_lits (l : list gitem) : list gitem :=
  match l with
  | [] => []
  | GLit c :: l' =>
      match l' with
      | GLit d :: l'' => if is_high c && is_low d then GLit (to_code_point c d) :: pair_lits l'' else GLit (lone c) :: pair_lits l'
      | _ => GLit (lone c) :: pair_lits l'
      end
  | i :: l' => i :: pair_lits l'
  end.

(** The same within groups, globs of PathMatchers.java:309, 346, 489. *)
Definition pair_item (i : gitem) : gitem := match i with GAlt alts => GAlt (map pair_lits alts) | i => i end.

(** The items as [java.util.regex.Pattern] reads them, globs of PathMatchers.java:309, 346, 489. *)
Definition pair_items (l : list gitem) : list gitem := map pair_item (pair_lits l).

(** The call of getPathMatcher at PathMatchers.java:309, 346, 489. *)
Definition read_glob (g : jstring) : option (list gitem) := option_map pair_items (parse_glob (S (length g)) g (mkPartial [] None)).

(** ** Matching *)

(** [s] and what remains of it after any number of leading characters that satisfy [ok]. For the globs of PathMatchers.java:309, 346, 489. *)
Fixpoint remainders (ok : N -> bool) (s : list N) : list (list N) :=
  s :: match s with c :: s' => if ok c then remainders ok s' else [] | [] => [] end.

(** "*", "?" and classes do not match the separator (globs of PathMatchers.java:309, 346, 489). *)
Definition not_slash (c : N) : bool := negb (c =? c_slash)%N.

(** All that can remain of [s] after a match of the item at its beginning. For the globs of PathMatchers.java:309, 346, 489. *)
Fixpoint after_item (i : gitem) (s : list N) {struct i} : list (list N) :=
  let after_items := fix after_items (l : list gitem) (s : list N) : list (list N) :=
    match l with [] => [s] | i :: l' => flat_map (after_items l') (after_item i s) end in
  match i with
  | GLit c => match s with x :: s' => if (x =? c)%N then [s'] else [] | [] => [] end
  | GOne => match s with x :: s' => if not_slash x then [s'] else [] | [] => [] end
  | GName => remainders not_slash s
  | GAny => remainders (fun c => negb (is_line_terminator c)) s
  | GClass negated ranges =>
      match s with x :: s' => if not_slash x && xorb negated (in_ranges ranges x) then [s'] else [] | [] => [] end
  | GAlt alts => flat_map (fun l => after_items l s) alts
  end.

(** All that can remain of [s] after a match of the items, one after the other, at its beginning (globs of PathMatchers.java:309, 346, 489). *)
Fixpoint after_items (l : list gitem) (s : list N) : list (list N) :=
  match l with [] => [s] | i :: l' => flat_map (after_items l') (after_item i s) end.

(** [PathMatcher.matches] of the matchers of PathMatchers.java:309, 346, 489: the whole text is matched. *)
Definition glob_matches (l : list gitem) (s : list N) : bool :=
  existsb (fun r => match r with [] => true | _ => false end) (after_items l s).

(** The predicate of a glob on paths; [None] for a malformed glob. Called at PathMatchers.java:309, 346, 489. *)
Definition jdk_glob (g : jstring) : option (path -> bool) :=
  match read_glob g with
  | Some l => Some (fun p => glob_matches l (points (path_str p)))
  | None => None
  end.
