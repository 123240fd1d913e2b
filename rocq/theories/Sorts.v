(** * Model of options/PathSorts.java and options/PathSortBuilder.java *)

From Verif Require Export Matchers.

(** [java.util.Comparator<Path>]: a computation returning the Java int; it may access the file system and throw. As in PathSorts.java:16-128. *)
Definition comparator := path -> path -> M Z.

(** [Integer.compare], [Long.compare] as used by [Comparator.comparing]. PathSorts.java:26, PathSortBuilder.java:86. *)
Definition zcompare (a b : Z) : Z :=
  if (a <? b)%Z then (-1)%Z else if (b <? a)%Z then 1%Z else 0%Z.

(** [Comparator.comparing(key)] for numbers: the key of the first path is computed first. PathSorts.java:26-28, PathSortBuilder.java:86. *)
Definition comparing (key : path -> M Z) : comparator :=
  fun a b => ka <- key a; kb <- key b; ret (zcompare ka kb).

(** [Comparator.thenComparing]. PathSortBuilder.java:86, PrettyPrintOptions.java:171-174. *)
Definition then_comparing (c1 c2 : comparator) : comparator :=
  fun a b => r <- c1 a b; if (r =? 0)%Z then c2 a b else ret r.

(** [Comparator.reversed]. PathSorts.java:47. *)
Definition reversed (c : comparator) : comparator := fun a b => c b a.

(** PathSorts.java:16-20, the sort key. *)
Definition alpha_key (p : path) : jstring :=
  match get_file_name p with Some n => path_str n | None => [] end.

(** PathSorts.java:16-20. *)
Definition ALPHABETICAL : comparator := fun a b => ret (jcompare (alpha_key a) (alpha_key b)).

(** PathSorts.java:26-28. *)
Definition BY_FILE_SIZE : comparator :=
  comparing (fun p => is_dir <- pm_is_directory p; if is_dir then ret 0%Z else file_length p).

(** PathSorts.java:34-41. *)
Definition DIRECTORY_FIRST : comparator :=
  fun p1 p2 =>
    is_p1_dir <- pm_is_directory p1;
    is_p2_dir <- pm_is_directory p2;
    ret (if Bool.eqb is_p1_dir is_p2_dir then 0%Z else if is_p1_dir then (-1)%Z else 1%Z).

(** PathSorts.java:47. *)
Definition DIRECTORY_LAST : comparator := reversed DIRECTORY_FIRST.

(** PathSorts.java:109-127: compare the extension parts from the last one down to index 1; the
    arguments are the parts from the last to index 1. A shorter list comes first.
    Positions: [i1 > i2] at the exit of the loop iff the first list is the longer one. *)
Fixpoint compare_ext_parts (fold : jchar -> jchar) (l1 l2 : list jstring) : Z :=
  match l1, l2 with
  | [], [] => 0%Z
  | _ :: _, [] => 1%Z
  | [], _ :: _ => (-1)%Z
  | a :: l1', b :: l2' =>
      let cmp := jcompare_ci fold a b in
      if (cmp =? 0)%Z then compare_ext_parts fold l1' l2' else cmp
  end.

(** PathSorts.java:92-127, the comparison of the names of two paths that are not directories. [getFileName()] is null only for "/", which is
    a directory; the model uses the empty name there. When [split] returns no part at all (a name made of dots only),
    the index starts at -1 and the other list, if it has at least 2 parts, is longer:
    this is the value for the list [tl [] = []] against a non-empty list, and 0 for two such names. *)
Definition compare_extensions (fold : jchar -> jchar) (name1 name2 : jstring) : Z :=
  let parts1 := jsplit_dot name1 in
  let parts2 := jsplit_dot name2 in
  if (length parts1 =? 1)%nat && (length parts2 =? 1)%nat then jcompare_ci fold name1 name2
  else if (length parts1 =? 1)%nat then (-1)%Z
  else if (length parts2 =? 1)%nat then 1%Z
  else compare_ext_parts fold (rev (tl parts1)) (rev (tl parts2)).

(** PathSorts.java:79-128. *)
Definition BY_EXTENSION : comparator :=
  fun p1 p2 =>
    is_dir1 <- pm_is_directory p1;
    is_dir2 <- pm_is_directory p2;
    if is_dir1 then ret (if is_dir2 then 0%Z else (-1)%Z)
    else if is_dir2 then ret 1%Z
    else
      j <- get_jvm;
      ret (compare_extensions (jv_fold j) (alpha_key p1) (alpha_key p2)).

(** ** PathSortBuilder.java *)

(** PathSortBuilder.java:49-55. *)
Definition HIGHEST_PRECEDENCE : Z := (-2147483648)%Z.

(** PathSortBuilder.java:52. *)
Definition DEFAULT_PRECEDENCE : Z := 0%Z.

(** PathSortBuilder.java:55. *)
Definition LOWEST_PRECEDENCE : Z := 2147483647%Z.

(** PathSortBuilder.java:57-61: the builder state is its list of rules. *)
Definition sort_builder := list (path -> M Z).

(** PathSortBuilder.java:76-85. *)
Fixpoint sort_precedence_loop (result : Z) (rules : sort_builder) (p : path) : M Z :=
  match rules with
  | [] => ret result
  | rule :: rules' =>
      result <- rule p;
      if negb (result =? DEFAULT_PRECEDENCE)%Z then ret result else sort_precedence_loop result rules' p
  end.

(** PathSortBuilder.java:76-85. *)
Definition sort_precedence (rules : sort_builder) (p : path) : M Z :=
  sort_precedence_loop DEFAULT_PRECEDENCE rules p.

(** PathSortBuilder.java:74-87. *)
Definition sort_build (b : sort_builder) : comparator :=
  then_comparing (comparing (sort_precedence b)) ALPHABETICAL.

(** The operations a client can call on the builder. PathSortBuilder.java:97-136. *)
Inductive sort_op :=
| SAdd (order : path -> M Z)
| SAddMatcher (m : matcher) (precedence : Z)
| SAddFirst (m : matcher)
| SAddLast (m : matcher).

(** PathSortBuilder.java:97-101. *)
Definition sort_add (b : sort_builder) (order : path -> M Z) : sort_builder := b ++ [order].

(** PathSortBuilder.java:113-116. *)
Definition sort_add_matcher (b : sort_builder) (m : matcher) (precedence : Z) : sort_builder :=
  sort_add b (fun p => matches <- m p; ret (if matches then precedence else DEFAULT_PRECEDENCE)).

(** PathSortBuilder.java:97-101, 113-116, 124-126, 134-136. *)
Definition sort_step (b : sort_builder) (o : sort_op) : sort_builder :=
  match o with
  | SAdd order => sort_add b order
  | SAddMatcher m z => sort_add_matcher b m z
  | SAddFirst m => sort_add_matcher b m HIGHEST_PRECEDENCE
  | SAddLast m => sort_add_matcher b m LOWEST_PRECEDENCE
  end.

(** One builder object and the rule lists of the comparators it has built so far, oldest first:
    [build] copies the rules (PathSortBuilder.java:75) and the lambda reads nothing else. *)
Record sort_session := mkSortSession { ss_builder : sort_builder; ss_built : list sort_builder }.

(** What a client does with a builder object. PathSortBuilder.java:74-136. *)
Inductive sort_cmd := SOp (o : sort_op) | SBuild.

(** PathSorts.java:135-137, PathSortBuilder.java:59-61. *)
Definition sort_start : sort_session := mkSortSession [] [].

(** PathSortBuilder.java:74-75 for [SBuild]; the [add] methods otherwise. *)
Definition sort_exec (s : sort_session) (c : sort_cmd) : sort_session :=
  match c with
  | SOp o => mkSortSession (sort_step (ss_builder s) o) (ss_built s)
  | SBuild => mkSortSession (ss_builder s) (ss_built s ++ [ss_builder s])
  end.

(** A sequence of client calls. PathSortBuilder.java:74-136. *)
Definition sort_run (s : sort_session) (cmds : list sort_cmd) : sort_session := fold_left sort_exec cmds s.

(** PathSortBuilder.java:74-87: the comparator returned by the [i]-th [build]. *)
Definition sort_call (s : sort_session) (i : nat) : comparator :=
  match nth_error (ss_built s) i with Some rules => sort_build rules | None => fun _ _ => ret 0%Z end.

(** ** [Stream.sorted(comparator)]

    [Stream.sorted] collects the elements and calls [List.sort], that is [java.util.TimSort] (JDK 21). A sorting algorithm is described by what it
    does next: it ends with a list, or gives up because the comparator breaks its contract, or compares two paths and goes on according to the
    result. [Exhausted] is not in the code: it marks exhausted fuel of the model and is proved unreachable. The array is modelled by the lists of
    the elements in its parts; [k] is what is done next. *)
(** Called at DefaultPathToTreeScanner.java:97. *)
Inductive sorting :=
| Sorted (l : list path)
| Violation
| Exhausted
| Compare (a b : path) (k : Z -> sorting).

(** TimSort.countRunAndMakeAscending, the loops: extend the run that ends with [last] by the paths of [rest] that continue it (descending
    strictly, or not descending). [run] is the run in reverse. Not repository code; called within DefaultPathToTreeScanner.java:97. *)
Fixpoint extend_run (descending : bool) (last : path) (run rest : list path) (k : list path -> list path -> sorting) : sorting :=
  match rest with
  | [] => k run []
  | x :: rest' =>
      Compare x last (fun z => if Bool.eqb (z <? 0)%Z descending then extend_run descending x (x :: run) rest' k else k run rest)
  end.

(** TimSort.countRunAndMakeAscending: the longest run at the beginning, put in ascending order, and the rest. Not repository code; called within
    DefaultPathToTreeScanner.java:97. *)
Definition count_run (l : list path) (k : list path -> list path -> sorting) : sorting :=
  match l with
  | x :: y :: rest =>
      Compare y x (fun z =>
        let descending := (z <? 0)%Z in
        extend_run descending y [y; x] rest (fun run rest => k (if descending then run else rev run) rest))
  | _ => k l []
  end.

(** TimSort.binarySort, the inner loop: the position for [pivot] in [l], which lies between [left] and [right] ([fuel] bounds the loop). Not
    repository code; called within DefaultPathToTreeScanner.java:97. *)
Fixpoint locate (fuel : nat) (pivot : path) (l : list path) (left right : nat) (k : nat -> sorting) : sorting :=
  if (left <? right)%nat then
    match fuel with
    | O => Exhausted
    | S fuel =>
        let mid := Nat.div2 (left + right) in
        Compare pivot (nth mid l pivot) (fun z =>
          if (z <? 0)%Z then locate fuel pivot l left mid k else locate fuel pivot l (S mid) right k)
    end
  else k left.

(** TimSort.binarySort: insert the paths of [rest] into [l]. Not repository code; called within DefaultPathToTreeScanner.java:97. *)
Fixpoint binary_sort (l rest : list path) (k : list path -> sorting) : sorting :=
  match rest with
  | [] => k l
  | pivot :: rest' => locate (length l) pivot l 0 (length l) (fun i => binary_sort (firstn i l ++ pivot :: skipn i l) rest' k)
  end.

(** TimSort.gallopLeft and gallopRight, the first loops: double the distance [ofs] while [goes_on] holds of the comparison of [key] with the
    element at that distance (its index is [at_ ofs]). [last] is the distance before. Overflow of [ofs] needs no case of its own: it makes the
    distance [max], as here. Not repository code; called within DefaultPathToTreeScanner.java:97. *)
Fixpoint gallop_away (fuel : nat) (goes_on : Z -> bool) (key : path) (a : list path) (at_ : nat -> nat) (max last ofs : nat)
                     (k : nat -> nat -> sorting) : sorting :=
  if (ofs <? max)%nat then
    match fuel with
    | O => Exhausted
    | S fuel =>
        Compare key (nth (at_ ofs) a key) (fun z =>
          if goes_on z then gallop_away fuel goes_on key a at_ max ofs (2 * ofs + 1) k else k last ofs)
    end
  else k last max.

(** TimSort.gallopLeft and gallopRight, the last loop: the position between [low] (lastOfs + 1 in the code) and [ofs]; [right] tells whether it is
    after the element compared. Not repository code; called within DefaultPathToTreeScanner.java:97. *)
Fixpoint gallop_between (fuel : nat) (right : Z -> bool) (key : path) (a : list path) (low ofs : nat) (k : nat -> sorting) : sorting :=
  if (low <? ofs)%nat then
    match fuel with
    | O => Exhausted
    | S fuel =>
        let m := (low + Nat.div2 (ofs - low))%nat in
        Compare key (nth m a key) (fun z =>
          if right z then gallop_between fuel right key a (S m) ofs k else gallop_between fuel right key a low m k)
    end
  else k ofs.

(** TimSort.gallopLeft and gallopRight: the position for [key] in the run [a], the search starting at [hint]. Not repository code; called within
    DefaultPathToTreeScanner.java:97. *)
Definition gallop (right : Z -> bool) (key : path) (a : list path) (hint : nat) (k : nat -> sorting) : sorting :=
  Compare key (nth hint a key) (fun z =>
    if right z then
      gallop_away (length a) right key a (fun ofs => hint + ofs)%nat (length a - hint) 0 1 (fun last ofs =>
        gallop_between (length a) right key a (hint + last + 1) (hint + ofs) k)
    else
      gallop_away (length a) (fun z => negb (right z)) key a (fun ofs => hint - ofs)%nat (hint + 1) 0 1 (fun last ofs =>
        gallop_between (length a) right key a (hint + 1 - ofs) (hint - last) k)).

(** TimSort.gallopLeft, TimSort.gallopRight. Not repository code; called within DefaultPathToTreeScanner.java:97. *)
Definition gallop_left := gallop (fun z => 0 <? z)%Z.

(** TimSort.gallopRight. Not repository code; called within DefaultPathToTreeScanner.java:97. *)
Definition gallop_right := gallop (fun z => 0 <=? z)%Z.

(** TimSort.MIN_MERGE, TimSort.MIN_GALLOP. Not repository code; used within DefaultPathToTreeScanner.java:97. *)
Definition MIN_MERGE : nat := 32.

(** TimSort.MIN_GALLOP. Not repository code; used within DefaultPathToTreeScanner.java:97. *)
Definition MIN_GALLOP : nat := 7.

(** TimSort.mergeLo, after the loops: [t] and [r] are what is left of the first run (in tmp) and of the second, [out] is what has been merged, in
    reverse. The field minGallop is written back. Not repository code; called within DefaultPathToTreeScanner.java:97. *)
Definition merge_lo_end (min_gallop : Z) (t r out : list path) (k : Z -> list path -> sorting) : sorting :=
  match t with
  | [] => Violation
  | [x] => k (Z.max 1 min_gallop) (rev out ++ r ++ [x])
  | _ => k (Z.max 1 min_gallop) (rev out ++ t)
  end.

(** TimSort.mergeLo, the loops. [galloping] tells which of the two inner loops is running, [count] is (count1 | count2), of which one is 0, and
    [first] tells which of the runs won last. Not repository code; called within DefaultPathToTreeScanner.java:97. *)
Fixpoint merge_lo (fuel : nat) (galloping first : bool) (count : nat) (min_gallop : Z) (t r out : list path) (k : Z -> list path -> sorting) : sorting :=
  match fuel, t, r with
  | S fuel, x :: t', y :: r' =>
      if galloping then
        gallop_right y t 0 (fun count1 =>
          let out := rev (firstn count1 t) ++ out in
          let t := skipn count1 t in
          if negb (count1 =? 0)%nat && (length t <=? 1)%nat then merge_lo_end min_gallop t r out k
          else
            let out := y :: out in
            match r' with
            | [] => merge_lo_end min_gallop t [] out k
            | _ =>
                gallop_left (hd x t) r' 0 (fun count2 =>
                  let out := rev (firstn count2 r') ++ out in
                  let r := skipn count2 r' in
                  match r with
                  | [] => merge_lo_end min_gallop t [] out k
                  | _ =>
                      let out := hd x t :: out in
                      let t := tl t in
                      if (length t =? 1)%nat then merge_lo_end min_gallop t r out k
                      else
                        let min_gallop := (min_gallop - 1)%Z in
                        if (MIN_GALLOP <=? count1)%nat || (MIN_GALLOP <=? count2)%nat then merge_lo fuel true true 0 min_gallop t r out k
                        else merge_lo fuel false true 0 (Z.max 0 min_gallop + 2) t r out k
                  end)
            end)
      else
        Compare y x (fun z =>
          if (z <? 0)%Z then
            let count := if first then 1%nat else S count in
            match r' with
            | [] => merge_lo_end min_gallop t [] (y :: out) k
            | _ => merge_lo fuel (min_gallop <=? Z.of_nat count)%Z false count min_gallop t r' (y :: out) k
            end
          else
            let count := if first then S count else 1%nat in
            if (length t' =? 1)%nat then merge_lo_end min_gallop t' r (x :: out) k
            else merge_lo fuel (min_gallop <=? Z.of_nat count)%Z true count min_gallop t' r (x :: out) k)
  | _, _, _ => Exhausted
  end.

(** TimSort.mergeLo. Not repository code; called within DefaultPathToTreeScanner.java:97. *)
Definition merge_low (min_gallop : Z) (run1 run2 : list path) (k : Z -> list path -> sorting) : sorting :=
  match run2 with
  | [] => Exhausted
  | [y] => k min_gallop (y :: run1)
  | y :: r =>
      if (length run1 =? 1)%nat then k min_gallop (y :: r ++ run1)
      else merge_lo (length run1 + length r) false true 0 min_gallop run1 r [y] k
  end.

(** TimSort.mergeHi, after the loops: [r] and [t] are what is left of the first run and of the second (in tmp), in reverse, [out] is what has been
    merged. Not repository code; called within DefaultPathToTreeScanner.java:97. *)
Definition merge_hi_end (min_gallop : Z) (r t out : list path) (k : Z -> list path -> sorting) : sorting :=
  match t with
  | [] => Violation
  | [y] => k (Z.max 1 min_gallop) (y :: rev r ++ out)
  | _ => k (Z.max 1 min_gallop) (rev t ++ out)
  end.

(** TimSort.mergeHi, the loops, as in [merge_lo]. Not repository code; called within DefaultPathToTreeScanner.java:97. *)
Fixpoint merge_hi (fuel : nat) (galloping first : bool) (count : nat) (min_gallop : Z) (r t out : list path) (k : Z -> list path -> sorting) : sorting :=
  match fuel, r, t with
  | S fuel, x :: r', y :: t' =>
      if galloping then
        gallop_right y (rev r) (length r - 1) (fun position =>
          let count1 := (length r - position)%nat in
          let out := rev (firstn count1 r) ++ out in
          let r := skipn count1 r in
          match r with
          | [] => merge_hi_end min_gallop [] t out k
          | x :: r' =>
              let out := y :: out in
              if (length t' =? 1)%nat then merge_hi_end min_gallop r t' out k
              else
                gallop_left x (rev t') (length t' - 1) (fun position =>
                  let count2 := (length t' - position)%nat in
                  let out := rev (firstn count2 t') ++ out in
                  let t := skipn count2 t' in
                  if negb (count2 =? 0)%nat && (length t <=? 1)%nat then merge_hi_end min_gallop r t out k
                  else
                    let out := x :: out in
                    match r' with
                    | [] => merge_hi_end min_gallop [] t out k
                    | _ =>
                        let min_gallop := (min_gallop - 1)%Z in
                        if (MIN_GALLOP <=? count1)%nat || (MIN_GALLOP <=? count2)%nat then merge_hi fuel true true 0 min_gallop r' t out k
                        else merge_hi fuel false true 0 (Z.max 0 min_gallop + 2) r' t out k
                    end)
          end)
      else
        Compare y x (fun z =>
          if (z <? 0)%Z then
            let count := if first then S count else 1%nat in
            match r' with
            | [] => merge_hi_end min_gallop [] t (x :: out) k
            | _ => merge_hi fuel (min_gallop <=? Z.of_nat count)%Z true count min_gallop r' t (x :: out) k
            end
          else
            let count := if first then 1%nat else S count in
            if (length t' =? 1)%nat then merge_hi_end min_gallop r t' (y :: out) k
            else merge_hi fuel (min_gallop <=? Z.of_nat count)%Z false count min_gallop r t' (y :: out) k)
  | _, _, _ => Exhausted
  end.

(** TimSort.mergeHi. Not repository code; called within DefaultPathToTreeScanner.java:97. *)
Definition merge_high (min_gallop : Z) (run1 run2 : list path) (k : Z -> list path -> sorting) : sorting :=
  match rev run1 with
  | [] => Exhausted
  | [x] => k min_gallop (run2 ++ [x])
  | x :: r =>
      if (length run2 =? 1)%nat then k min_gallop (run2 ++ rev r ++ [x])
      else merge_hi (length r + length run2) false true 0 min_gallop r (rev run2) [x] k
  end.

(** TimSort.mergeAt: merge two neighbouring runs. Not repository code; called within DefaultPathToTreeScanner.java:97. *)
Definition merge_at (min_gallop : Z) (run1 run2 : list path) (k : Z -> list path -> sorting) : sorting :=
  match run2 with
  | [] => Exhausted
  | y :: _ =>
      gallop_right y run1 0 (fun i =>
        let rest1 := skipn i run1 in
        match rest1 with
        | [] => k min_gallop (run1 ++ run2)
        | x :: _ =>
            gallop_left (last rest1 x) run2 (length run2 - 1) (fun len2 =>
              if (len2 =? 0)%nat then k min_gallop (run1 ++ run2)
              else
                (if (length rest1 <=? len2)%nat then merge_low else merge_high) min_gallop rest1 (firstn len2 run2)
                  (fun min_gallop merged => k min_gallop (firstn i run1 ++ merged ++ skipn len2 run2)))
        end)
  end.

(** TimSort.mergeCollapse. [stack] are the pending runs, the last one first. Not repository code; called within DefaultPathToTreeScanner.java:97.
    *)
Fixpoint merge_collapse (fuel : nat) (min_gallop : Z) (stack : list (list path)) (k : Z -> list (list path) -> sorting) : sorting :=
  match stack with
  | run2 :: run1 :: below =>
      match fuel with
      | O => Exhausted
      | S fuel =>
          let merge_last := merge_at min_gallop run1 run2 (fun min_gallop run => merge_collapse fuel min_gallop (run :: below) k) in
          match below with
          | run0 :: below' =>
              if (length run0 <=? length run1 + length run2)%nat ||
                 match below' with run :: _ => (length run <=? length run1 + length run0)%nat | [] => false end
              then
                if (length run0 <? length run2)%nat
                then merge_at min_gallop run0 run1 (fun min_gallop run => merge_collapse fuel min_gallop (run2 :: run :: below') k)
                else merge_last
              else if (length run2 <? length run1)%nat then k min_gallop stack else merge_last
          | [] => if (length run2 <? length run1)%nat then k min_gallop stack else merge_last
          end
      end
  | _ => k min_gallop stack
  end.

(** TimSort.mergeForceCollapse. Not repository code; called within DefaultPathToTreeScanner.java:97. *)
Fixpoint merge_force_collapse (fuel : nat) (min_gallop : Z) (stack : list (list path)) (k : list path -> sorting) : sorting :=
  match stack, fuel with
  | [run], _ => k run
  | run2 :: run1 :: below, S fuel =>
      let merge_last := merge_at min_gallop run1 run2 (fun min_gallop run => merge_force_collapse fuel min_gallop (run :: below) k) in
      match below with
      | run0 :: below' =>
          if (length run0 <? length run2)%nat
          then merge_at min_gallop run0 run1 (fun min_gallop run => merge_force_collapse fuel min_gallop (run2 :: run :: below') k)
          else merge_last
      | [] => merge_last
      end
  | _, _ => Exhausted
  end.

(** TimSort.minRunLength; [r] becomes 1 if any 1 bits are shifted off. Not repository code; called within DefaultPathToTreeScanner.java:97. *)
Fixpoint min_run_length (fuel n r : nat) : nat :=
  match fuel with
  | O => n + r
  | S fuel => if (MIN_MERGE <=? n)%nat then min_run_length fuel (Nat.div2 n) (if Nat.odd n then 1 else r)%nat else (n + r)%nat
  end.

(** TimSort.sort, the loop: find the next run in [rest], extend it to [min_run] elements, push it, merge. Not repository code; called within
    DefaultPathToTreeScanner.java:97. *)
Fixpoint sort_runs (fuel : nat) (min_run : nat) (min_gallop : Z) (stack : list (list path)) (rest : list path) : sorting :=
  match fuel with
  | O => Exhausted
  | S fuel =>
      count_run rest (fun run rest =>
        let more := (min_run - length run)%nat in
        binary_sort run (firstn more rest) (fun run =>
          merge_collapse (length stack) min_gallop (run :: stack) (fun min_gallop stack =>
            match skipn more rest with
            | [] => merge_force_collapse (length stack) min_gallop stack Sorted
            | rest => sort_runs fuel min_run min_gallop stack rest
            end)))
  end.

(** TimSort.sort. Not repository code; called within DefaultPathToTreeScanner.java:97. *)
Definition tim_sort (l : list path) : sorting :=
  if (length l <? MIN_MERGE)%nat then count_run l (fun run rest => binary_sort run rest Sorted)
  else sort_runs (length l) (min_run_length (length l) (length l) 0) (Z.of_nat MIN_GALLOP) [] l.

(** Carrying out the comparisons. DefaultPathToTreeScanner.java:97. *)
Fixpoint run_sorting (c : comparator) (s : sorting) : M (list path) :=
  match s with
  | Sorted l => ret l
  | Violation => throw ExIllegalArgument
  | Exhausted => throw ExFuel
  | Compare a b k => z <- c a b; run_sorting c (k z)
  end.

(** The sorting step of a run. DefaultPathToTreeScanner.java:94-99. *)
Definition sorted (c : comparator) (l : list path) : M (list path) := run_sorting c (tim_sort l).
