(** * Reading a printed text, line by line, as a script would *)

From Verif Require Export Printer SpecRender SpecScan.

(** The level of a line other than the first, and its label: symbols and spaces are skipped up to the first branch symbol. *)
Fixpoint read_line (tf : tree_format) (fuel : nat) (s : jstring) : option (nat * jstring) :=
  match fuel with
  | O => None
  | S fuel =>
      let n := length (tf_last tf) in
      let symbol := firstn n s in
      let rest := skipn (n + 1)%nat s in
      if (jeqb symbol (tf_last tf) || jeqb symbol (tf_non_last tf))%bool then Some (1%nat, rest)
      else if (jeqb symbol (tf_empty tf) || jeqb symbol (tf_continuation tf))%bool then
        match read_line tf fuel rest with Some (k, l) => Some (S k, l) | None => None end
      else None
  end.

Fixpoint read_lines (tf : tree_format) (l : list jstring) : option (list (nat * jstring)) :=
  match l with
  | [] => Some []
  | s :: l =>
      match read_line tf (length s) s, read_lines tf l with Some x, Some r => Some (x :: r) | _, _ => None end
  end.

(** The trees on level [d] at the beginning of the lines: what follows a line one level deeper belongs to it. *)
Fixpoint gather (fuel d : nat) (lines : list (nat * jstring)) : list dtree * list (nat * jstring) :=
  match fuel, lines with
  | S fuel, (k, l) :: rest =>
      if (k =? d)%nat then
        let (kids, rest) := gather fuel (S d) rest in
        let (siblings, rest) := gather fuel d rest in
        (DT l kids :: siblings, rest)
      else ([], lines)
  | _, _ => ([], lines)
  end.

(** The tree of labels; none if the lines do not fit together. *)
Definition read_text (tf : tree_format) (out : jstring) : option dtree :=
  match split_on c_nl out with
  | [] => None
  | root :: l =>
      match read_lines tf l with
      | Some lines => match gather (length lines) 1 lines with (kids, []) => Some (DT root kids) | _ => None end
      | None => None
      end
  end.

(** What a label says: "a/b/" are directories, "..." stands for what was left out, a file may end with a mark. *)
Fixpoint read_names (t : dtree) : outline :=
  match t with
  | DT l kids =>
      match rev (split_on c_slash l) with
      | [] :: n :: names => ODir (rev (n :: names)) (map read_names kids)
      | _ =>
          if jeqb l (js "...") then ODots
          else match rev l with
               | 42%N :: n => OFile (rev n) (js "*")
               | 63%N :: n => OFile (rev n) (js "?")
               | _ => OFile l []
               end
      end
  end.

(** The paths of directories one below the other, with these names, the first one in [base]. *)
Fixpoint steps (base : path) (names : list jstring) : list path :=
  match names with [] => [] | n :: names => child base n :: steps (child base n) names end.

(** The paths of everything in an outline that lies in [base]. *)
Fixpoint outline_paths (base : path) (t : outline) {struct t} : list path :=
  match t with
  | ODir names kids => steps base names ++ flat_map (outline_paths (fold_left child names base)) kids
  | OFile n _ => [child base n]
  | ODots => []
  end.

(** The directory a path with a name is in. *)
Definition directory_of (p : path) : path := mkPath (p_abs p) (removelast (p_names p)).

(** The paths a text tells, if it was printed for [p]. *)
Definition read_paths (tf : tree_format) (p : path) (out : jstring) : option (list path) :=
  option_map (fun t => outline_paths (directory_of p) (read_names t)) (read_text tf out).
