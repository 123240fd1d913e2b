(** * Volumes: what a Unix operating system answers about a tree of files with symbolic links.

    Not code of the repository: the calls at DefaultPathToTreeScanner.java:40, 55, 104, PathMatchers.java:555, 586, 597, 692 and PathSorts.java:27 end in
    system calls, whose search for a path is modelled here. Simplifications: every directory can be searched (but maybe not be
    listed), there are no hard links to directories and no mount points, and the current directory is given by its names from the top. *)

From Verif Require Export SpecScan.

(** A file, as seen by DefaultPathToTreeScanner.java:40, 55, 104: with its length, with its entries, or with the path it leads to. *)
Inductive node :=
| NReg (size : Z)
| NDir (listable : bool) (entries : list (jstring * node))
| NLink (target : path)
| NOther.

(** The entry with a given name, of the directory at DefaultPathToTreeScanner.java:55. *)
Fixpoint entry_named (n : jstring) (es : list (jstring * node)) : option node :=
  match es with
  | [] => None
  | (m, x) :: es' => if jeqb n m then Some x else entry_named n es'
  end.

(** What is at a place, without following links (see [search]). A place is given by the names of entries, from the top (DefaultPathToTreeScanner.java:40). *)
Fixpoint node_at (x : node) (l : list jstring) : option node :=
  match l with
  | [] => Some x
  | n :: l' => match x with
               | NDir _ es => match entry_named n es with Some y => node_at y l' | None => None end
               | _ => None
               end
  end.

(** The search for a path: the place it ends at, or [None] if it fails. From the directory at [here] the names in [rest] are followed one by one. "." stays,
    ".." goes to the directory that contains [here]. A link on the way is replaced by the path it leads to, a link at the end only if [follow]; at most
    [links] links are replaced. DefaultPathToTreeScanner.java:40, 55, 104. *)
Fixpoint search (top : node) (follow : bool) (links : nat) : list jstring -> list jstring -> option (list jstring) :=
  fix go here rest :=
    match rest with
    | [] => Some here
    | n :: rest' =>
        if jeqb n n_dot then go here rest'
        else if jeqb n n_dotdot then go (removelast here) rest'
        else match node_at top (here ++ [n]) with
             | None => None
             | Some (NDir _ _) => go (here ++ [n]) rest'
             | Some (NLink t) =>
                 match follow, rest' with
                 | false, [] => Some (here ++ [n])
                 | _, _ => match links with
                           | O => None
                           | S links' => search top follow links' (if p_abs t then [] else here) (p_names t ++ rest')
                           end
                 end
             | Some _ => match rest' with [] => Some (here ++ [n]) | _ => None end
             end
    end.

(** At most 40 links are followed in one search on Linux, for DefaultPathToTreeScanner.java:40, 55, 104. *)
Definition max_links : nat := 40.

(** Where the operating system finds a path, DefaultPathToTreeScanner.java:40, 55, 104. *)
Definition place (top : node) (follow : bool) (cwd : list jstring) (p : path) : option (list jstring) :=
  search top follow max_links [] (p_names (to_absolute cwd p)).

(** What the operating system finds there, DefaultPathToTreeScanner.java:40, 55, 104. *)
Definition found (top : node) (follow : bool) (cwd : list jstring) (p : path) : option node :=
  opt_bind (place top follow cwd p) (node_at top).

(** The answers of DefaultPathToTreeScanner.java:104, PathMatchers.java:555, 586, 597. *)
Definition node_kind (x : node) : kind :=
  match x with NReg _ => KReg | NDir _ _ => KDir | NLink _ => KLink | NOther => KOther end.

(** The answers about all paths: DefaultPathToTreeScanner.java:40, 55, 104, PathMatchers.java:555, 586, 597, PathSorts.java:27. Reading the length of a
    directory is unspecified in Java; Linux file systems often answer 4096. *)
Definition volume_disk (top : node) (cwd : list jstring) : disk := {|
  d_kind := fun p => option_map node_kind (found top false cwd p);
  d_attr := fun p => option_map node_kind (found top true cwd p);
  d_list := fun p => match found top true cwd p with Some (NDir true es) => Some (map fst es) | _ => None end;
  d_length := fun p => match found top true cwd p with Some (NReg n) => n | Some (NDir _ _) => 4096 | _ => 0 end%Z
|}.

(** The world of a volume that changes: [vol h] is the tree of files at the moment at which [h] is what happened so far. DefaultPathToTreeScanner.java:40, 55,
    104, PathMatchers.java:555-597, 692. *)
Definition moving_world (vol : hist -> node) (j : jvm) : world := {|
  w_lstat := fun h p => d_kind (volume_disk (vol h) (jv_cwd j)) p;
  w_stat := fun h p => d_attr (volume_disk (vol h) (jv_cwd j)) p;
  w_length := fun h p => d_length (volume_disk (vol h) (jv_cwd j)) p;
  w_open := fun h p => opt_bind (d_list (volume_disk (vol h) (jv_cwd j)) p) (fun l => Some (mkDirlist l false));
  w_close_ok := fun _ _ => true;
  w_jvm := j
|}.

(** The world of a volume that does not change. DefaultPathToTreeScanner.java:40, 55, 104, PathMatchers.java:555-597, 692. *)
Definition volume_world (top : node) (j : jvm) : world := moving_world (fun _ => top) j.
