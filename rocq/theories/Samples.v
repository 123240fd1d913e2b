(** * Concrete file systems and options used by the examples beside the theorems (tests, not proofs). *)

From Verif Require Export Printer.

Definition table := list (list jstring * inode).

Definition table_fs (t : table) : fsys :=
  fun ns => match find (fun e => names_eqb (fst e) ns) t with Some (_, i) => Some i | None => None end.

Definition names_of (s : string) : list jstring := parse_names (js s).
Definition pth (s : string) : path := path_of (js s).

Definition ascii_lower (c : jchar) : jchar := if ((65 <=? c) && (c <=? 90))%N then (c + 32)%N else c.

(** A JVM whose current directory is /home/u, ASCII case mappings, and only one non-trivial glob "*.java". *)
Definition sample_glob (g : jstring) : option (path -> bool) :=
  if jeqb g (js "*.java")
  then Some (fun p => match p_names p with [n] => jsuffixb (js ".java") n | _ => false end)
  else if jeqb g (js "[") then None else Some (fun p => jeqb (path_str p) g).

Definition sample_jvm : jvm := {|
  jv_cwd := names_of "home/u";
  jv_lower := map ascii_lower;
  jv_fold := ascii_lower;
  jv_glob := sample_glob
|}.

Definition sample_table : table := [
  ([], IDir [js "home"; js "r"]);
  (names_of "home", IDir [js "u"]);
  (names_of "home/u", IDir [js "Zoo"; js "b.txt"; js "a"; js "src"; js "link"]);
  (names_of "home/u/Zoo", IReg 0);
  (names_of "home/u/b.txt", IReg 12);
  (names_of "home/u/a", IDir []);
  (names_of "home/u/src", IDir [js "main"]);
  (names_of "home/u/src/main", IDir [js "java"]);
  (names_of "home/u/src/main/java", IDir [js "B.java"; js "A.java"]);
  (names_of "home/u/src/main/java/A.java", IReg 3);
  (names_of "home/u/src/main/java/B.java", IReg 4);
  (names_of "home/u/link", ILink (Some TDir));
  (names_of "r", IDir [js "x"]);
  (names_of "r/x", ILink None)
].

Definition sample_fs : fsys := table_fs sample_table.
Definition sample_world : world := static_world sample_fs sample_jvm.

(** Decode a result for reading. *)
Definition show (r : res jstring * hist) : res string :=
  match fst r with
  | Ok s => Ok (string_of_list_ascii (map (fun c => if (c <? 256)%N then ascii_of_N c else "#"%char) s))
  | Throw e => Throw e
  end.
