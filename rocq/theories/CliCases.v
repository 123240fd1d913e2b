(** * Concrete runs of the command line used by the examples beside the theorems *)

From Verif Require Export SpecCli Cases.
Close Scope Z_scope.

(** Options files: their paths and what reading them gives; everything else in [others] exists too. *)
Definition case_files (l : list (path * loaded)) (others : list path) : files :=
  let find p := List.find (fun e => path_eqb (fst e) p) l in
  mkFiles (fun p => match find p with Some _ => true | None => path_inb p others end)
          (fun p => match find p with Some _ => true | None => false end)
          (fun p => match find p with Some _ => true | None => false end)
          (fun p => match find p with Some (_, d) => d | None => LoadFails end).

(** The user's home is /r, the executable is in /opt/bin. *)
Definition case_cli (w : world) (fs : files) : cworld := {|
  cw_world := w;
  cw_exists := fun _ => f_exists fs;
  cw_is_file := fun _ => f_is_file fs;
  cw_can_read := fun _ => f_can_read fs;
  cw_load := fun _ => f_load fs;
  cw_home := pth "/r";
  cw_exe_dir := pth "/opt/bin";
  cw_linesep := [10%N];
  cw_bad_spec := fun _ => true;
  cw_message := fun e => match e with XLibrary (ExPatternSyntax g) => js "bad glob " ++ g | _ => js "message" end;
  cw_violations := fun _ => js "  -> violation";
  cw_stack_trace := fun _ => js "stack trace"
|}.

Lemma case_steady w fs : steady_files (case_cli w fs) fs.
Proof. intros s p. repeat split. Qed.

Definition empty_document : xoptions := mkXOptions None None None None None None.
(** Show the children of the target only. *)
Definition shallow_document : xoptions := mkXOptions None None (Some 1%Z) None None None.
(** A document using every kind of field and matcher. *)
Definition rich_document : xoptions :=
  mkXOptions (Some false) (Some true) (Some 5%Z)
    (Some (XDynamic (Some [Some (mkXItem (Some (-1)%Z) (XmName (Some (js "src")))); Some (mkXItem (Some 2%Z) XmTrue)])))
    (Some (mkXFilter XmNull (XmAnyOf (Some [XmName (Some (js "*.java")); XmNoneOf (Some [XmPath (Some (js "b.txt")); XmFalse])]))))
    (Some [Some (mkXExtension (Some (js " // here")) (XmAllOf (Some [XmPath (Some (js "src")); XmTrue])))]).
(** No limit, then a limit, both for every directory. *)
Definition limits_document : xoptions :=
  mkXOptions None None None
    (Some (XDynamic (Some [Some (mkXItem (Some (-1)%Z) XmTrue); Some (mkXItem (Some 3%Z) XmTrue)]))) None None.
Definition bad_glob_document : xoptions :=
  mkXOptions None None None None (Some (mkXFilter XmNull (XmName (Some (js "["))))) None.
(** A document that is not valid. *)
Definition invalid_document : xoptions := mkXOptions None None None (Some (XStatic None)) None None.

Definition target_args : cli_args := mkArgs (Some (pth "src/..")) None false.
Definition explicit_args (s : string) : cli_args := mkArgs None (Some (pth s)) false.

(** Directories with names that contain '%'. *)
Definition percent_table (name : jstring) : table := [
  ([], IDir [js "home"]); (names_of "home", IDir [js "u"]);
  (names_of "home/u", IDir [name]);
  (names_of "home/u" ++ [name], IReg 1)
].
Definition percent_world (name : string) : world := static_world (table_fs (percent_table (js name))) sample_jvm.
Definition home_files : files := case_files [] [pth "/home/u"].

(** Decode texts for reading. *)
Definition readable (s : jstring) : string := string_of_list_ascii (map (fun c => if (c <? 256)%N then ascii_of_N c else "#"%char) s).

(** A directory below one whose name contains '%'. *)
Definition deep_table : table := [
  ([], IDir [js "100%"]); ([js "100%"], IDir [js "d"]); ([js "100%"; js "d"], IDir [js "x"]); ([js "100%"; js "d"; js "x"], IReg 1)
].
Definition deep_world : world := static_world (table_fs deep_table) sample_jvm.
Definition deep_files : files := case_files [] [pth "/100%/d"].

(** A directory whose name has a specifier that needs no argument. *)
Definition newline_table : table := [
  ([], IDir [js "50%n"]); ([js "50%n"], IDir [js "x"]); ([js "50%n"; js "x"], IReg 1)
].
Definition newline_world : world := static_world (table_fs newline_table) sample_jvm.
Definition newline_files : files := case_files [] [pth "/50%n"].
