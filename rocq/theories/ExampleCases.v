(** * A small copy of the project on a disk, for the properties about the example programs *)

From Verif Require Export SpecExample DocCases.
From Verif Require Import PathFacts ExampleFacts ProjectFacts ScanFacts SortFacts MetaFacts.
Close Scope Z_scope.

Definition workshop_table : table := [
  ([], IDir [js "h"]);
  (names_of "h", IDir [js "prj"]);
  (names_of "h/prj", IDir [js "README.md"; js ".gitignore"; js "assets"; js "docs"; js "target"; js "jfiletreeprettyprinter-core"; js "jfiletreeprettyprinter-cli"; js "jfiletreeprettyprinter-examples"]);
  (names_of "h/prj/.gitignore", IReg 1);
  (names_of "h/prj/README.md", IReg 1);
  (names_of "h/prj/assets", IDir [js "project-structure.png"]);
  (names_of "h/prj/assets/project-structure.png", IReg 1);
  (names_of "h/prj/docs", IDir [js "Release-process.md"]);
  (names_of "h/prj/docs/Release-process.md", IReg 1);
  (names_of "h/prj/jfiletreeprettyprinter-cli", IDir [js "pom.xml"]);
  (names_of "h/prj/jfiletreeprettyprinter-cli/pom.xml", IReg 1);
  (names_of "h/prj/jfiletreeprettyprinter-core", IDir [js "pom.xml"; js "src"]);
  (names_of "h/prj/jfiletreeprettyprinter-core/pom.xml", IReg 1);
  (names_of "h/prj/jfiletreeprettyprinter-core/src", IDir [js "main"]);
  (names_of "h/prj/jfiletreeprettyprinter-core/src/main", IDir [js "java"]);
  (names_of "h/prj/jfiletreeprettyprinter-core/src/main/java", IDir [js "io"]);
  (names_of "h/prj/jfiletreeprettyprinter-core/src/main/java/io", IDir [js "FileTreePrettyPrinter.java"; js "Other.java"]);
  (names_of "h/prj/jfiletreeprettyprinter-core/src/main/java/io/FileTreePrettyPrinter.java", IReg 1);
  (names_of "h/prj/jfiletreeprettyprinter-core/src/main/java/io/Other.java", IReg 1);
  (names_of "h/prj/jfiletreeprettyprinter-examples", IDir [js "src"]);
  (names_of "h/prj/jfiletreeprettyprinter-examples/src", IDir [js "main"]);
  (names_of "h/prj/jfiletreeprettyprinter-examples/src/main", IDir [js "resources"]);
  (names_of "h/prj/jfiletreeprettyprinter-examples/src/main/resources", IDir [js "base"; js "tree_format"; js "max_depth"; js "single_directory_child"; js "child_limit_static"; js "child_limit_dynamic"; js "emojis"; js "filtering"; js "sorting"; js "line_extension"]);
  (names_of "h/prj/jfiletreeprettyprinter-examples/src/main/resources/base", IDir [js "b.txt"; js "a"]);
  (names_of "h/prj/jfiletreeprettyprinter-examples/src/main/resources/base/a", IDir [js "c.pdf"]);
  (names_of "h/prj/jfiletreeprettyprinter-examples/src/main/resources/base/a/c.pdf", IReg 1);
  (names_of "h/prj/jfiletreeprettyprinter-examples/src/main/resources/base/b.txt", IReg 1);
  (names_of "h/prj/jfiletreeprettyprinter-examples/src/main/resources/child_limit_dynamic", IDir [js "a"; js "node_modules"]);
  (names_of "h/prj/jfiletreeprettyprinter-examples/src/main/resources/child_limit_dynamic/a", IReg 1);
  (names_of "h/prj/jfiletreeprettyprinter-examples/src/main/resources/child_limit_dynamic/node_modules", IDir [js "x"; js "y"]);
  (names_of "h/prj/jfiletreeprettyprinter-examples/src/main/resources/child_limit_dynamic/node_modules/x", IReg 1);
  (names_of "h/prj/jfiletreeprettyprinter-examples/src/main/resources/child_limit_dynamic/node_modules/y", IReg 1);
  (names_of "h/prj/jfiletreeprettyprinter-examples/src/main/resources/child_limit_static", IDir [js "a1"; js "a2"; js "a3"; js "a4"]);
  (names_of "h/prj/jfiletreeprettyprinter-examples/src/main/resources/child_limit_static/a1", IReg 1);
  (names_of "h/prj/jfiletreeprettyprinter-examples/src/main/resources/child_limit_static/a2", IReg 1);
  (names_of "h/prj/jfiletreeprettyprinter-examples/src/main/resources/child_limit_static/a3", IReg 1);
  (names_of "h/prj/jfiletreeprettyprinter-examples/src/main/resources/child_limit_static/a4", IReg 1);
  (names_of "h/prj/jfiletreeprettyprinter-examples/src/main/resources/emojis", IDir [js "A.java"; js "Dockerfile"; js "x"]);
  (names_of "h/prj/jfiletreeprettyprinter-examples/src/main/resources/emojis/A.java", IReg 1);
  (names_of "h/prj/jfiletreeprettyprinter-examples/src/main/resources/emojis/Dockerfile", IReg 1);
  (names_of "h/prj/jfiletreeprettyprinter-examples/src/main/resources/emojis/x", IReg 1);
  (names_of "h/prj/jfiletreeprettyprinter-examples/src/main/resources/filtering", IDir [js "A.java"; js "B.ts"; js "dir"; js "no_java_file"]);
  (names_of "h/prj/jfiletreeprettyprinter-examples/src/main/resources/filtering/A.java", IReg 1);
  (names_of "h/prj/jfiletreeprettyprinter-examples/src/main/resources/filtering/B.ts", IReg 1);
  (names_of "h/prj/jfiletreeprettyprinter-examples/src/main/resources/filtering/dir", IDir [js "C.java"]);
  (names_of "h/prj/jfiletreeprettyprinter-examples/src/main/resources/filtering/dir/C.java", IReg 1);
  (names_of "h/prj/jfiletreeprettyprinter-examples/src/main/resources/filtering/no_java_file", IDir [js "D.java"]);
  (names_of "h/prj/jfiletreeprettyprinter-examples/src/main/resources/filtering/no_java_file/D.java", IReg 1);
  (names_of "h/prj/jfiletreeprettyprinter-examples/src/main/resources/line_extension", IDir [js "src"]);
  (names_of "h/prj/jfiletreeprettyprinter-examples/src/main/resources/line_extension/src", IDir [js "main"]);
  (names_of "h/prj/jfiletreeprettyprinter-examples/src/main/resources/line_extension/src/main", IDir [js "java"]);
  (names_of "h/prj/jfiletreeprettyprinter-examples/src/main/resources/line_extension/src/main/java", IDir [js "api"; js "app.properties"]);
  (names_of "h/prj/jfiletreeprettyprinter-examples/src/main/resources/line_extension/src/main/java/api", IDir [js "C.java"]);
  (names_of "h/prj/jfiletreeprettyprinter-examples/src/main/resources/line_extension/src/main/java/api/C.java", IReg 1);
  (names_of "h/prj/jfiletreeprettyprinter-examples/src/main/resources/line_extension/src/main/java/app.properties", IReg 1);
  (names_of "h/prj/jfiletreeprettyprinter-examples/src/main/resources/max_depth", IDir [js "l1"]);
  (names_of "h/prj/jfiletreeprettyprinter-examples/src/main/resources/max_depth/l1", IDir [js "l2"]);
  (names_of "h/prj/jfiletreeprettyprinter-examples/src/main/resources/max_depth/l1/l2", IDir [js "l3"]);
  (names_of "h/prj/jfiletreeprettyprinter-examples/src/main/resources/max_depth/l1/l2/l3", IDir [js "l4"]);
  (names_of "h/prj/jfiletreeprettyprinter-examples/src/main/resources/max_depth/l1/l2/l3/l4", IReg 1);
  (names_of "h/prj/jfiletreeprettyprinter-examples/src/main/resources/single_directory_child", IDir [js "this"]);
  (names_of "h/prj/jfiletreeprettyprinter-examples/src/main/resources/single_directory_child/this", IDir [js "is"]);
  (names_of "h/prj/jfiletreeprettyprinter-examples/src/main/resources/single_directory_child/this/is", IDir [js "it"]);
  (names_of "h/prj/jfiletreeprettyprinter-examples/src/main/resources/single_directory_child/this/is/it", IDir [js "file1"; js "file2"]);
  (names_of "h/prj/jfiletreeprettyprinter-examples/src/main/resources/single_directory_child/this/is/it/file1", IReg 1);
  (names_of "h/prj/jfiletreeprettyprinter-examples/src/main/resources/single_directory_child/this/is/it/file2", IReg 1);
  (names_of "h/prj/jfiletreeprettyprinter-examples/src/main/resources/sorting", IDir [js "a"; js "b"]);
  (names_of "h/prj/jfiletreeprettyprinter-examples/src/main/resources/sorting/a", IReg 1);
  (names_of "h/prj/jfiletreeprettyprinter-examples/src/main/resources/sorting/b", IDir [js "c"]);
  (names_of "h/prj/jfiletreeprettyprinter-examples/src/main/resources/sorting/b/c", IReg 1);
  (names_of "h/prj/jfiletreeprettyprinter-examples/src/main/resources/tree_format", IDir [js "f"; js "d"]);
  (names_of "h/prj/jfiletreeprettyprinter-examples/src/main/resources/tree_format/d", IDir [js "e"]);
  (names_of "h/prj/jfiletreeprettyprinter-examples/src/main/resources/tree_format/d/e", IReg 1);
  (names_of "h/prj/jfiletreeprettyprinter-examples/src/main/resources/tree_format/f", IReg 1);
  (names_of "h/prj/target", IDir [js "out.txt"]);
  (names_of "h/prj/target/out.txt", IReg 1)
].

(** The current directory is that of the examples module. *)
Definition workshop_jvm : jvm := mkJvm (names_of "h/prj/jfiletreeprettyprinter-examples") (map ascii_lower) ascii_lower jdk_glob.
Definition workshop_world : world := static_world (table_fs workshop_table) workshop_jvm.
Definition workshop_disk : disk := static_disk (table_fs workshop_table) workshop_jvm.
Definition workshop_paths : list path := map (fun e => mkPath true (fst e)) workshop_table.

Lemma workshop_usual : usual workshop_world workshop_disk.
Proof.
  split.
  - apply static_steady.
  - apply table_distinct. vm_compute. reflexivity.
  - apply table_real. vm_compute. reflexivity.
  - apply all_real. vm_compute. reflexivity.
  - intro g. reflexivity.
  - exact unix_lower.
Qed.

Lemma workshop_readable r : path_inb r workshop_paths = true -> all_can_be_read workshop_disk r.
Proof.
  intro H. apply (closed_readable _ _ workshop_paths); [vm_compute; reflexivity|vm_compute; reflexivity|now apply path_inb_In].
Qed.

(** A table that has an entry for every name listed. *)
Definition table_closed (t : table) : bool :=
  forallb (fun e => match snd e with
                    | IDir l => forallb (fun n => realb n && match table_fs t (fst e ++ [n]) with Some _ => true | None => false end) l
                    | IDenied => false
                    | _ => true
                    end) t.

Lemma child_location cwd p n : plain n -> fs_names cwd (child p n) = fs_names cwd p ++ [n].
Proof.
  intro Hn. unfold fs_names. replace (p_names (to_absolute cwd (child p n))) with (p_names (to_absolute cwd p) ++ [n]).
  - rewrite !norm_names_stack, nstack_app. cbn [fold_left]. rewrite norm_step_plain by exact Hn. reflexivity.
  - unfold to_absolute, child. destruct p as [[] l]; cbn; [reflexivity|now rewrite app_assoc].
Qed.

Lemma table_readable t j : table_closed t = true -> whole_disk_readable (static_disk (table_fs t) j).
Proof.
  intros H p Hd. unfold is_dir in Hd. cbn in *. unfold fs_lookup in *.
  destruct (table_fs t (fs_names (jv_cwd j) p)) as [i|] eqn:E; [|discriminate].
  pose proof (table_fs_in _ _ _ E) as Hin. unfold table_closed in H. rewrite forallb_forall in H. specialize (H _ Hin). cbn in H, Hd.
  destruct i; try discriminate. exists entries. split; [reflexivity|]. intros n Hn.
  rewrite forallb_forall in H. specialize (H n Hn). apply andb_prop in H as [Hr H]. apply realb_real in Hr.
  rewrite child_location by (split; apply Hr). destruct (table_fs t (_ ++ [n])); [discriminate|discriminate].
Qed.

Lemma workshop_all_readable : whole_disk_readable workshop_disk.
Proof. apply table_readable. vm_compute. reflexivity. Qed.

(** What a program prints there. *)
Definition at_workshop (m : M jstring) : option jstring := match m workshop_world [] with (Ok out, _) => Some out | _ => None end.

Lemma workshop_shows m T a out : prints_wish m workshop_world workshop_disk T a -> at_workshop m = Some out ->
  shows_wish (map ascii_lower) workshop_disk T a out.
Proof.
  intros [H _] E. apply (H [] out). unfold at_workshop in E. destruct (m workshop_world []) as [[o|] h'] eqn:Em; try discriminate.
  injection E as <-. now exists h'.
Qed.
