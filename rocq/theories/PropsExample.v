(** * The example programs *)

From Verif Require Import ExampleCases ExampleFacts ProjectFacts.

(** C119. On a usual machine the program returns exactly the text that shows the tree it wants to see for its resource directory: the lines, the
    depth, which files and directories, in which order, how many children, with which emojis and what is written after each name. There is such
    a text if what is there can be read. *)

(** BasicUsage: the whole tree with box-drawing lines, siblings in name order. *)
Theorem C119_basic_usage : forall w dk, usual w dk ->
  prints_wish basic_usage_run w dk (resource w (js "base")) basic_wish.
Proof. exact basic_usage_prints. Qed.
Print Assumptions C119_basic_usage.

Example C119_case_basic_usage : usual workshop_world workshop_disk /\
  all_can_be_read workshop_disk (mkPath true (resource workshop_world (js "base"))) /\
  option_map readable (at_workshop basic_usage_run) = Some "base/
## a/
#  ## c.pdf
## b.txt"%string.
Proof. split; [exact workshop_usual|split; [apply workshop_readable; vm_compute; reflexivity|vm_compute; reflexivity]]. Qed.

(** FileTreeFormat: the same with the lines of CLASSIC_ASCII. *)
Theorem C119_tree_format : forall w dk, usual w dk ->
  prints_wish tree_format_run w dk (resource w (js "tree_format")) format_wish.
Proof. exact tree_format_prints. Qed.
Print Assumptions C119_tree_format.

Example C119_case_tree_format : usual workshop_world workshop_disk /\
  all_can_be_read workshop_disk (mkPath true (resource workshop_world (js "tree_format"))) /\
  option_map readable (at_workshop tree_format_run) = Some "tree_format/
|-- d/
#   `-- e
`-- f"%string.
Proof. split; [exact workshop_usual|split; [apply workshop_readable; vm_compute; reflexivity|vm_compute; reflexivity]]. Qed.

(** MaxDepth: no deeper than three levels. *)
Theorem C119_max_depth : forall w dk, usual w dk ->
  prints_wish max_depth_run w dk (resource w (js "max_depth")) depth_wish.
Proof. exact max_depth_prints. Qed.
Print Assumptions C119_max_depth.

Example C119_case_max_depth : usual workshop_world workshop_disk /\
  all_can_be_read workshop_disk (mkPath true (resource workshop_world (js "max_depth"))) /\
  option_map readable (at_workshop max_depth_run) = Some "max_depth/
## l1/
   ## l2/
      ## l3/
         ## ..."%string.
Proof. split; [exact workshop_usual|split; [apply workshop_readable; vm_compute; reflexivity|vm_compute; reflexivity]]. Qed.

(** CompactDirectories: chains of single directories on one line. *)
Theorem C119_compact_directories : forall w dk, usual w dk ->
  prints_wish compact_directories_run w dk (resource w (js "single_directory_child")) compact_wish.
Proof. exact compact_directories_prints. Qed.
Print Assumptions C119_compact_directories.

Example C119_case_compact_directories : usual workshop_world workshop_disk /\
  all_can_be_read workshop_disk (mkPath true (resource workshop_world (js "single_directory_child"))) /\
  option_map readable (at_workshop compact_directories_run) = Some "single_directory_child/
## this/is/it/
   ## file1
   ## file2"%string.
Proof. split; [exact workshop_usual|split; [apply workshop_readable; vm_compute; reflexivity|vm_compute; reflexivity]]. Qed.

(** ChildLimitStatic: at most three children per directory. *)
Theorem C119_child_limit_static : forall w dk, usual w dk ->
  prints_wish child_limit_static_run w dk (resource w (js "child_limit_static")) three_wish.
Proof. exact child_limit_static_prints. Qed.
Print Assumptions C119_child_limit_static.

Example C119_case_child_limit_static : usual workshop_world workshop_disk /\
  all_can_be_read workshop_disk (mkPath true (resource workshop_world (js "child_limit_static"))) /\
  option_map readable (at_workshop child_limit_static_run) = Some "child_limit_static/
## a1
## a2
## a3
## ..."%string.
Proof. split; [exact workshop_usual|split; [apply workshop_readable; vm_compute; reflexivity|vm_compute; reflexivity]]. Qed.

(** ChildLimitDynamic: no child of directories called node_modules. *)
Theorem C119_child_limit_dynamic : forall w dk, usual w dk ->
  prints_wish child_limit_dynamic_run w dk (resource w (js "child_limit_dynamic")) modules_wish.
Proof. exact child_limit_dynamic_prints. Qed.
Print Assumptions C119_child_limit_dynamic.

Example C119_case_child_limit_dynamic : usual workshop_world workshop_disk /\
  all_can_be_read workshop_disk (mkPath true (resource workshop_world (js "child_limit_dynamic"))) /\
  option_map readable (at_workshop child_limit_dynamic_run) = Some "child_limit_dynamic/
## a
## node_modules/
   ## ..."%string.
Proof. split; [exact workshop_usual|split; [apply workshop_readable; vm_compute; reflexivity|vm_compute; reflexivity]]. Qed.

(** Emojis: the default emojis. *)
Theorem C119_emojis : forall w dk, usual w dk ->
  prints_wish emojis_run w dk (resource w (js "emojis")) emojis_wish.
Proof. exact emojis_prints. Qed.
Print Assumptions C119_emojis.

Example C119_case_emojis : usual workshop_world workshop_disk /\
  all_can_be_read workshop_disk (mkPath true (resource workshop_world (js "emojis"))) /\
  option_map readable (at_workshop emojis_run) = Some "## emojis/
## # A.java
## ## Dockerfile
## ## x"%string.
Proof. split; [exact workshop_usual|split; [apply workshop_readable; vm_compute; reflexivity|vm_compute; reflexivity]]. Qed.

(** Filtering: directories whose name does not end with "no_java_file" and files whose name ends with ".java". *)
Theorem C119_filtering : forall w dk, usual w dk ->
  prints_wish filtering_run w dk (resource w (js "filtering")) java_wish.
Proof. exact filtering_prints. Qed.
Print Assumptions C119_filtering.

Example C119_case_filtering : usual workshop_world workshop_disk /\
  all_can_be_read workshop_disk (mkPath true (resource workshop_world (js "filtering"))) /\
  option_map readable (at_workshop filtering_run) = Some "filtering/
## A.java
## dir/
   ## C.java"%string.
Proof. split; [exact workshop_usual|split; [apply workshop_readable; vm_compute; reflexivity|vm_compute; reflexivity]]. Qed.

(** Sorting: directories before anything else, then name order. *)
Theorem C119_sorting : forall w dk, usual w dk ->
  prints_wish sorting_run w dk (resource w (js "sorting")) (sorting_wish dk).
Proof. exact sorting_prints. Qed.
Print Assumptions C119_sorting.

Example C119_case_sorting : usual workshop_world workshop_disk /\
  all_can_be_read workshop_disk (mkPath true (resource workshop_world (js "sorting"))) /\
  option_map readable (at_workshop sorting_run) = Some "sorting/
## b/
#  ## c
## a"%string.
Proof. split; [exact workshop_usual|split; [apply workshop_readable; vm_compute; reflexivity|vm_compute; reflexivity]]. Qed.

(** LineExtension: the comments of the listed directories and of files whose name ends with ".properties". *)
Theorem C119_line_extension : forall w dk, usual w dk ->
  prints_wish line_extension_run w dk (resource w (js "line_extension")) (comments_wish (resource w (js "line_extension"))).
Proof. exact line_extension_prints. Qed.
Print Assumptions C119_line_extension.

Example C119_case_line_extension : usual workshop_world workshop_disk /\
  all_can_be_read workshop_disk (mkPath true (resource workshop_world (js "line_extension"))) /\
  option_map readable (at_workshop line_extension_run) = Some "line_extension/
## src/
   ## main/
      ## java/
         ## api/			// All API code: controllers, etc.
         #  ## C.java
         ## app.properties	// Config file"%string.
Proof. split; [exact workshop_usual|split; [apply workshop_readable; vm_compute; reflexivity|vm_compute; reflexivity]]. Qed.

(** C120. ProjectStructure, run in a module directory [m] of the project at the names [T], on a disk where every directory can be listed: the
    directories that contain the main class, somewhere, or are not excluded; of the core module's files the main class alone; the three modules
    first; the comments. What is excluded: hidden names, target and src of the project itself, what is in the source directories of its
    modules. *)
Theorem C120_project_structure : forall w dk T m, usual w dk ->
  jv_cwd (w_jvm w) = T ++ [m] -> T <> [] -> whole_disk_readable dk ->
  prints_wish project_structure_run w dk T (project_wish dk T).
Proof. exact project_structure_prints. Qed.
Print Assumptions C120_project_structure.

Example C120_case : usual workshop_world workshop_disk /\
  jv_cwd (w_jvm workshop_world) = names_of "h/prj" ++ [js "jfiletreeprettyprinter-examples"] /\ names_of "h/prj" <> [] /\
  whole_disk_readable workshop_disk /\ all_can_be_read workshop_disk (mkPath true (names_of "h/prj")) /\
  option_map readable (at_workshop project_structure_run) = Some "## prj/
## ## jfiletreeprettyprinter-core/	// The Java lib
#  ## ## src/main/java/io/
#     ## # FileTreePrettyPrinter.java	// Lib main entry point
## ## jfiletreeprettyprinter-examples/	// Some examples
#  ## ...
## ## jfiletreeprettyprinter-cli/	// Everything to build the executable
#  ## ...
## ## assets/
#  ## ### project-structure.png	// This image
## ## docs/
#  ## ## Release-process.md
## ## README.md		// You're reading at this!"%string.
Proof.
  split; [exact workshop_usual|]. split; [reflexivity|]. split; [discriminate|]. split; [exact workshop_all_readable|].
  split; [apply workshop_readable; vm_compute; reflexivity|]. lazy. reflexivity.
Qed.
