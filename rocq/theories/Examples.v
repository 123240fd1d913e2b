(** * Model of the example programs

    Paths below are relative to jfiletreeprettyprinter-examples/src/main/java/io/github/computerdaddyguy/jfiletreeprettyprinter/example.
    Each program is its [run]; [main] prints what [run] returns. *)

From Verif Require Export Printer ExtOptions.

(** [FileTreePrettyPrinter.builder().customizeOptions(options -> body).build()] (FileTreePrettyPrinterBuilder.java:37-39, 46-50, 71-76)
    and what is done with the printer. An exception of a setter ends the program. *)
Definition customized (body : list setter) (use : options -> M jstring) : M jstring :=
  j <- get_jvm;
  match set_all (jv_lower j) body default_options with
  | (o, None) => use o
  | (_, Some e) => throw e
  end.

(** [prettyPrint("src/main/resources/" + name)], FileTreePrettyPrinter.java:34-40. *)
Definition prints_resource (name : jstring) (o : options) : M jstring := pretty_print_string o (js "src/main/resources/" ++ name).

(** BasicUsage.java:11-14; FileTreePrettyPrinter.java:47-49. *)
Definition basic_usage_run : M jstring := prints_resource (js "base") default_options.

(** FileTreeFormat.java:12-17. *)
Definition tree_format_run : M jstring :=
  customized [SetTreeFormat (Some CLASSIC_ASCII)] (prints_resource (js "tree_format")).

(** Filtering.java:12-25. *)
Definition filtering_run : M jstring :=
  let exclude_dir_with_no_java_files := pm_not (pm_name_ending_with (js "no_java_file")) in
  let has_java_extension := pm_extension (js "java") in
  customized [SetDirFilter (Some exclude_dir_with_no_java_files); SetFileFilter (Some has_java_extension)]
    (prints_resource (js "filtering")).

(** MaxDepth.java:11-16. *)
Definition max_depth_run : M jstring := customized [SetMaxDepth 3] (prints_resource (js "max_depth")).

(** ChildLimitStatic.java:11-16. *)
Definition child_limit_static_run : M jstring := customized [SetChildLimit 3] (prints_resource (js "child_limit_static")).

(** ChildLimitDynamic.java:13-22. *)
Definition child_limit_dynamic_run : M jstring :=
  let child_limit := limit_call (limit_run (limit_start UNLIMITED)
    [LOp (LSetDefault UNLIMITED); LOp (LAddMatcher (pm_name (js "node_modules")) 0); LBuild]) 0 in
  customized [SetChildLimitFn (Some child_limit)] (prints_resource (js "child_limit_dynamic")).

(** Sorting.java:12-17. *)
Definition sorting_run : M jstring := customized [SetSort (Some DIRECTORY_FIRST)] (prints_resource (js "sorting")).

(** Emojis.java:11-16. *)
Definition emojis_run : M jstring := customized [SetDefaultEmojis] (prints_resource (js "emojis")).

(** CompactDirectories.java:11-16. *)
Definition compact_directories_run : M jstring := customized [SetCompact true] (prints_resource (js "single_directory_child")).

(** LineExtension.java:15-31; the path is printed as a [Path]. *)
Definition line_extension_run : M jstring :=
  let printed_path := path_of (js "src/main/resources/line_extension") in
  let tabs : jstring := [9; 9; 9]%N in
  api <- pm_relative_path_glob printed_path (js "src/main/java/api");
  domain <- pm_relative_path_glob printed_path (js "src/main/java/domain");
  infra <- pm_relative_path_glob printed_path (js "src/main/java/infra");
  api2 <- pm_relative_path_glob printed_path (js "src/main/java/api");
  properties <- pm_name_glob (js "*.properties");
  let line_extension := ext_call (ext_run ext_start [
    XOp (XAddMatcher api (Some (tabs ++ js "// All API code: controllers, etc.")));
    XOp (XAddMatcher domain (Some (tabs ++ js "// All domain code: value objects, etc.")));
    XOp (XAddMatcher infra (Some (tabs ++ js "// All infra code: database, email service, etc.")));
    XOp (XAddMatcher api2 (Some (tabs ++ js "// All API code: controllers, etc.")));
    XOp (XAddMatcher properties (Some ([9%N] ++ js "// Config file")));
    XBuild]) 0 in
  customized [SetLineExtension (Some line_extension)] (fun o => pretty_print o printed_path).

(** [PathMatchers.anyOf], [noneOf] with the exception they may throw. ../options/PathMatchers.java:174-176, 191-193. *)
Definition any_of (l : list matcher) : M matcher := lift_res (pm_any_of (map Some l)).

(** ../options/PathMatchers.java:131-133, 148-150. *)
Definition none_of (l : list matcher) : M matcher := lift_res (pm_none_of (map Some l)).

(** ProjectStructure.java:49-157, [has_main_class] for the matcher of line 69. The matcher made at 92-98 is not used. *)
Definition project_structure_with (has_main_class : matcher) : M jstring :=
  let project_folder := path_of (js "..") in
  (* 68-77 *)
  target <- pm_relative_path_glob project_folder (js "target");
  src <- pm_relative_path_glob project_folder (js "src");
  sources <- pm_relative_path_glob project_folder (js "*/src/**");
  not_excluded <- none_of [pm_name_starting_with (js "."); target; src; sources];
  dir_filter <- any_of [has_main_class; not_excluded];
  (* 84-90 *)
  main_entry <- pm_absolute_path_glob (js "**/jfiletreeprettyprinter-core/**/FileTreePrettyPrinter.java");
  in_core <- pm_absolute_path_glob (js "**/jfiletreeprettyprinter-core/**");
  others <- none_of [in_core; pm_name_starting_with (js ".")];
  file_filter <- any_of [main_entry; others];
  unused <- pm_absolute_path_glob (js "**/jfiletreeprettyprinter-core/src/main/java/io/github/computerdaddyguy/jfiletreeprettyprinter");
  unused_else <- none_of [pm_name_starting_with (js ".")];
  (* 103-108 *)
  cli <- pm_absolute_path_glob (js "**/jfiletreeprettyprinter-cli");
  examples <- pm_absolute_path_glob (js "**/jfiletreeprettyprinter-examples");
  core <- pm_absolute_path_glob (js "**/jfiletreeprettyprinter-core");
  let child_limit := limit_call (limit_run (limit_start UNLIMITED)
    [LOp (LAddMatcher cli 0); LOp (LAddMatcher examples 0); LOp (LAddMatcher core 1); LBuild]) 0 in
  (* 113-121 *)
  main_java <- pm_relative_path_glob project_folder (js "src/main/java");
  let tab : jstring := [9%N] in
  let line_extension := ext_call (ext_run ext_start [
    XOp (XAddMatcher (pm_name (js "project-structure.png")) (Some (tab ++ js "// This image")));
    XOp (XAddMatcher (pm_name (js "README.md")) (Some (tab ++ tab ++ js "// You're reading at this!")));
    XOp (XAddMatcher (pm_name (js "FileTreePrettyPrinter.java")) (Some (tab ++ js "// Lib main entry point")));
    XOp (XAddMatcher (pm_name (js "jfiletreeprettyprinter-cli")) (Some (tab ++ js "// Everything to build the executable")));
    XOp (XAddMatcher (pm_name (js "jfiletreeprettyprinter-core")) (Some (tab ++ js "// The Java lib")));
    XOp (XAddMatcher (pm_name (js "jfiletreeprettyprinter-examples")) (Some (tab ++ js "// Some examples")));
    XOp (XAddLineBreak main_java);
    XBuild]) 0 in
  (* 127-135 *)
  let path_comparator := sort_call (sort_run sort_start [
    SOp (SAddMatcher (pm_name (js "jfiletreeprettyprinter-core")) (-100));
    SOp (SAddMatcher (pm_name (js "jfiletreeprettyprinter-examples")) (-90));
    SOp (SAddMatcher (pm_name (js "jfiletreeprettyprinter-cli")) (-80));
    SOp (SAddMatcher (pm_name (js "assets")) (-70));
    SOp (SAddMatcher (pm_name (js "docs")) (-60));
    SOp (SAddMatcher pm_is_directory (-1));
    SBuild]) 0 in
  (* 140-156 *)
  customized [SetDefaultEmojis; SetCompact true; SetDirFilter (Some dir_filter); SetFileFilter (Some file_filter);
              SetChildLimitFn (Some child_limit); SetLineExtension (Some line_extension); SetSort (Some path_comparator)]
    (fun o => pretty_print o project_folder).

(** ProjectStructure.java:49-157. *)
Definition project_structure_run : M jstring := project_structure_with (pm_any_descendant (pm_name (js "FileTreePrettyPrinter.java"))).
