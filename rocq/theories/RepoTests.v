(** * The repository's own tests, evaluated on the model

    Tests, not proofs: they show that the model computes what the repository's tests expect of the code. Every [Example] names the test it
    transcribes. Files are created below /tmp/r as the tests do; listings are in the order of creation, i.e. unsorted. The glob language
    is that of the JDK (Glob.v). Generated trees are those of the repository's resource directories. *)

From Verif Require Import Examples Printer Cli Arguments ExtOptions Binding Samples CliCases Glob.
Close Scope Z_scope.

(** ** Reading the expected texts: UTF-8 to UTF-16 *)
Fixpoint decode (l : list N) (more : nat) (acc : N) : jstring :=
  match l with
  | [] => []
  | b :: l' =>
      let emit cp rest := (if (cp <? 65536)%N then [cp] else [55296 + (cp - 65536) / 1024; 56320 + (cp - 65536) mod 1024]%N) ++ rest in
      match more with
      | O => if (b <? 128)%N then b :: decode l' 0 0
             else if (b <? 224)%N then decode l' 1 (b - 192)
             else if (b <? 240)%N then decode l' 2 (b - 224) else decode l' 3 (b - 240)
      | S O => emit (acc * 64 + (b - 128))%N (decode l' 0 0)
      | S k => decode l' k (acc * 64 + (b - 128))
      end
  end.
Definition u8 (s : string) : jstring := decode (js s) 0 0.
Fixpoint join_lines (l : list jstring) : jstring :=
  match l with [] => [] | [x] => x | x :: l' => x ++ [c_nl] ++ join_lines l' end.
Definition text (lines : list string) : jstring := join_lines (map u8 lines).

(** ** File systems from lists of files *)
Definition node := (list jstring * Z)%type.
Fixpoint strip (p ns : list jstring) : option (list jstring) :=
  match p, ns with [], _ => Some ns | x :: p', y :: ns' => if jeqb x y then strip p' ns' else None | _, _ => None end.
Fixpoint nub (l : list jstring) : list jstring :=
  match l with [] => [] | x :: l' => x :: filter (fun y => negb (jeqb x y)) (nub l') end.
(** A file of size -1 is an empty directory. *)
Definition tree_fs (l : list node) : fsys := fun ns =>
  match find (fun e => names_eqb (fst e) ns) l with
  | Some (_, size) => if (size <? 0)%Z then Some (IDir []) else Some (IReg size)
  | None =>
      match nub (flat_map (fun e => match strip ns (fst e) with Some (x :: _) => [x] | _ => [] end) l) with
      | [] => None
      | children => Some (IDir children)
      end
  end.
Definition at_ (base : string) (files : list string) : list node :=
  map (fun f => (names_of base ++ parse_names (u8 f), if jsuffixb (js "/") (u8 f) then (-1)%Z else 0%Z)) files.

Definition test_jvm : jvm := mkJvm (names_of "work/module") (map ascii_lower) ascii_lower jdk_glob.
Definition world_of (l : list node) : world := static_world (tree_fs l) test_jvm.

(** The directory "targetPath" of the core tests. *)
Definition target (files : list string) : list node := at_ "tmp/r/targetPath" (match files with [] => ["/"%string] | _ => files end).
Definition prints (o : options) (files : list string) : option jstring :=
  result (pretty_print o (pth "/tmp/r/targetPath") (world_of (target files)) []).

Definition files3 : list string := ["file1"; "file2"; "file3"]%string.
Definition abc : list string := ["dirA/dirB/dirC/file1"; "dirA/dirB/dirC/file2"; "dirA/dirB/dirC/file3"; "dirX/"]%string.

Open Scope string_scope.

(** ** BasicUsageTest *)

(** BasicUsageTest.java:20-26. *)
Example t_basic_emptyDir : prints (default_options) [] = Some (text
  ["targetPath/"]).
Proof. vm_compute. reflexivity. Qed.

(** BasicUsageTest.java:28-38. *)
Example t_basic_files : prints (default_options) files3 = Some (text
  ["targetPath/";
   "├─ file1";
   "├─ file2";
   "└─ file3"]).
Proof. vm_compute. reflexivity. Qed.

(** BasicUsageTest.java:40-50. *)
Example t_basic_one_dir : prints (default_options) ["dir1/"] = Some (text
  ["targetPath/";
   "└─ dir1/"]).
Proof. vm_compute. reflexivity. Qed.

(** BasicUsageTest.java:52-80. *)
Example t_basic_complex : prints (default_options) ["level_1/level_1_1/file1"; "level_1/level_1_1/file2"; "level_2/level_2_1/file1"; "level_2/level_2_1/file2"] = Some (text
  ["targetPath/";
   "├─ level_1/";
   "│  └─ level_1_1/";
   "│     ├─ file1";
   "│     └─ file2";
   "└─ level_2/";
   "   └─ level_2_1/";
   "      ├─ file1";
   "      └─ file2"]).
Proof. vm_compute. reflexivity. Qed.

(** ** SortingTest *)

(** SortingTest.java:35-57. *)
Example t_sort_default : prints (default_options) ["dir1/files_1_1"; "dir1/files_1_2"; "dir1/files_1_3"; "dir2/files_2_1"; "dir2/files_2_2"; "dir2/files_2_3"; "dir3/files_3_1"; "dir3/files_3_2"; "dir3/files_3_3"] = Some (text
  ["targetPath/";
   "├─ dir1/";
   "│  ├─ files_1_1";
   "│  ├─ files_1_2";
   "│  └─ files_1_3";
   "├─ dir2/";
   "│  ├─ files_2_1";
   "│  ├─ files_2_2";
   "│  └─ files_2_3";
   "└─ dir3/";
   "   ├─ files_3_1";
   "   ├─ files_3_2";
   "   └─ files_3_3"]).
Proof. vm_compute. reflexivity. Qed.

(** SortingTest.java:59-82. *)
Example t_sort_reversed : prints (with_sort (reversed ALPHABETICAL) default_options) ["dir1/files_1_1"; "dir1/files_1_2"; "dir1/files_1_3"; "dir2/files_2_1"; "dir2/files_2_2"; "dir2/files_2_3"; "dir3/files_3_1"; "dir3/files_3_2"; "dir3/files_3_3"] = Some (text
  ["targetPath/";
   "├─ dir3/";
   "│  ├─ files_3_3";
   "│  ├─ files_3_2";
   "│  └─ files_3_1";
   "├─ dir2/";
   "│  ├─ files_2_3";
   "│  ├─ files_2_2";
   "│  └─ files_2_1";
   "└─ dir1/";
   "   ├─ files_1_3";
   "   ├─ files_1_2";
   "   └─ files_1_1"]).
Proof. vm_compute. reflexivity. Qed.

Definition first_or_last : list string := ["c_file"; "d_dir/d1_file"; "d_dir/d2_directory/"; "a_file"; "b_dir/b1_file"; "b_dir/b2_directory/"; "b_dir/b3_file"; "b_dir/b4_directory/"].

(** SortingTest.java:126-149. *)
Example t_sort_directories_first : prints (with_sort DIRECTORY_FIRST default_options) first_or_last = Some (text
  ["targetPath/";
   "├─ b_dir/";
   "│  ├─ b2_directory/";
   "│  ├─ b4_directory/";
   "│  ├─ b1_file";
   "│  └─ b3_file";
   "├─ d_dir/";
   "│  ├─ d2_directory/";
   "│  └─ d1_file";
   "├─ a_file";
   "└─ c_file"]).
Proof. vm_compute. reflexivity. Qed.

(** SortingTest.java:151-173. *)
Example t_sort_directories_last : prints (with_sort DIRECTORY_LAST default_options) first_or_last = Some (text
  ["targetPath/";
   "├─ a_file";
   "├─ c_file";
   "├─ b_dir/";
   "│  ├─ b1_file";
   "│  ├─ b3_file";
   "│  ├─ b2_directory/";
   "│  └─ b4_directory/";
   "└─ d_dir/";
   "   ├─ d1_file";
   "   └─ d2_directory/"]).
Proof. vm_compute. reflexivity. Qed.

Definition extension_files : list string := ["c_file.cpp"; "a_file.c"; "b_file.c"; "no_extension_1"; "f_file.tar.gz"; "e_file.tar.gz"; "g_file.tar.gz2"; "no_extension_2"; "d_file.gz"; "dir_1.c/"; "dir_2/"].

(** SortingTest.java:190-213. *)
Example t_sort_by_extension : prints (with_sort BY_EXTENSION default_options) extension_files = Some (text
  ["targetPath/";
   "├─ dir_1.c/";
   "├─ dir_2/";
   "├─ no_extension_1";
   "├─ no_extension_2";
   "├─ a_file.c";
   "├─ b_file.c";
   "├─ c_file.cpp";
   "├─ d_file.gz";
   "├─ e_file.tar.gz";
   "├─ f_file.tar.gz";
   "└─ g_file.tar.gz2"]).
Proof. vm_compute. reflexivity. Qed.

Definition sized : list node := [(names_of "work/module/src/test/resources/sorting/by_file_size/file_2", 7%Z); (names_of "work/module/src/test/resources/sorting/by_file_size/file_5", 9%Z); (names_of "work/module/src/test/resources/sorting/by_file_size/file_1", 4%Z); (names_of "work/module/src/test/resources/sorting/by_file_size/file_4", 5%Z); (names_of "work/module/src/test/resources/sorting/by_file_size/file_3", 3%Z)].

(** SortingTest.java:86-103; the path is given as a relative string, resolved against the current directory. *)
Example sort_by_file_size :
  result (pretty_print_string (with_sort BY_FILE_SIZE default_options)
            (js "src/test/resources/sorting/by_file_size") (world_of sized) []) = Some (text
  ["by_file_size/"; "├─ file_3"; "├─ file_1"; "├─ file_4"; "├─ file_2"; "└─ file_5"]).
Proof. vm_compute. reflexivity. Qed.

(** ** ChildLimitStaticTest, ChildLimitDynamicTest *)

(** ChildLimitStaticTest.java:15-24. *)
Example t_limit_empty : prints (with_child_limit 3 default_options) [] = Some (text
  ["targetPath/"]).
Proof. vm_compute. reflexivity. Qed.

(** ChildLimitStaticTest.java:38-44. *)
Example t_limit_0 : prints (with_child_limit 0 default_options) files3 = Some (text
  ["targetPath/";
   "└─ ..."]).
Proof. vm_compute. reflexivity. Qed.

(** ChildLimitStaticTest.java:46-53. *)
Example t_limit_1 : prints (with_child_limit 1 default_options) files3 = Some (text
  ["targetPath/";
   "├─ file1";
   "└─ ..."]).
Proof. vm_compute. reflexivity. Qed.

(** ChildLimitStaticTest.java:55-63. *)
Example t_limit_2 : prints (with_child_limit 2 default_options) files3 = Some (text
  ["targetPath/";
   "├─ file1";
   "├─ file2";
   "└─ ..."]).
Proof. vm_compute. reflexivity. Qed.

(** ChildLimitStaticTest.java:65-73. *)
Example t_limit_3 : prints (with_child_limit 3 default_options) files3 = Some (text
  ["targetPath/";
   "├─ file1";
   "├─ file2";
   "└─ file3"]).
Proof. vm_compute. reflexivity. Qed.

Definition dynamic_limits : limit_fn :=
  limit_call (limit_run (limit_start UNLIMITED)
    [LOp (LAddMatcher (pm_name (js "limit_1")) 1); LOp (LAddMatcher (pm_name (js "limit_3")) 3); LOp (LSetDefault UNLIMITED); LBuild]) 0.

(** ChildLimitDynamicTest.java:33-39. *)
Example t_dynamic_empty : prints (with_child_limit_fn dynamic_limits default_options) [] = Some (text
  ["targetPath/"]).
Proof. vm_compute. reflexivity. Qed.

(** ChildLimitDynamicTest.java:41-76. *)
Example t_dynamic_nominal : prints (with_child_limit_fn dynamic_limits default_options) ["limit_1/file1"; "limit_1/file2"; "limit_1/file3"; "limit_1/file4"; "limit_1/file5"; "limit_3/file1"; "limit_3/file2"; "limit_3/file3"; "limit_3/file4"; "limit_3/file5"; "simpleDir/file1"; "simpleDir/file2"; "simpleDir/file3"; "simpleDir/file4"; "simpleDir/file5"] = Some (text
  ["targetPath/";
   "├─ limit_1/";
   "│  ├─ file1";
   "│  └─ ...";
   "├─ limit_3/";
   "│  ├─ file1";
   "│  ├─ file2";
   "│  ├─ file3";
   "│  └─ ...";
   "└─ simpleDir/";
   "   ├─ file1";
   "   ├─ file2";
   "   ├─ file3";
   "   ├─ file4";
   "   └─ file5"]).
Proof. vm_compute. reflexivity. Qed.

(** ChildLimitDynamicTest.java:78-97. *)
Example t_dynamic_1 : prints (with_child_limit_fn dynamic_limits default_options) ["limit_1/file1"; "limit_1/file2"; "limit_1/file3"; "limit_1/file4"; "limit_1/file5"] = Some (text
  ["targetPath/";
   "└─ limit_1/";
   "   ├─ file1";
   "   └─ ..."]).
Proof. vm_compute. reflexivity. Qed.

(** ChildLimitDynamicTest.java:99-121. *)
Example t_dynamic_3 : prints (with_child_limit_fn dynamic_limits default_options) ["limit_3/file1"; "limit_3/file2"; "limit_3/file3"; "limit_3/file4"; "limit_3/file5"] = Some (text
  ["targetPath/";
   "└─ limit_3/";
   "   ├─ file1";
   "   ├─ file2";
   "   ├─ file3";
   "   └─ ..."]).
Proof. vm_compute. reflexivity. Qed.

(** ** TreeFormatTest *)

(** TreeFormatTest.java:17-30. *)
Example t_format_empty : prints (with_tree_format CLASSIC_ASCII default_options) [] = Some (text
  ["targetPath/"]).
Proof. vm_compute. reflexivity. Qed.

(** TreeFormatTest.java:32-49. *)
Example t_format_files : prints (with_tree_format CLASSIC_ASCII default_options) files3 = Some (text
  ["targetPath/";
   "|-- file1";
   "|-- file2";
   "`-- file3"]).
Proof. vm_compute. reflexivity. Qed.

(** TreeFormatTest.java:51-86. *)
Example t_format_custom : prints (match tree_format_create (Some (js "[")) (Some (js "^")) (Some (js "-")) (Some (js ".")) with Ok f => with_tree_format f default_options | Throw _ => default_options end) abc = Some (text
  ["targetPath/";
   "[ dirA/";
   "- ^ dirB/";
   "- . ^ dirC/";
   "- . . [ file1";
   "- . . [ file2";
   "- . . ^ file3";
   "^ dirX/"]).
Proof. vm_compute. reflexivity. Qed.

(** ** CompactDirectoriesTest *)

(** CompactDirectoriesTest.java:20-26. *)
Example t_compact_empty : prints (with_compact_directories true default_options) [] = Some (text
  ["targetPath/"]).
Proof. vm_compute. reflexivity. Qed.

(** CompactDirectoriesTest.java:28-38. *)
Example t_compact_files : prints (with_compact_directories true default_options) files3 = Some (text
  ["targetPath/";
   "├─ file1";
   "├─ file2";
   "└─ file3"]).
Proof. vm_compute. reflexivity. Qed.

(** CompactDirectoriesTest.java:40-50. *)
Example t_compact_one_dir : prints (with_compact_directories true default_options) ["dir1/"] = Some (text
  ["targetPath/";
   "└─ dir1/"]).
Proof. vm_compute. reflexivity. Qed.

(** CompactDirectoriesTest.java:52-64. *)
Example t_compact_dir_and_file : prints (with_compact_directories true default_options) ["dir1/"; "file1"] = Some (text
  ["targetPath/";
   "├─ dir1/";
   "└─ file1"]).
Proof. vm_compute. reflexivity. Qed.

(** CompactDirectoriesTest.java:66-91. *)
Example t_compact_complex : prints (with_compact_directories true default_options) abc = Some (text
  ["targetPath/";
   "├─ dirA/dirB/dirC/";
   "│  ├─ file1";
   "│  ├─ file2";
   "│  └─ file3";
   "└─ dirX/"]).
Proof. vm_compute. reflexivity. Qed.

(** ** LineExtensionTest *)

(** LineExtensionTest.java:20-30. *)
Example t_extension_empty : prints (with_line_extension (Some (fun _ => ret (Some (js " /* YES ! */")))) default_options) [] = Some (text
  ["targetPath/ /* YES ! */"]).
Proof. vm_compute. reflexivity. Qed.

Definition extended (op : ext_op) : options :=
  with_compact_directories true (with_line_extension (Some (ext_call (ext_run ext_start [XOp op; XBuild]) 0)) default_options).

(** LineExtensionTest.java:32-49. *)
Example t_extension_first : prints (extended (XAddMatcher (pm_name (js "dirA")) (Some (js " // 1")))) abc = Some (text
  ["targetPath/";
   "├─ dirA/ // 1";
   "│  └─ dirB/dirC/";
   "│     ├─ file1";
   "│     ├─ file2";
   "│     └─ file3";
   "└─ dirX/"]).
Proof. vm_compute. reflexivity. Qed.

(** LineExtensionTest.java:51-68. *)
Example t_extension_line_break : prints (extended (XAddLineBreak (pm_name (js "dirA")))) abc = Some (text
  ["targetPath/";
   "├─ dirA/";
   "│  └─ dirB/dirC/";
   "│     ├─ file1";
   "│     ├─ file2";
   "│     └─ file3";
   "└─ dirX/"]).
Proof. vm_compute. reflexivity. Qed.

(** LineExtensionTest.java:70-87. *)
Example t_extension_middle : prints (extended (XAddMatcher (pm_name (js "dirB")) (Some (js " // 2")))) abc = Some (text
  ["targetPath/";
   "├─ dirA/dirB/ // 2";
   "│  └─ dirC/";
   "│     ├─ file1";
   "│     ├─ file2";
   "│     └─ file3";
   "└─ dirX/"]).
Proof. vm_compute. reflexivity. Qed.

(** LineExtensionTest.java:89-105. *)
Example t_extension_last : prints (extended (XAddMatcher (pm_name (js "dirC")) (Some (js " // 3")))) abc = Some (text
  ["targetPath/";
   "├─ dirA/dirB/dirC/ // 3";
   "│  ├─ file1";
   "│  ├─ file2";
   "│  └─ file3";
   "└─ dirX/"]).
Proof. vm_compute. reflexivity. Qed.

(** ** MaxDepthTest *)

(** MaxDepthTest.java:20-26. *)
Example t_depth_empty : prints (with_max_depth 2 default_options) [] = Some (text
  ["targetPath/"]).
Proof. vm_compute. reflexivity. Qed.

(** MaxDepthTest.java:28-38. *)
Example t_depth_files : prints (with_max_depth 2 default_options) files3 = Some (text
  ["targetPath/";
   "├─ file1";
   "├─ file2";
   "└─ file3"]).
Proof. vm_compute. reflexivity. Qed.

(** MaxDepthTest.java:40-67. *)
Example t_depth_compact : prints (with_compact_directories true (with_max_depth 2 default_options)) ["level1/level2/level3/level4/file4#1"; "level1/level2/level3/level4/file4#2"; "level1/level2/level3/level4/file4#3"] = Some (text
  ["targetPath/";
   "└─ level1/level2/";
   "   └─ ..."]).
Proof. vm_compute. reflexivity. Qed.

(** MaxDepthTest.java:69-104. *)
Example t_depth_nominal : prints (with_max_depth 2 default_options) ["level1/file1#1"; "level1/file1#2"; "level1/file1#3"; "level1/level2/file2#1"; "level1/level2/file2#2"; "level1/level2/file2#3"; "level1/level2/level3-1/file3-1#1"; "level1/level2/level3-1/file3-1#2"; "level1/level2/level3-1/file3-1#3"; "level1/level2/level3-1/level4-1/file4-1#1"; "level1/level2/level3-1/level4-1/file4-1#2"; "level1/level2/level3-1/level4-1/file4-1#3"; "level1/level2/level3-2/level4-2/file4-2#1"; "level1/level2/level3-2/level4-2/file4-2#2"; "level1/level2/level3-2/level4-2/file4-2#3"] = Some (text
  ["targetPath/";
   "└─ level1/";
   "   ├─ file1#1";
   "   ├─ file1#2";
   "   ├─ file1#3";
   "   └─ level2/";
   "      └─ ..."]).
Proof. vm_compute. reflexivity. Qed.

(** ** FilteringTest *)

(** FilteringTest.java:18-43. *)
Example t_filter_files : prints (filter_files (pm_extension (js "java")) default_options) ["file1.java"; "file2.php"; "file3.java"; "file4.c"; "file5.java"] = Some (text
  ["targetPath/";
   "├─ file1.java";
   "├─ file3.java";
   "└─ file5.java"]).
Proof. vm_compute. reflexivity. Qed.

(** FilteringTest.java:45-67. *)
Example t_filter_no_file : prints (filter_files (pm_extension (js "exe")) default_options) ["file1.java"; "file2.php"; "file3.java"; "file4.c"; "file5.java"] = Some (text
  ["targetPath/"]).
Proof. vm_compute. reflexivity. Qed.

(** FilteringTest.java:69-94. *)
Example t_filter_directories : prints (filter_directories (pm_name_ending_with (js "_A")) default_options) ["dir1_A/"; "dir2_B/"; "dir3_A/"; "dir4_C/"; "dir5_A/"] = Some (text
  ["targetPath/";
   "├─ dir1_A/";
   "├─ dir3_A/";
   "└─ dir5_A/"]).
Proof. vm_compute. reflexivity. Qed.

(** FilteringTest.java:96-118. *)
Example t_filter_no_directory : prints (filter_directories (pm_name_ending_with (js "_Z")) default_options) ["dir1_A/"; "dir2_B/"; "dir3_A/"; "dir4_C/"; "dir5_A/"] = Some (text
  ["targetPath/"]).
Proof. vm_compute. reflexivity. Qed.

(** FilteringTest.java:120-149. *)
Example t_filter_files_in_hidden : prints (filter_files (pm_extension (js "java")) (filter_directories (pm_name_ending_with (js "_A")) default_options)) ["dir_A/file_A1.java"; "dir_B/file_B1.java"] = Some (text
  ["targetPath/";
   "└─ dir_A/";
   "   └─ file_A1.java"]).
Proof. vm_compute. reflexivity. Qed.

(** FilteringTest.java:151-181. *)
Example t_filter_directories_in_hidden : prints (match pm_any_of [Some (pm_name_ending_with (js "_A")); Some (pm_name_ending_with (js "_sub"))] with Ok m => filter_directories m default_options | Throw _ => default_options end) ["dir_A/dir_A_sub/"; "dir_B/dir_B_sub/"] = Some (text
  ["targetPath/";
   "└─ dir_A/";
   "   └─ dir_A_sub/"]).
Proof. vm_compute. reflexivity. Qed.

(** FilteringTest.java:183-220. *)
Example t_filter_and_sort : prints (filter_files (pm_extension (js "java")) (with_sort (reversed ALPHABETICAL) default_options)) ["dir_A/file_A3.java"; "dir_A/file_A2.java"; "dir_A/file_Z4.java"; "dir_A/file_A1.java"; "dir_B/file_B1.java"] = Some (text
  ["targetPath/";
   "├─ dir_B/";
   "│  └─ file_B1.java";
   "└─ dir_A/";
   "   ├─ file_Z4.java";
   "   ├─ file_A3.java";
   "   ├─ file_A2.java";
   "   └─ file_A1.java"]).
Proof. vm_compute. reflexivity. Qed.

(** FilteringTest.java:222-297. *)
Example t_filter_and_limit_1 : prints (filter_files (pm_extension (js "java")) (with_child_limit 1 default_options)) ["dir_A/file_A1.java"; "dir_A/file_A2.java"; "dir_A/file_A3.java"; "dir_B/file_B1.java"; "dir_B/file_B2.java"; "dir_B/file_B3.java"] = Some (text
  ["targetPath/";
   "├─ dir_A/";
   "│  ├─ file_A1.java";
   "│  └─ ...";
   "└─ ..."]).
Proof. vm_compute. reflexivity. Qed.

(** FilteringTest.java:222-297. *)
Example t_filter_and_limit_2 : prints (filter_files (pm_extension (js "java")) (with_child_limit 2 default_options)) ["dir_A/file_A1.java"; "dir_A/file_A2.java"; "dir_A/file_A3.java"; "dir_B/file_B1.java"; "dir_B/file_B2.java"; "dir_B/file_B3.java"] = Some (text
  ["targetPath/";
   "├─ dir_A/";
   "│  ├─ file_A1.java";
   "│  ├─ file_A2.java";
   "│  └─ ...";
   "└─ dir_B/";
   "   ├─ file_B1.java";
   "   ├─ file_B2.java";
   "   └─ ..."]).
Proof. vm_compute. reflexivity. Qed.

(** FilteringTest.java:222-297. *)
Example t_filter_and_limit_3 : prints (filter_files (pm_extension (js "java")) (with_child_limit 3 default_options)) ["dir_A/file_A1.java"; "dir_A/file_A2.java"; "dir_A/file_A3.java"; "dir_B/file_B1.java"; "dir_B/file_B2.java"; "dir_B/file_B3.java"] = Some (text
  ["targetPath/";
   "├─ dir_A/";
   "│  ├─ file_A1.java";
   "│  ├─ file_A2.java";
   "│  └─ file_A3.java";
   "└─ dir_B/";
   "   ├─ file_B1.java";
   "   ├─ file_B2.java";
   "   └─ file_B3.java"]).
Proof. vm_compute. reflexivity. Qed.

(** FilteringTest.java:299-358. *)
Example t_filter_and_compact : prints (filter_files (pm_extension (js "java")) (filter_directories (pm_name_ending_with (js "1")) (with_compact_directories true default_options))) ["level1-1/level2-1/level3-1/level3-1#1.java"; "level1-1/level2-1/level3-1/level3-1#2.java"; "level1-1/level2-1/level3-1/level3-1#3.java"; "level1-1/level2-1/level3-1/level4-1/level5-1/level5-1#1.java"; "level1-1/level2-1/level3-1/level4-1/level5-1/level5-1#2.java"; "level1-1/level2-1/level3-1/level4-1/level5-1/level5-1#3.java"; "level1-1/level2-1/level3-1/level4-2/level5-2/level5-2#1.java"; "level1-1/level2-1/level3-1/level4-2/level5-2/level5-2#2.java"; "level1-1/level2-1/level3-1/level4-2/level5-2/level5-2#3.java"] = Some (text
  ["targetPath/";
   "└─ level1-1/level2-1/level3-1/";
   "   ├─ level3-1#1.java";
   "   ├─ level3-1#2.java";
   "   ├─ level3-1#3.java";
   "   └─ level4-1/level5-1/";
   "      ├─ level5-1#1.java";
   "      ├─ level5-1#2.java";
   "      └─ level5-1#3.java"]).
Proof. vm_compute. reflexivity. Qed.

(** ** EmojisTest *)

Definition default_emojis : options := match emoji_create_default (map ascii_lower) with Ok e => with_emojis e default_options | Throw _ => default_options end.

(** EmojisTest.java:22-33. *)
Example t_emoji_empty : prints (default_emojis) [] = Some (text
  ["📂 targetPath/"]).
Proof. vm_compute. reflexivity. Qed.

(** EmojisTest.java:35-205: all lines of the table. *)
Definition emoji_table : list (string * string) := [
  ("📄", "file.unknown_extension"); ("📄", "file_without_extension"); ("📱", "file.apk"); ("🖥️", "file.app"); ("⚙️", "file.bin");
  ("⚙️", "file.exe"); ("📦", "file.msi"); ("📱", "file.ipa"); ("🧩", "file.dll"); ("🧩", "file.lib");
  ("🧩", "file.so"); ("📦", "file.7z"); ("📦", "file.gz"); ("💿", "file.img"); ("💿", "file.iso");
  ("📦", "file.rar"); ("📦", "file.tar"); ("📦", "file.zip"); ("🚫", ".gitignore"); ("🐳", "Dockerfile");
  ("🤵", "Jenkinsfile"); ("⚙️", "docker-compose.yml"); ("🛠️", "build.gradle"); ("🛠️", "makefile"); ("🛠️", "package.json");
  ("🛠️", "pom.xml"); ("💠", "file.c"); ("☕", "file.class"); ("💠", "file.cpp"); ("💠", "file.cs");
  ("🎨", "file.css"); ("🌐", "file.htm"); ("🌐", "file.html"); ("🌐", "file.htmx"); ("📦", "file.jar");
  ("☕", "file.java"); ("🎨", "file.less"); ("🐘", "file.php"); ("🐍", "file.py"); ("🎨", "file.scss");
  ("🗄️", "file.sql"); ("🔷", "file.ts"); ("📜", "file.bash"); ("📜", "file.bat"); ("📜", "file.sh");
  ("⚙️", "file.cfg"); ("⚙️", "file.conf"); ("📊", "file.csv"); ("⚙️", "file.ini"); ("📝", "file.json");
  ("📊", "file.ods"); ("⚙️", "file.properties"); ("📊", "file.xls"); ("📊", "file.xlsx"); ("📝", "file.xml");
  ("📝", "file.yaml"); ("📝", "file.yml"); ("📝", "file.doc"); ("📝", "file.docx"); ("📚", "file.epub");
  ("📝", "file.md"); ("📝", "file.odt"); ("📕", "file.pdf"); ("📝", "file.rtf"); ("📝", "file.txt");
  ("🤖", "robots.txt"); ("🆕", "changelog"); ("🆕", "changelog.md"); ("🤝", "contributing"); ("🤝", "contributing.md");
  ("⚖️", "license"); ("⚖️", "license.md"); ("📘", "readme"); ("📘", "readme.md"); ("🗺️", "roadmap");
  ("🗺️", "roadmap.md"); ("🛡️", "security"); ("🛡️", "security.md"); ("🎵", "file.aac"); ("🎵", "file.flac");
  ("🎹", "file.midi"); ("🎵", "file.mp3"); ("🎵", "file.ogg"); ("🎵", "file.wav"); ("🖼️", "file.bmp");
  ("🎞️", "file.gif"); ("🖼️", "file.ico"); ("🖼️", "file.jpeg"); ("🖼️", "file.jpg"); ("🖼️", "file.png");
  ("✒️", "file.svg"); ("🎬", "file.avi"); ("🎬", "file.mkv"); ("🎬", "file.mov"); ("🎬", "file.mp4");
  ("🎬", "file.webm"); ("🎬", "file.wmv"); ("💾", "file.bak"); ("🔐", "file.crt"); ("🔑", "file.key");
  ("📜", "file.log"); ("🔐", "file.pem"); ("🔓", "file.pub"); ("🗑️", "file.tmp")].

Example emojis_of_the_table :
  Forall (fun e : string * string => prints default_emojis [snd e] = Some (text ["📂 targetPath/"; "└─ " ++ fst e ++ " " ++ snd e])%string) emoji_table.
Proof. unfold emoji_table. repeat (apply Forall_cons; [vm_compute; reflexivity|]). apply Forall_nil. Qed.

(** A mapping built from the default mapping after some setter calls. *)
Definition emojis (ops : list emoji_op) : options :=
  with_emojis (emoji_call (emoji_run (map ascii_lower) (emoji_start FromDefault) (map EOp ops ++ [EBuild])) 0) default_options.

(** EmojisTest.java:210-242. *)
Example t_emoji_directory_name : prints (emojis [ESetDirName (js "dirA") (u8 "⭐")]) ["dirA/"; "dirB/"; "dirC/"] = Some (text
  ["📂 targetPath/";
   "├─ ⭐ dirA/";
   "├─ 📂 dirB/";
   "└─ 📂 dirC/"]).
Proof. vm_compute. reflexivity. Qed.

(** EmojisTest.java:244-278. *)
Example t_emoji_directory_match : prints (emojis [EAddDir (pm_name (js "dirA")) (u8 "⭐"); EAddDir (pm_name (js "dirB")) (u8 "😊")]) ["dirA/"; "dirB/"; "dirC/"] = Some (text
  ["📂 targetPath/";
   "├─ ⭐ dirA/";
   "├─ 😊 dirB/";
   "└─ 📂 dirC/"]).
Proof. vm_compute. reflexivity. Qed.

(** EmojisTest.java:285-320. *)
Example t_emoji_file_name : prints (emojis [ESetFileName (js "aaa") (u8 "⭐"); ESetFileName (js "dockerfile") (u8 "😊")]) ["aaa"; "dockerfile"; "jenkinsfile"; "license"] = Some (text
  ["📂 targetPath/";
   "├─ ⭐ aaa";
   "├─ 😊 dockerfile";
   "├─ 🤵 jenkinsfile";
   "└─ ⚖️ license"]).
Proof. vm_compute. reflexivity. Qed.

(** EmojisTest.java:322-355. *)
Example t_emoji_file_extension : prints (emojis [ESetFileExt (js "plop") (u8 "⭐"); ESetFileExt (js "avi") (u8 "😊")]) ["file.plop"; "file.avi"; "file.gif"; "license"] = Some (text
  ["📂 targetPath/";
   "├─ 😊 file.avi";
   "├─ 🎞️ file.gif";
   "├─ ⭐ file.plop";
   "└─ ⚖️ license"]).
Proof. vm_compute. reflexivity. Qed.

(** EmojisTest.java:357-391. *)
Example t_emoji_file_match : prints (emojis [EAddFile (pm_name (js "file.plop")) (u8 "⭐"); EAddFile (pm_name (js "file.avi")) (u8 "😊")]) ["file.plop"; "file.avi"; "file.gif"; "license"] = Some (text
  ["📂 targetPath/";
   "├─ 😊 file.avi";
   "├─ 🎞️ file.gif";
   "├─ ⭐ file.plop";
   "└─ ⚖️ license"]).
Proof. vm_compute. reflexivity. Qed.

(** ** FileTreePrettyPrinterTest, FileTreePrettyPrinterBuilderTest *)
Definition files_and_folders : list string := ["file1"; "file2"; "file3"; "folder1/folder2/folder3/"].

(** FileTreePrettyPrinterBuilderTest.java:16-34: the last options object counts. *)
Example builder_overrides :
  result (client_print (client_run (map ascii_lower)
     [NewBuilder; Customize 0 [SetChildLimit 1] RetArgument; NewOptions; Set_ 1 (SetChildLimit 2); WithOptions 0 (Some 1); Build 0])
     0 (pth "/tmp/r/targetPath") (world_of (target files_and_folders)) []) = Some (text ["targetPath/"; "├─ file1"; "├─ file2"; "└─ ..."]).
Proof. vm_compute. reflexivity. Qed.

(** FileTreePrettyPrinterTest.java:16-23. *)
Example path_and_string_are_the_same :
  result (pretty_print default_options (pth "/tmp/r/targetPath") (world_of (target files_and_folders)) []) =
  result (pretty_print_string default_options (js "/tmp/r/targetPath") (world_of (target files_and_folders)) []).
Proof. vm_compute. reflexivity. Qed.

(** ** DepthTest (renderer/DepthTest.java:9-52) *)
Example depth_operations :
  depth_is_root [] = true /\ depth_is_root (depth_append [] LAST_FILE) = false /\
  length (depth_append (depth_append (depth_append [] LAST_FILE) LAST_FILE) LAST_FILE) = 3 /\
  depth_pop [] = [] /\ depth_pop (depth_append [] LAST_FILE) = [].
Proof. vm_compute. repeat split; reflexivity. Qed.

(** ** PathSortBuilderTest: [a] sorts before [b] *)
Definition built_sort (ops : list sort_op) : comparator := sort_call (sort_run sort_start (map SOp ops ++ [SBuild])) 0.
Definition sorts_before (c : comparator) (a b : path) : option bool :=
  result ((x <- c a b; y <- c b a; z <- c a a; t <- c b b; ret ((x <? 0) && (0 <? y) && (z =? 0) && (t =? 0))%Z)
            (world_of []) []).
Example sort_builder_tests :
  let A := pth "A" in let B := pth "B" in
  (* PathSortBuilderTest.java:23-34, 36-46 *)
  sorts_before (built_sort [SAdd (fun _ => ret 10%Z)]) A B = Some true /\
  sorts_before (built_sort [SAdd (fun p => is_a <- pm_name (js "A") p; ret (if is_a then 2%Z else 1%Z))]) B A = Some true /\
  (* PathSortBuilderTest.java:53-64, 66-78 *)
  sorts_before (built_sort [SAddMatcher (fun _ => ret true) 10]) A B = Some true /\
  sorts_before (built_sort [SAddMatcher (pm_name (js "A")) 2; SAddMatcher (pm_name (js "B")) 1]) B A = Some true /\
  (* PathSortBuilderTest.java:85-96, 103-114 *)
  sorts_before (built_sort [SAddFirst (pm_name (js "A")); SAddFirst (pm_name (js "B"))]) A B = Some true.
Proof. vm_compute. repeat split; reflexivity. Qed.

(** ** PathMatchersTest *)
Definition matcher_files : list node := at_ "tmp/r"
  ["config.yaml"; "CONFIG2.yaml"; "Config.YAML"; "other.txt"; "data-123.csv"; "data.txt"; "notes.txt"; "notes.TXT"; ".hidden"; "file.log";
   "d/f.txt"; "parent/c.txt"; "a/b/c/file.txt"; "root/child.txt"; "root/a/b/deep.txt"; "s/a.txt"; "s/b.txt"; "HelloWorld.java"; "src/Main.java"].
Definition link_fs : fsys := fun ns => if names_eqb ns (names_of "tmp/r/link-to-target") then Some (ILink (Some TReg)) else tree_fs matcher_files ns.
Definition matcher_world : world := static_world link_fs test_jvm.
Definition ask_matcher (m : matcher) (p : string) : res bool := fst (m (pth p) matcher_world []).
Definition ask_made (c : M matcher) (p : string) : res bool :=
  match c matcher_world [] with (Ok m, _) => ask_matcher m p | (Throw e, _) => Throw e end.
Definition ask_combined (r : res matcher) (p : string) : res bool := match r with Ok m => ask_matcher m p | Throw e => Throw e end.
Definition yes : matcher := fun _ => ret true.
Definition no : matcher := fun _ => ret false.
Definition tr := Ok true.
Definition fa := Ok false.

(** PathMatchersTest.java:26-148: not, allOf, anyOf, noneOf; null and empty collections. *)
Example combination_tests :
  ask_matcher (pm_not yes) "any" = fa /\ ask_matcher (pm_not no) "any" = tr /\
  ask_combined (pm_all_of [None]) "x" = Throw ExNullPointer /\ ask_combined (pm_all_of []) "x" = Throw ExIllegalArgument /\
  ask_combined (pm_all_of [Some yes; Some yes]) "x" = tr /\ ask_combined (pm_all_of [Some yes; Some no; Some yes]) "x" = fa /\
  ask_combined (pm_any_of [None]) "x" = Throw ExNullPointer /\ ask_combined (pm_any_of []) "x" = Throw ExIllegalArgument /\
  ask_combined (pm_any_of [Some no; Some no; Some yes]) "x" = tr /\ ask_combined (pm_any_of [Some no; Some no]) "x" = fa /\
  ask_combined (pm_none_of [None]) "x" = Throw ExNullPointer /\ ask_combined (pm_none_of []) "x" = Throw ExIllegalArgument /\
  ask_combined (pm_none_of [Some no; Some no]) "x" = tr /\ ask_combined (pm_none_of [Some no; Some yes]) "x" = fa.
Proof. vm_compute. repeat split; reflexivity. Qed.

(** PathMatchersTest.java:150-182. *)
Fixpoint contains (x s : jstring) : bool := jprefixb x s || match s with [] => false | _ :: s' => contains x s' end.
Example if_then_else_tests :
  let m := pm_if_then_else (fun p => ret (contains (js "dir") (path_str p))) (fun p => ret (jsuffixb (js ".java") (path_str p)))
             (fun p => ret (jsuffixb (js ".txt") (path_str p))) in
  ask_matcher m "some/dir/File.java" = tr /\ ask_matcher m "some/file.txt" = tr /\ ask_matcher m "some/file.md" = fa.
Proof. vm_compute. repeat split; reflexivity. Qed.

(** PathMatchersTest.java:184-305. *)
Example path_tests :
  ask_made (pm_absolute_path_glob (js "*")) "/some/path/whatever.txt" = tr /\
  ask_made (pm_absolute_path_glob (js "**/*.java")) "/tmp/r/HelloWorld.java" = tr /\
  ask_made (pm_absolute_path_glob (js "**/*.java")) "/tmp/r/other.txt" = fa /\
  ask_made (pm_relative_path_glob (pth "/tmp/r") (js "*")) "/tmp/r/a.txt" = tr /\
  ask_made (pm_relative_path_glob (pth "/tmp/r") (js "*")) "/tmp/r/sub/dir/b.txt" = tr /\
  ask_made (pm_relative_path_glob (pth "/tmp/r") (js "**/*.java")) "/tmp/r/src/Main.java" = tr /\
  ask_matcher (pm_absolute_path (pm_name (js "file.txt"))) "/tmp/r/a/b/c/file.txt" = tr /\
  ask_matcher (pm_absolute_path (pm_name (js "file.txt"))) "/tmp/r/other.txt" = fa /\
  ask_made (pm_relative_path (pth "/tmp/r") (pm_name_matching (jeqb (js "target.txt")))) "/tmp/r/a/b/target.txt" = tr.
Proof. vm_compute. repeat split; reflexivity. Qed.

(** PathMatchersTest.java:307-475; the regular expression "data-\\d+\\.csv" is an arbitrary predicate of the model. *)
Example name_tests :
  ask_matcher (pm_name (js "config.yaml")) "/tmp/r/config.yaml" = tr /\ ask_matcher (pm_name (js "config.yaml")) "/tmp/r/CONFIG2.yaml" = fa /\
  ask_matcher (pm_name (js "whatever")) "/" = fa /\
  ask_matcher (pm_name_ignore_case (js "config.yaml")) "/tmp/r/Config.YAML" = tr /\
  ask_matcher (pm_name_ignore_case (js "config.yaml")) "/tmp/r/other.txt" = fa /\
  ask_made (pm_name_glob (js "*")) "anything" = tr /\ ask_made (pm_name_glob (js "*")) "/" = tr /\
  ask_made (pm_name_glob (js "*.txt")) "/tmp/r/notes.txt" = tr /\ ask_made (pm_name_glob (js "*.txt")) "/tmp/r/notes.md" = fa /\
  ask_matcher (pm_name_starting_with (js ".")) "/tmp/r/.hidden" = tr /\ ask_matcher (pm_name_starting_with (js ".")) "/tmp/r/visible" = fa /\
  ask_matcher (pm_name_ending_with (js ".log")) "/tmp/r/file.log" = tr /\ ask_matcher (pm_name_ending_with (js ".log")) "/tmp/r/file.txt" = fa /\
  ask_matcher (pm_extension (js "txt")) "/tmp/r/notes.txt" = tr /\ ask_matcher (pm_extension (js "txt")) "/tmp/r/notes.TXT" = fa.
Proof. vm_compute. repeat split; reflexivity. Qed.

(** PathMatchersTest.java:477-525. *)
Example kind_tests :
  ask_matcher pm_is_directory "/tmp/r/d" = tr /\ ask_matcher pm_is_directory "/tmp/r/d/f.txt" = fa /\
  ask_matcher pm_is_file "/tmp/r/d/f.txt" = tr /\ ask_matcher pm_is_file "/tmp/r/d" = fa /\
  ask_matcher pm_is_regular_file "/tmp/r/d/f.txt" = tr /\ ask_matcher pm_is_regular_file "/tmp/r/d" = fa /\
  ask_matcher pm_is_symbolic_link "/tmp/r/link-to-target" = tr /\ ask_matcher pm_is_directory "/tmp/r/link-to-target" = fa.
Proof. vm_compute. repeat split; reflexivity. Qed.

(** PathMatchersTest.java:527-573. *)
Example ancestor_tests :
  ask_matcher (pm_direct_parent (pm_name (js "whatever"))) "/" = fa /\
  ask_matcher (pm_direct_parent (pm_name (js "parent"))) "/tmp/r/parent/c.txt" = tr /\
  ask_matcher (pm_any_ancestor (pm_name (js "a"))) "/tmp/r/a/b/c/file.txt" = tr.
Proof. vm_compute. repeat split; reflexivity. Qed.

(** PathMatchersTest.java:592-626. *)
Example child_and_sibling_tests :
  ask_matcher (pm_any_direct_child (pm_name (js "child.txt"))) "/tmp/r/root" = tr /\
  ask_matcher (pm_any_direct_child (pm_name (js "child.txt"))) "/tmp/r/root/a/b" = fa /\
  ask_matcher (pm_sibling (pm_name (js "b.txt"))) "/tmp/r/s/a.txt" = tr /\
  ask_matcher (pm_sibling (pm_name (js "b.txt"))) "/tmp/r/s/b.txt" = fa /\
  ask_matcher (pm_any_direct_child (fun _ => throw (ExUser 7))) "/tmp/r/d" = Throw (ExUser 7).
Proof. vm_compute. repeat split; reflexivity. Qed.

(** PathMatchersTest.java:592-611, the descendants. The depth is Integer.MAX_VALUE, hence lazy evaluation. *)
Example descendant_tests :
  ask_matcher (pm_any_descendant (pm_name (js "deep.txt"))) "/tmp/r/root" = tr /\
  ask_matcher (pm_any_descendant (pm_name (js "deep.txt"))) "/tmp/r/root/child.txt" = fa.
Proof. lazy. split; reflexivity. Qed.

(** ** The tests of the examples module: jfiletreeprettyprinter-examples/src/test *)

Definition ex_basic : list node := at_ "work/module/src/main/resources/base"
  ["businessProject.pdf"; "giftIdeas.txt"; "cars/Porsche.doc";
   "images/landscape.jpeg"; "images/holidays/meAtTheZoo.jpeg"; "businessPlan.pdf";
   "diyIdeas.docx"; "cars/Ferrari.doc"; "images/funnyCat.gif";
   "images/holidays/meAtTheBeach.jpeg"].

(** BasicUsageTest.java with BasicUsage.java. *)
Example t_ex_basic :
  result (basic_usage_run (world_of ex_basic) []) = Some (text
  ["base/";
   "├─ businessPlan.pdf";
   "├─ businessProject.pdf";
   "├─ cars/";
   "│  ├─ Ferrari.doc";
   "│  └─ Porsche.doc";
   "├─ diyIdeas.docx";
   "├─ giftIdeas.txt";
   "└─ images/";
   "   ├─ funnyCat.gif";
   "   ├─ holidays/";
   "   │  ├─ meAtTheBeach.jpeg";
   "   │  └─ meAtTheZoo.jpeg";
   "   └─ landscape.jpeg"]).
Proof. vm_compute. reflexivity. Qed.

Definition ex_limit_dynamic : list node := at_ "work/module/src/main/resources/child_limit_dynamic"
  ["folder_1/file_1_1"; "folder_1/file_1_3"; "folder_1/file_1_5";
   "node_modules/file_node_02"; "node_modules/file_node_04"; "node_modules/file_node_06";
   "node_modules/file_node_08"; "node_modules/file_node_10"; "node_modules/file_node_12";
   "node_modules/file_node_14"; "node_modules/file_node_16"; "node_modules/file_node_18";
   "node_modules/file_node_20"; "file_0_1"; "folder_1/file_1_2";
   "folder_1/file_1_4"; "node_modules/file_node_01"; "node_modules/file_node_03";
   "node_modules/file_node_05"; "node_modules/file_node_07"; "node_modules/file_node_09";
   "node_modules/file_node_11"; "node_modules/file_node_13"; "node_modules/file_node_15";
   "node_modules/file_node_17"; "node_modules/file_node_19"].

(** ChildLimitDynamicTest.java with ChildLimitDynamic.java. *)
Example t_ex_limit_dynamic :
  result (child_limit_dynamic_run (world_of ex_limit_dynamic) []) = Some (text
  ["child_limit_dynamic/";
   "├─ file_0_1";
   "├─ folder_1/";
   "│  ├─ file_1_1";
   "│  ├─ file_1_2";
   "│  ├─ file_1_3";
   "│  ├─ file_1_4";
   "│  └─ file_1_5";
   "└─ node_modules/";
   "   └─ ..."]).
Proof. vm_compute. reflexivity. Qed.

Definition ex_limit_static : list node := at_ "work/module/src/main/resources/child_limit_static"
  ["folder_1/file_1_1"; "folder_1/file_1_3"; "folder_1/file_1_5";
   "folder_2/file_2_2"; "folder_2/file_2_4"; "folder_3/file_3_1";
   "folder_3/file_3_3"; "folder_3/file_3_5"; "folder_4/file_4_2";
   "folder_4/file_4_4"; "folder_5/file_5_1"; "folder_5/file_5_3";
   "folder_5/file_5_5"; "file_0_1"; "folder_1/file_1_2";
   "folder_1/file_1_4"; "folder_2/file_2_1"; "folder_2/file_2_3";
   "folder_2/file_2_5"; "folder_3/file_3_2"; "folder_3/file_3_4";
   "folder_4/file_4_1"; "folder_4/file_4_3"; "folder_4/file_4_5";
   "folder_5/file_5_2"; "folder_5/file_5_4"].

(** ChildLimitStaticTest.java with ChildLimitStatic.java. *)
Example t_ex_limit_static :
  result (child_limit_static_run (world_of ex_limit_static) []) = Some (text
  ["child_limit_static/";
   "├─ file_0_1";
   "├─ folder_1/";
   "│  ├─ file_1_1";
   "│  ├─ file_1_2";
   "│  ├─ file_1_3";
   "│  └─ ...";
   "├─ folder_2/";
   "│  ├─ file_2_1";
   "│  ├─ file_2_2";
   "│  ├─ file_2_3";
   "│  └─ ...";
   "└─ ..."]).
Proof. vm_compute. reflexivity. Qed.

Definition ex_compact : list node := at_ "work/module/src/main/resources/single_directory_child"
  ["file2"; "this/is/single/directory/child/file2"; "file1";
   "this/is/single/directory/child/file1"; "this/is/single/directory/child/file3"].

(** CompactDirectoriesTest.java with CompactDirectories.java. *)
Example t_ex_compact :
  result (compact_directories_run (world_of ex_compact) []) = Some (text
  ["single_directory_child/";
   "├─ file1";
   "├─ file2";
   "└─ this/is/single/directory/child/";
   "   ├─ file1";
   "   ├─ file2";
   "   └─ file3"]).
Proof. vm_compute. reflexivity. Qed.

Definition ex_emojis : list node := at_ "work/module/src/main/resources/emojis"
  ["Jenkinsfile"; "file.docx"; "file.java";
   "file.mp3"; "file.xlsx"; "readme";
   "Dockerfile"; "file.avi"; "file.ini";
   "file.jpeg"; "file.pdf"; "file.zip"].

(** EmojisTest.java with Emojis.java. *)
Example t_ex_emojis :
  result (emojis_run (world_of ex_emojis) []) = Some (text
  ["📂 emojis/";
   "├─ 🐳 Dockerfile";
   "├─ 🤵 Jenkinsfile";
   "├─ 🎬 file.avi";
   "├─ 📝 file.docx";
   "├─ ⚙️ file.ini";
   "├─ ☕ file.java";
   "├─ 🖼️ file.jpeg";
   "├─ 🎵 file.mp3";
   "├─ 📕 file.pdf";
   "├─ 📊 file.xlsx";
   "├─ 📦 file.zip";
   "└─ 📘 readme"]).
Proof. vm_compute. reflexivity. Qed.

Definition ex_format : list node := at_ "work/module/src/main/resources/tree_format"
  ["file_2"; "subFolder/subFile_2"; "file_1";
   "subFolder/subFile_1"].

(** FileTreeFormatTest.java with FileTreeFormat.java. *)
Example t_ex_format :
  result (tree_format_run (world_of ex_format) []) = Some (text
  ["tree_format/";
   "|-- file_1";
   "|-- file_2";
   "`-- subFolder/";
   "    |-- subFile_1";
   "    `-- subFile_2"]).
Proof. vm_compute. reflexivity. Qed.

Definition ex_filtering : list node := at_ "work/module/src/main/resources/filtering"
  ["dir_with_java_files/file_B.java"; "dir_with_java_files/file_D.ts"; "dir_with_nested_java_files/nested_dir_with_java_files/file_G.java";
   "dir_with_nested_java_files/nested_dir_with_java_files/file_I.ts"; "dir_with_nested_java_files/nested_dir_with_no_java_file/file_K.cpp"; "dir_with_no_java_file/file_M.cpp";
   "file_A.java"; "dir_with_java_files/file_C.cpp"; "dir_with_java_files/file_E.java";
   "dir_with_nested_java_files/nested_dir_with_java_files/file_H.cpp"; "dir_with_nested_java_files/nested_dir_with_java_files/file_J.java"; "dir_with_nested_java_files/nested_dir_with_no_java_file/file_L.ts";
   "dir_with_no_java_file/file_N.ts"].

(** FilteringTest.java with Filtering.java. *)
Example t_ex_filtering :
  result (filtering_run (world_of ex_filtering) []) = Some (text
  ["filtering/";
   "├─ dir_with_java_files/";
   "│  ├─ file_B.java";
   "│  └─ file_E.java";
   "├─ dir_with_nested_java_files/";
   "│  └─ nested_dir_with_java_files/";
   "│     ├─ file_G.java";
   "│     └─ file_J.java";
   "└─ file_A.java"]).
Proof. vm_compute. reflexivity. Qed.

Definition ex_depth : list node := at_ "work/module/src/main/resources/max_depth"
  ["level1/file1#2"; "level1/level2/file2#2"; "level1/level2/level3/file3#2";
   "level1/level2/level3/level4/file4#2"; "level1/file1#1"; "level1/level2/file2#1";
   "level1/level2/level3/file3#1"; "level1/level2/level3/level4/file4#1"].

(** MaxDepthTest.java with MaxDepth.java. *)
Example t_ex_depth :
  result (max_depth_run (world_of ex_depth) []) = Some (text
  ["max_depth/";
   "└─ level1/";
   "   ├─ file1#1";
   "   ├─ file1#2";
   "   └─ level2/";
   "      ├─ file2#1";
   "      ├─ file2#2";
   "      └─ level3/";
   "         └─ ..."]).
Proof. vm_compute. reflexivity. Qed.

Definition ex_sorting : list node := at_ "work/module/src/main/resources/sorting"
  ["b_file"; "y_file"; "d_dir/d_a_file";
   "a_file"; "x_file"; "c_dir/c_file";
   "d_dir/d_b_dir/d_b_file"].

(** SortingTest.java with Sorting.java. *)
Example t_ex_sorting :
  result (sorting_run (world_of ex_sorting) []) = Some (text
  ["sorting/";
   "├─ c_dir/";
   "│  └─ c_file";
   "├─ d_dir/";
   "│  ├─ d_b_dir/";
   "│  │  └─ d_b_file";
   "│  └─ d_a_file";
   "├─ a_file";
   "├─ b_file";
   "├─ x_file";
   "└─ y_file"]).
Proof. vm_compute. reflexivity. Qed.

Definition ex_line_extension : list node := at_ "work/module/src/main/resources/line_extension"
  ["src/main/java/domain/ValueObject.java"; "src/main/resources/application.properties"; "src/main/java/api/Controller.java";
   "src/main/java/infra/Repository.java"].

(** LineExtensionTest.java with LineExtension.java. *)
Example t_ex_line_extension : result (line_extension_run (world_of ex_line_extension) []) = Some (text
  ["line_extension/";
   "└─ src/";
   "   └─ main/";
   "      ├─ java/";
   "      │  ├─ api/			// All API code: controllers, etc.";
   "      │  │  └─ Controller.java";
   "      │  ├─ domain/			// All domain code: value objects, etc.";
   "      │  │  └─ ValueObject.java";
   "      │  └─ infra/			// All infra code: database, email service, etc.";
   "      │     └─ Repository.java";
   "      └─ resources/";
   "         └─ application.properties	// Config file"]).
Proof. vm_compute. reflexivity. Qed.

(** The project, with the build output of the core module: the tests of the examples module run once that module is built (without it, the expected text has no line "..." below jfiletreeprettyprinter-core). *)

Definition project : list node := at_ "work/JFileTreePrettyPrinter"
  [".github/workflows/publish-maven-release.yml"; ".github/workflows/sonarcloud.yml"; "CHANGELOG.md";
   "LICENSE"; "ROADMAP.md"; "assets/project-structure.png";
   "docs/Release-process.md"; "jfiletreeprettyprinter-cli/pom.xml"; "jfiletreeprettyprinter-cli/src/main/java/io/github/computerdaddyguy/jfiletreeprettyprinter/cli/ManifestVersionProvider.java";
   "jfiletreeprettyprinter-cli/src/main/java/io/github/computerdaddyguy/jfiletreeprettyprinter/cli/RecordUtils.java"; "jfiletreeprettyprinter-cli/src/main/java/io/github/computerdaddyguy/jfiletreeprettyprinter/cli/exception/ExternalOptionsException.java"; "jfiletreeprettyprinter-cli/src/main/java/io/github/computerdaddyguy/jfiletreeprettyprinter/cli/io/DefaultConsoleOutput.java";
   "jfiletreeprettyprinter-cli/src/main/java/io/github/computerdaddyguy/jfiletreeprettyprinter/cli/options/OptionsLoader.java"; "jfiletreeprettyprinter-cli/src/main/java/io/github/computerdaddyguy/jfiletreeprettyprinter/cli/options/mapper/ExternalOptionsMapper.java"; "jfiletreeprettyprinter-cli/src/main/java/io/github/computerdaddyguy/jfiletreeprettyprinter/cli/options/model/ExternalOptions.java";
   "jfiletreeprettyprinter-cli/src/main/java/io/github/computerdaddyguy/jfiletreeprettyprinter/cli/options/model/LineExtension.java"; "jfiletreeprettyprinter-cli/src/main/java/io/github/computerdaddyguy/jfiletreeprettyprinter/cli/options/reader/ExternalOptionsReader.java"; "jfiletreeprettyprinter-cli/src/main/java/io/github/computerdaddyguy/jfiletreeprettyprinter/cli/options/reader/SimpleExternalOptionsReader.java";
   "jfiletreeprettyprinter-cli/src/main/resources/schemas/jfiletreeprettyprinter-options.schema.json"; "jfiletreeprettyprinter-cli/src/test/java/io/github/computerdaddyguy/jfiletreeprettyprinter/cli/ManifestVersionProviderTest.java"; "jfiletreeprettyprinter-cli/src/test/resources/cli/base/folder_a/file_1.txt";
   "jfiletreeprettyprinter-cli/src/test/resources/cli/base/folder_a/file_3.php"; "jfiletreeprettyprinter-cli/src/test/resources/cli/base/folder_b/file_1.txt"; "jfiletreeprettyprinter-cli/src/test/resources/cli/base/folder_b/file_3.php";
   "jfiletreeprettyprinter-cli/src/test/resources/cli/base/folder_c/file_1.txt"; "jfiletreeprettyprinter-cli/src/test/resources/cli/base/folder_c/file_3.php"; "jfiletreeprettyprinter-cli/src/test/resources/cli/base/folder_d/file_1.txt";
   "jfiletreeprettyprinter-cli/src/test/resources/cli/base/folder_d/file_3.php"; "jfiletreeprettyprinter-cli/src/test/resources/cli/base/folder_z1/folder_z2/folder_z3/file_1.txt"; "jfiletreeprettyprinter-cli/src/test/resources/cli/base/folder_z1/folder_z2/folder_z3/file_3.php";
   "jfiletreeprettyprinter-cli/src/test/resources/cli/options/childLimit_dynamic_allOf.yaml"; "jfiletreeprettyprinter-cli/src/test/resources/cli/options/childLimit_dynamic_everything.yaml"; "jfiletreeprettyprinter-cli/src/test/resources/cli/options/childLimit_dynamic_noneOf.yaml";
   "jfiletreeprettyprinter-cli/src/test/resources/cli/options/compactDirectories.yaml"; "jfiletreeprettyprinter-cli/src/test/resources/cli/options/filter.yaml"; "jfiletreeprettyprinter-cli/src/test/resources/cli/options/lineExtensions.yaml";
   "jfiletreeprettyprinter-cli/src/test/resources/cli/options/maxDepth.yaml"; "jfiletreeprettyprinter-core/src/main/java/io/github/computerdaddyguy/jfiletreeprettyprinter/DefaultFileTreePrettyPrinter.java"; "jfiletreeprettyprinter-core/src/main/java/io/github/computerdaddyguy/jfiletreeprettyprinter/FileTreePrettyPrinterBuilder.java";
   "jfiletreeprettyprinter-core/src/main/java/io/github/computerdaddyguy/jfiletreeprettyprinter/options/ChildLimits.java"; "jfiletreeprettyprinter-core/src/main/java/io/github/computerdaddyguy/jfiletreeprettyprinter/options/DefaultEmojiMappingBuilder.java"; "jfiletreeprettyprinter-core/src/main/java/io/github/computerdaddyguy/jfiletreeprettyprinter/options/EmojiMappingBuilder.java";
   "jfiletreeprettyprinter-core/src/main/java/io/github/computerdaddyguy/jfiletreeprettyprinter/options/LineExtensions.java"; "jfiletreeprettyprinter-core/src/main/java/io/github/computerdaddyguy/jfiletreeprettyprinter/options/PathExtensionEmojiFunction.java"; "jfiletreeprettyprinter-core/src/main/java/io/github/computerdaddyguy/jfiletreeprettyprinter/options/PathMatchers.java";
   "jfiletreeprettyprinter-core/src/main/java/io/github/computerdaddyguy/jfiletreeprettyprinter/options/PathSortBuilder.java"; "jfiletreeprettyprinter-core/src/main/java/io/github/computerdaddyguy/jfiletreeprettyprinter/options/PrettyPrintOptions.java"; "jfiletreeprettyprinter-core/src/main/java/io/github/computerdaddyguy/jfiletreeprettyprinter/options/TreeFormat.java";
   "jfiletreeprettyprinter-core/src/main/java/io/github/computerdaddyguy/jfiletreeprettyprinter/renderer/DefaultFileFormatter.java"; "jfiletreeprettyprinter-core/src/main/java/io/github/computerdaddyguy/jfiletreeprettyprinter/renderer/DefaultTreeEntryRenderer.java"; "jfiletreeprettyprinter-core/src/main/java/io/github/computerdaddyguy/jfiletreeprettyprinter/renderer/Depth.java";
   "jfiletreeprettyprinter-core/src/main/java/io/github/computerdaddyguy/jfiletreeprettyprinter/renderer/FileFormatter.java"; "jfiletreeprettyprinter-core/src/main/java/io/github/computerdaddyguy/jfiletreeprettyprinter/renderer/RenderingOptions.java"; "jfiletreeprettyprinter-core/src/main/java/io/github/computerdaddyguy/jfiletreeprettyprinter/renderer/TreeFormatter.java";
   "jfiletreeprettyprinter-core/src/main/java/io/github/computerdaddyguy/jfiletreeprettyprinter/scanner/DefaultPathToTreeScanner.java"; "jfiletreeprettyprinter-core/src/main/java/io/github/computerdaddyguy/jfiletreeprettyprinter/scanner/ScanningOptions.java"; "jfiletreeprettyprinter-core/src/test/java/io/github/computerdaddyguy/jfiletreeprettyprinter/BasicUsageTest.java";
   "jfiletreeprettyprinter-core/src/test/java/io/github/computerdaddyguy/jfiletreeprettyprinter/ChildLimitStaticTest.java"; "jfiletreeprettyprinter-core/src/test/java/io/github/computerdaddyguy/jfiletreeprettyprinter/EmojisTest.java"; "jfiletreeprettyprinter-core/src/test/java/io/github/computerdaddyguy/jfiletreeprettyprinter/FileTreePrettyPrinterTest.java";
   "jfiletreeprettyprinter-core/src/test/java/io/github/computerdaddyguy/jfiletreeprettyprinter/LineExtensionTest.java"; "jfiletreeprettyprinter-core/src/test/java/io/github/computerdaddyguy/jfiletreeprettyprinter/PathMatchersTest.java"; "jfiletreeprettyprinter-core/src/test/java/io/github/computerdaddyguy/jfiletreeprettyprinter/SortingTest.java";
   "jfiletreeprettyprinter-core/src/test/java/io/github/computerdaddyguy/jfiletreeprettyprinter/renderer/DepthTest.java"; "jfiletreeprettyprinter-core/src/test/java/io/github/computerdaddyguy/jfiletreeprettyprinter/util/FileStructures.java"; "jfiletreeprettyprinter-core/src/test/resources/sorting/by_file_size/file_2";
   "jfiletreeprettyprinter-core/src/test/resources/sorting/by_file_size/file_4"; "jfiletreeprettyprinter-examples/pom.xml"; "jfiletreeprettyprinter-examples/src/main/java/io/github/computerdaddyguy/jfiletreeprettyprinter/example/ChildLimitDynamic.java";
   "jfiletreeprettyprinter-examples/src/main/java/io/github/computerdaddyguy/jfiletreeprettyprinter/example/CompactDirectories.java"; "jfiletreeprettyprinter-examples/src/main/java/io/github/computerdaddyguy/jfiletreeprettyprinter/example/FileTreeFormat.java"; "jfiletreeprettyprinter-examples/src/main/java/io/github/computerdaddyguy/jfiletreeprettyprinter/example/LineExtension.java";
   "jfiletreeprettyprinter-examples/src/main/java/io/github/computerdaddyguy/jfiletreeprettyprinter/example/ProjectStructure.java"; "jfiletreeprettyprinter-examples/src/main/resources/base/businessPlan.pdf"; "jfiletreeprettyprinter-examples/src/main/resources/base/cars/Ferrari.doc";
   "jfiletreeprettyprinter-examples/src/main/resources/base/diyIdeas.docx"; "jfiletreeprettyprinter-examples/src/main/resources/base/images/funnyCat.gif"; "jfiletreeprettyprinter-examples/src/main/resources/base/images/holidays/meAtTheZoo.jpeg";
   "jfiletreeprettyprinter-examples/src/main/resources/child_limit_dynamic/file_0_1"; "jfiletreeprettyprinter-examples/src/main/resources/child_limit_dynamic/folder_1/file_1_2"; "jfiletreeprettyprinter-examples/src/main/resources/child_limit_dynamic/folder_1/file_1_4";
   "jfiletreeprettyprinter-examples/src/main/resources/child_limit_dynamic/node_modules/file_node_01"; "jfiletreeprettyprinter-examples/src/main/resources/child_limit_dynamic/node_modules/file_node_03"; "jfiletreeprettyprinter-examples/src/main/resources/child_limit_dynamic/node_modules/file_node_05";
   "jfiletreeprettyprinter-examples/src/main/resources/child_limit_dynamic/node_modules/file_node_07"; "jfiletreeprettyprinter-examples/src/main/resources/child_limit_dynamic/node_modules/file_node_09"; "jfiletreeprettyprinter-examples/src/main/resources/child_limit_dynamic/node_modules/file_node_11";
   "jfiletreeprettyprinter-examples/src/main/resources/child_limit_dynamic/node_modules/file_node_13"; "jfiletreeprettyprinter-examples/src/main/resources/child_limit_dynamic/node_modules/file_node_15"; "jfiletreeprettyprinter-examples/src/main/resources/child_limit_dynamic/node_modules/file_node_17";
   "jfiletreeprettyprinter-examples/src/main/resources/child_limit_dynamic/node_modules/file_node_19"; "jfiletreeprettyprinter-examples/src/main/resources/child_limit_static/file_0_1"; "jfiletreeprettyprinter-examples/src/main/resources/child_limit_static/folder_1/file_1_2";
   "jfiletreeprettyprinter-examples/src/main/resources/child_limit_static/folder_1/file_1_4"; "jfiletreeprettyprinter-examples/src/main/resources/child_limit_static/folder_2/file_2_1"; "jfiletreeprettyprinter-examples/src/main/resources/child_limit_static/folder_2/file_2_3";
   "jfiletreeprettyprinter-examples/src/main/resources/child_limit_static/folder_2/file_2_5"; "jfiletreeprettyprinter-examples/src/main/resources/child_limit_static/folder_3/file_3_2"; "jfiletreeprettyprinter-examples/src/main/resources/child_limit_static/folder_3/file_3_4";
   "jfiletreeprettyprinter-examples/src/main/resources/child_limit_static/folder_4/file_4_1"; "jfiletreeprettyprinter-examples/src/main/resources/child_limit_static/folder_4/file_4_3"; "jfiletreeprettyprinter-examples/src/main/resources/child_limit_static/folder_4/file_4_5";
   "jfiletreeprettyprinter-examples/src/main/resources/child_limit_static/folder_5/file_5_2"; "jfiletreeprettyprinter-examples/src/main/resources/child_limit_static/folder_5/file_5_4"; "jfiletreeprettyprinter-examples/src/main/resources/cli/options/full-options.yaml";
   "jfiletreeprettyprinter-examples/src/main/resources/depth_limit/level_1/file_1_2"; "jfiletreeprettyprinter-examples/src/main/resources/depth_limit/level_1/level_2/file_2_2"; "jfiletreeprettyprinter-examples/src/main/resources/depth_limit/level_1/level_2/level_3/file_3_2";
   "jfiletreeprettyprinter-examples/src/main/resources/depth_limit/level_1/level_2/level_3/level_4/file_4_2"; "jfiletreeprettyprinter-examples/src/main/resources/depth_limit/level_1/level_2/level_3/level_4/level_5/file_5_2"; "jfiletreeprettyprinter-examples/src/main/resources/emojis/Jenkinsfile";
   "jfiletreeprettyprinter-examples/src/main/resources/emojis/file.docx"; "jfiletreeprettyprinter-examples/src/main/resources/emojis/file.java"; "jfiletreeprettyprinter-examples/src/main/resources/emojis/file.mp3";
   "jfiletreeprettyprinter-examples/src/main/resources/emojis/file.xlsx"; "jfiletreeprettyprinter-examples/src/main/resources/emojis/readme"; "jfiletreeprettyprinter-examples/src/main/resources/filtering/dir_with_java_files/file_C.cpp";
   "jfiletreeprettyprinter-examples/src/main/resources/filtering/dir_with_java_files/file_E.java"; "jfiletreeprettyprinter-examples/src/main/resources/filtering/dir_with_nested_java_files/nested_dir_with_java_files/file_H.cpp"; "jfiletreeprettyprinter-examples/src/main/resources/filtering/dir_with_nested_java_files/nested_dir_with_java_files/file_J.java";
   "jfiletreeprettyprinter-examples/src/main/resources/filtering/dir_with_nested_java_files/nested_dir_with_no_java_file/file_L.ts"; "jfiletreeprettyprinter-examples/src/main/resources/filtering/dir_with_no_java_file/file_N.ts"; "jfiletreeprettyprinter-examples/src/main/resources/line_extension/src/main/java/api/Controller.java";
   "jfiletreeprettyprinter-examples/src/main/resources/line_extension/src/main/java/infra/Repository.java"; "jfiletreeprettyprinter-examples/src/main/resources/max_depth/level1/file1#1"; "jfiletreeprettyprinter-examples/src/main/resources/max_depth/level1/level2/file2#1";
   "jfiletreeprettyprinter-examples/src/main/resources/max_depth/level1/level2/level3/file3#1"; "jfiletreeprettyprinter-examples/src/main/resources/max_depth/level1/level2/level3/level4/file4#1"; "jfiletreeprettyprinter-examples/src/main/resources/single_directory_child/file1";
   "jfiletreeprettyprinter-examples/src/main/resources/single_directory_child/this/is/single/directory/child/file1"; "jfiletreeprettyprinter-examples/src/main/resources/single_directory_child/this/is/single/directory/child/file3"; "jfiletreeprettyprinter-examples/src/main/resources/sorting/b_file";
   "jfiletreeprettyprinter-examples/src/main/resources/sorting/d_dir/d_a_file"; "jfiletreeprettyprinter-examples/src/main/resources/sorting/x_file"; "jfiletreeprettyprinter-examples/src/main/resources/tree_format/file_1";
   "jfiletreeprettyprinter-examples/src/main/resources/tree_format/subFolder/subFile_1"; "jfiletreeprettyprinter-examples/src/test/java/io/github/computerdaddyguy/jfiletreeprettyprinter/example/BasicUsageTest.java"; "jfiletreeprettyprinter-examples/src/test/java/io/github/computerdaddyguy/jfiletreeprettyprinter/example/ChildLimitStaticTest.java";
   "jfiletreeprettyprinter-examples/src/test/java/io/github/computerdaddyguy/jfiletreeprettyprinter/example/EmojisTest.java"; "jfiletreeprettyprinter-examples/src/test/java/io/github/computerdaddyguy/jfiletreeprettyprinter/example/FilteringTest.java"; "jfiletreeprettyprinter-examples/src/test/java/io/github/computerdaddyguy/jfiletreeprettyprinter/example/MaxDepthTest.java";
   "jfiletreeprettyprinter-examples/src/test/java/io/github/computerdaddyguy/jfiletreeprettyprinter/example/SortingTest.java"; "runMutationTests.sh"; ".github/workflows/create-github-release.yml";
   ".github/workflows/snapshot.yml"; ".gitignore"; "CONTRIBUTING.md";
   "README.md"; "SECURITY.md"; "docs/How-to-build-a-native-executable-locally.md";
   "docs/Renew-sonar-token.md"; "jfiletreeprettyprinter-cli/src/main/java/io/github/computerdaddyguy/jfiletreeprettyprinter/cli/FileTreePrettyPrinterCommandLine.java"; "jfiletreeprettyprinter-cli/src/main/java/io/github/computerdaddyguy/jfiletreeprettyprinter/cli/PrettyPrintCommand.java";
   "jfiletreeprettyprinter-cli/src/main/java/io/github/computerdaddyguy/jfiletreeprettyprinter/cli/exception/DefaultExecutionExceptionHandler.java"; "jfiletreeprettyprinter-cli/src/main/java/io/github/computerdaddyguy/jfiletreeprettyprinter/cli/io/ConsoleOutput.java"; "jfiletreeprettyprinter-cli/src/main/java/io/github/computerdaddyguy/jfiletreeprettyprinter/cli/options/DefaultOptionsLoader.java";
   "jfiletreeprettyprinter-cli/src/main/java/io/github/computerdaddyguy/jfiletreeprettyprinter/cli/options/mapper/DefaultExternalOptionsMapper.java"; "jfiletreeprettyprinter-cli/src/main/java/io/github/computerdaddyguy/jfiletreeprettyprinter/cli/options/model/ChildLimit.java"; "jfiletreeprettyprinter-cli/src/main/java/io/github/computerdaddyguy/jfiletreeprettyprinter/cli/options/model/Filter.java";
   "jfiletreeprettyprinter-cli/src/main/java/io/github/computerdaddyguy/jfiletreeprettyprinter/cli/options/model/Matcher.java"; "jfiletreeprettyprinter-cli/src/main/java/io/github/computerdaddyguy/jfiletreeprettyprinter/cli/options/reader/FallbackExternalOptionsReader.java"; "jfiletreeprettyprinter-cli/src/main/resources/META-INF/native-image/io.github.computerdaddyguy/jfiletreeprettyprinter/reachability-metadata.json";
   "jfiletreeprettyprinter-cli/src/test/java/io/github/computerdaddyguy/jfiletreeprettyprinter/cli/FileTreePrettyPrinterCommandLineTest.java"; "jfiletreeprettyprinter-cli/src/test/java/io/github/computerdaddyguy/jfiletreeprettyprinter/cli/RecordUtilsTest.java"; "jfiletreeprettyprinter-cli/src/test/resources/cli/base/folder_a/file_2.java";
   "jfiletreeprettyprinter-cli/src/test/resources/cli/base/folder_a/file_4.jpeg"; "jfiletreeprettyprinter-cli/src/test/resources/cli/base/folder_b/file_2.java"; "jfiletreeprettyprinter-cli/src/test/resources/cli/base/folder_b/file_4.jpeg";
   "jfiletreeprettyprinter-cli/src/test/resources/cli/base/folder_c/file_2.java"; "jfiletreeprettyprinter-cli/src/test/resources/cli/base/folder_c/file_4.jpeg"; "jfiletreeprettyprinter-cli/src/test/resources/cli/base/folder_d/file_2.java";
   "jfiletreeprettyprinter-cli/src/test/resources/cli/base/folder_d/file_4.jpeg"; "jfiletreeprettyprinter-cli/src/test/resources/cli/base/folder_z1/folder_z2/folder_z3/file_2.java"; "jfiletreeprettyprinter-cli/src/test/resources/cli/base/folder_z1/folder_z2/folder_z3/file_4.jpeg";
   "jfiletreeprettyprinter-cli/src/test/resources/cli/options/childLimit_dynamic_anyOf.yaml"; "jfiletreeprettyprinter-cli/src/test/resources/cli/options/childLimit_dynamic_glob.yaml"; "jfiletreeprettyprinter-cli/src/test/resources/cli/options/childLimit_static.yaml";
   "jfiletreeprettyprinter-cli/src/test/resources/cli/options/emojis.yaml"; "jfiletreeprettyprinter-cli/src/test/resources/cli/options/invalid.yaml"; "jfiletreeprettyprinter-cli/src/test/resources/cli/options/malformed.yaml";
   "jfiletreeprettyprinter-core/pom.xml"; "jfiletreeprettyprinter-core/src/main/java/io/github/computerdaddyguy/jfiletreeprettyprinter/FileTreePrettyPrinter.java"; "jfiletreeprettyprinter-core/src/main/java/io/github/computerdaddyguy/jfiletreeprettyprinter/options/ChildLimitBuilder.java";
   "jfiletreeprettyprinter-core/src/main/java/io/github/computerdaddyguy/jfiletreeprettyprinter/options/DefaultEmojiMapping.java"; "jfiletreeprettyprinter-core/src/main/java/io/github/computerdaddyguy/jfiletreeprettyprinter/options/EmojiMapping.java"; "jfiletreeprettyprinter-core/src/main/java/io/github/computerdaddyguy/jfiletreeprettyprinter/options/LineExtensionBuilder.java";
   "jfiletreeprettyprinter-core/src/main/java/io/github/computerdaddyguy/jfiletreeprettyprinter/options/MappingUtils.java"; "jfiletreeprettyprinter-core/src/main/java/io/github/computerdaddyguy/jfiletreeprettyprinter/options/PathMatcherEmojiFunction.java"; "jfiletreeprettyprinter-core/src/main/java/io/github/computerdaddyguy/jfiletreeprettyprinter/options/PathNameEmojiFunction.java";
   "jfiletreeprettyprinter-core/src/main/java/io/github/computerdaddyguy/jfiletreeprettyprinter/options/PathSorts.java"; "jfiletreeprettyprinter-core/src/main/java/io/github/computerdaddyguy/jfiletreeprettyprinter/options/SequentialEmojiFunction.java"; "jfiletreeprettyprinter-core/src/main/java/io/github/computerdaddyguy/jfiletreeprettyprinter/options/TreeFormats.java";
   "jfiletreeprettyprinter-core/src/main/java/io/github/computerdaddyguy/jfiletreeprettyprinter/renderer/DefaultLineRenderer.java"; "jfiletreeprettyprinter-core/src/main/java/io/github/computerdaddyguy/jfiletreeprettyprinter/renderer/DefaultTreeFormatter.java"; "jfiletreeprettyprinter-core/src/main/java/io/github/computerdaddyguy/jfiletreeprettyprinter/renderer/EmojiFileFormatter.java";
   "jfiletreeprettyprinter-core/src/main/java/io/github/computerdaddyguy/jfiletreeprettyprinter/renderer/LineRenderer.java"; "jfiletreeprettyprinter-core/src/main/java/io/github/computerdaddyguy/jfiletreeprettyprinter/renderer/TreeEntryRenderer.java"; "jfiletreeprettyprinter-core/src/main/java/io/github/computerdaddyguy/jfiletreeprettyprinter/renderer/TreeSymbol.java";
   "jfiletreeprettyprinter-core/src/main/java/io/github/computerdaddyguy/jfiletreeprettyprinter/scanner/PathToTreeScanner.java"; "jfiletreeprettyprinter-core/src/main/java/io/github/computerdaddyguy/jfiletreeprettyprinter/scanner/TreeEntry.java"; "jfiletreeprettyprinter-core/src/test/java/io/github/computerdaddyguy/jfiletreeprettyprinter/ChildLimitDynamicTest.java";
   "jfiletreeprettyprinter-core/src/test/java/io/github/computerdaddyguy/jfiletreeprettyprinter/CompactDirectoriesTest.java"; "jfiletreeprettyprinter-core/src/test/java/io/github/computerdaddyguy/jfiletreeprettyprinter/FileTreePrettyPrinterBuilderTest.java"; "jfiletreeprettyprinter-core/src/test/java/io/github/computerdaddyguy/jfiletreeprettyprinter/FilteringTest.java";
   "jfiletreeprettyprinter-core/src/test/java/io/github/computerdaddyguy/jfiletreeprettyprinter/MaxDepthTest.java"; "jfiletreeprettyprinter-core/src/test/java/io/github/computerdaddyguy/jfiletreeprettyprinter/PathSortBuilderTest.java"; "jfiletreeprettyprinter-core/src/test/java/io/github/computerdaddyguy/jfiletreeprettyprinter/TreeFormatTest.java";
   "jfiletreeprettyprinter-core/src/test/java/io/github/computerdaddyguy/jfiletreeprettyprinter/util/FileStructureCreator.java"; "jfiletreeprettyprinter-core/src/test/resources/sorting/by_file_size/file_1"; "jfiletreeprettyprinter-core/src/test/resources/sorting/by_file_size/file_3";
   "jfiletreeprettyprinter-core/src/test/resources/sorting/by_file_size/file_5"; "jfiletreeprettyprinter-examples/src/main/java/io/github/computerdaddyguy/jfiletreeprettyprinter/example/BasicUsage.java"; "jfiletreeprettyprinter-examples/src/main/java/io/github/computerdaddyguy/jfiletreeprettyprinter/example/ChildLimitStatic.java";
   "jfiletreeprettyprinter-examples/src/main/java/io/github/computerdaddyguy/jfiletreeprettyprinter/example/Emojis.java"; "jfiletreeprettyprinter-examples/src/main/java/io/github/computerdaddyguy/jfiletreeprettyprinter/example/Filtering.java"; "jfiletreeprettyprinter-examples/src/main/java/io/github/computerdaddyguy/jfiletreeprettyprinter/example/MaxDepth.java";
   "jfiletreeprettyprinter-examples/src/main/java/io/github/computerdaddyguy/jfiletreeprettyprinter/example/Sorting.java"; "jfiletreeprettyprinter-examples/src/main/resources/base/businessProject.pdf"; "jfiletreeprettyprinter-examples/src/main/resources/base/cars/Porsche.doc";
   "jfiletreeprettyprinter-examples/src/main/resources/base/giftIdeas.txt"; "jfiletreeprettyprinter-examples/src/main/resources/base/images/holidays/meAtTheBeach.jpeg"; "jfiletreeprettyprinter-examples/src/main/resources/base/images/landscape.jpeg";
   "jfiletreeprettyprinter-examples/src/main/resources/child_limit_dynamic/folder_1/file_1_1"; "jfiletreeprettyprinter-examples/src/main/resources/child_limit_dynamic/folder_1/file_1_3"; "jfiletreeprettyprinter-examples/src/main/resources/child_limit_dynamic/folder_1/file_1_5";
   "jfiletreeprettyprinter-examples/src/main/resources/child_limit_dynamic/node_modules/file_node_02"; "jfiletreeprettyprinter-examples/src/main/resources/child_limit_dynamic/node_modules/file_node_04"; "jfiletreeprettyprinter-examples/src/main/resources/child_limit_dynamic/node_modules/file_node_06";
   "jfiletreeprettyprinter-examples/src/main/resources/child_limit_dynamic/node_modules/file_node_08"; "jfiletreeprettyprinter-examples/src/main/resources/child_limit_dynamic/node_modules/file_node_10"; "jfiletreeprettyprinter-examples/src/main/resources/child_limit_dynamic/node_modules/file_node_12";
   "jfiletreeprettyprinter-examples/src/main/resources/child_limit_dynamic/node_modules/file_node_14"; "jfiletreeprettyprinter-examples/src/main/resources/child_limit_dynamic/node_modules/file_node_16"; "jfiletreeprettyprinter-examples/src/main/resources/child_limit_dynamic/node_modules/file_node_18";
   "jfiletreeprettyprinter-examples/src/main/resources/child_limit_dynamic/node_modules/file_node_20"; "jfiletreeprettyprinter-examples/src/main/resources/child_limit_static/folder_1/file_1_1"; "jfiletreeprettyprinter-examples/src/main/resources/child_limit_static/folder_1/file_1_3";
   "jfiletreeprettyprinter-examples/src/main/resources/child_limit_static/folder_1/file_1_5"; "jfiletreeprettyprinter-examples/src/main/resources/child_limit_static/folder_2/file_2_2"; "jfiletreeprettyprinter-examples/src/main/resources/child_limit_static/folder_2/file_2_4";
   "jfiletreeprettyprinter-examples/src/main/resources/child_limit_static/folder_3/file_3_1"; "jfiletreeprettyprinter-examples/src/main/resources/child_limit_static/folder_3/file_3_3"; "jfiletreeprettyprinter-examples/src/main/resources/child_limit_static/folder_3/file_3_5";
   "jfiletreeprettyprinter-examples/src/main/resources/child_limit_static/folder_4/file_4_2"; "jfiletreeprettyprinter-examples/src/main/resources/child_limit_static/folder_4/file_4_4"; "jfiletreeprettyprinter-examples/src/main/resources/child_limit_static/folder_5/file_5_1";
   "jfiletreeprettyprinter-examples/src/main/resources/child_limit_static/folder_5/file_5_3"; "jfiletreeprettyprinter-examples/src/main/resources/child_limit_static/folder_5/file_5_5"; "jfiletreeprettyprinter-examples/src/main/resources/depth_limit/level_1/file_1_1";
   "jfiletreeprettyprinter-examples/src/main/resources/depth_limit/level_1/level_2/file_2_1"; "jfiletreeprettyprinter-examples/src/main/resources/depth_limit/level_1/level_2/level_3/file_3_1"; "jfiletreeprettyprinter-examples/src/main/resources/depth_limit/level_1/level_2/level_3/level_4/file_4_1";
   "jfiletreeprettyprinter-examples/src/main/resources/depth_limit/level_1/level_2/level_3/level_4/level_5/file_5_1"; "jfiletreeprettyprinter-examples/src/main/resources/emojis/Dockerfile"; "jfiletreeprettyprinter-examples/src/main/resources/emojis/file.avi";
   "jfiletreeprettyprinter-examples/src/main/resources/emojis/file.ini"; "jfiletreeprettyprinter-examples/src/main/resources/emojis/file.jpeg"; "jfiletreeprettyprinter-examples/src/main/resources/emojis/file.pdf";
   "jfiletreeprettyprinter-examples/src/main/resources/emojis/file.zip"; "jfiletreeprettyprinter-examples/src/main/resources/filtering/dir_with_java_files/file_B.java"; "jfiletreeprettyprinter-examples/src/main/resources/filtering/dir_with_java_files/file_D.ts";
   "jfiletreeprettyprinter-examples/src/main/resources/filtering/dir_with_nested_java_files/nested_dir_with_java_files/file_G.java"; "jfiletreeprettyprinter-examples/src/main/resources/filtering/dir_with_nested_java_files/nested_dir_with_java_files/file_I.ts"; "jfiletreeprettyprinter-examples/src/main/resources/filtering/dir_with_nested_java_files/nested_dir_with_no_java_file/file_K.cpp";
   "jfiletreeprettyprinter-examples/src/main/resources/filtering/dir_with_no_java_file/file_M.cpp"; "jfiletreeprettyprinter-examples/src/main/resources/filtering/file_A.java"; "jfiletreeprettyprinter-examples/src/main/resources/line_extension/src/main/java/domain/ValueObject.java";
   "jfiletreeprettyprinter-examples/src/main/resources/line_extension/src/main/resources/application.properties"; "jfiletreeprettyprinter-examples/src/main/resources/max_depth/level1/file1#2"; "jfiletreeprettyprinter-examples/src/main/resources/max_depth/level1/level2/file2#2";
   "jfiletreeprettyprinter-examples/src/main/resources/max_depth/level1/level2/level3/file3#2"; "jfiletreeprettyprinter-examples/src/main/resources/max_depth/level1/level2/level3/level4/file4#2"; "jfiletreeprettyprinter-examples/src/main/resources/single_directory_child/file2";
   "jfiletreeprettyprinter-examples/src/main/resources/single_directory_child/this/is/single/directory/child/file2"; "jfiletreeprettyprinter-examples/src/main/resources/sorting/a_file"; "jfiletreeprettyprinter-examples/src/main/resources/sorting/c_dir/c_file";
   "jfiletreeprettyprinter-examples/src/main/resources/sorting/d_dir/d_b_dir/d_b_file"; "jfiletreeprettyprinter-examples/src/main/resources/sorting/y_file"; "jfiletreeprettyprinter-examples/src/main/resources/tree_format/file_2";
   "jfiletreeprettyprinter-examples/src/main/resources/tree_format/subFolder/subFile_2"; "jfiletreeprettyprinter-examples/src/test/java/io/github/computerdaddyguy/jfiletreeprettyprinter/example/ChildLimitDynamicTest.java"; "jfiletreeprettyprinter-examples/src/test/java/io/github/computerdaddyguy/jfiletreeprettyprinter/example/CompactDirectoriesTest.java";
   "jfiletreeprettyprinter-examples/src/test/java/io/github/computerdaddyguy/jfiletreeprettyprinter/example/FileTreeFormatTest.java"; "jfiletreeprettyprinter-examples/src/test/java/io/github/computerdaddyguy/jfiletreeprettyprinter/example/LineExtensionTest.java"; "jfiletreeprettyprinter-examples/src/test/java/io/github/computerdaddyguy/jfiletreeprettyprinter/example/ProjectStructureTest.java";
   "pom.xml"; "jfiletreeprettyprinter-core/target/classes/module-info.class"].

Definition examples_jvm : jvm := mkJvm (names_of "work/JFileTreePrettyPrinter/jfiletreeprettyprinter-examples") (map ascii_lower) ascii_lower jdk_glob.
Definition project_world : world := static_world (tree_fs project) examples_jvm.

(** The depth of hasAnyDescendantMatching is Integer.MAX_VALUE; here it is 30, more than the depth of the tree. *)
Definition any_descendant (m : matcher) : matcher := fun p => test_descendants p 30 m (fun f => negb (path_eqb f p)).

(** ProjectStructureTest.java:12-39. *)
Example t_project_structure : result (project_structure_with (any_descendant (pm_name (js "FileTreePrettyPrinter.java"))) project_world []) = Some (text
  ["📂 JFileTreePrettyPrinter/";
   "├─ 📂 jfiletreeprettyprinter-core/	// The Java lib";
   "│  ├─ 📂 src/main/java/io/github/computerdaddyguy/jfiletreeprettyprinter/";
   "│  │  └─ ☕ FileTreePrettyPrinter.java	// Lib main entry point";
   "│  └─ ...";
   "├─ 📂 jfiletreeprettyprinter-examples/	// Some examples";
   "│  └─ ...";
   "├─ 📂 jfiletreeprettyprinter-cli/	// Everything to build the executable";
   "│  └─ ...";
   "├─ 📂 assets/";
   "│  └─ 🖼️ project-structure.png	// This image";
   "├─ 📂 docs/";
   "│  ├─ 📝 How-to-build-a-native-executable-locally.md";
   "│  ├─ 📝 Release-process.md";
   "│  └─ 📝 Renew-sonar-token.md";
   "├─ 🆕 CHANGELOG.md";
   "├─ 🤝 CONTRIBUTING.md";
   "├─ ⚖️ LICENSE";
   "├─ 📘 README.md		// You're reading at this!";
   "├─ 🗺️ ROADMAP.md";
   "├─ 🛡️ SECURITY.md";
   "├─ 🛠️ pom.xml";
   "└─ 📜 runMutationTests.sh"]).
Proof. vm_compute. reflexivity. Qed.

Definition cli_base : list node := at_ "work/module/src/test/resources/cli/base"
  ["folder_a/file_2.java"; "folder_a/file_4.jpeg"; "folder_b/file_2.java";
   "folder_b/file_4.jpeg"; "folder_c/file_2.java"; "folder_c/file_4.jpeg";
   "folder_d/file_2.java"; "folder_d/file_4.jpeg"; "folder_z1/folder_z2/folder_z3/file_2.java";
   "folder_z1/folder_z2/folder_z3/file_4.jpeg"; "folder_a/file_1.txt"; "folder_a/file_3.php";
   "folder_b/file_1.txt"; "folder_b/file_3.php"; "folder_c/file_1.txt";
   "folder_c/file_3.php"; "folder_d/file_1.txt"; "folder_d/file_3.php";
   "folder_z1/folder_z2/folder_z3/file_1.txt"; "folder_z1/folder_z2/folder_z3/file_3.php"].

(** ** FileTreePrettyPrinterCommandLineTest, RecordUtilsTest *)
Definition base_path : path := pth "src/test/resources/cli/base".
(** The program with the words of the command line as in the test; there are no argument files. *)
Definition cli_run (words : list string) (w : cworld) : cstate :=
  snd (execute (mkPico (fun _ => false) (fun _ => NoFile) false [] [] (fun _ => []) []) (map js words) w cli_start).
Definition options_path (s : string) : path := (* absolute, as the command looks it up *)
  child (pth "/work/module/src/test/resources/cli/options") (js s).
Definition cli_case (l : loaded) : cworld :=
  let w := case_cli (world_of cli_base) (case_files [(options_path "o.yaml", l)] [pth "/work/module/src/test/resources/cli/base"]) in w.
Definition run_with (l : loaded) : cstate :=
  cli_run ["src/test/resources/cli/base"; "-o"; "src/test/resources/cli/options/o.yaml"] (cli_case l).
(** What the test compares: all that was written, and what the library prints with these options, followed by a line separator. *)
Definition as_library (o : M options) (l : loaded) : Prop :=
  let m := o <- o; pretty_print o base_path in
  match m (world_of cli_base) [] with
  | (Ok t, _) => cs_out (run_with l) = (t ++ [c_nl])%list /\ cs_err (run_with l) = []
  | (Throw _, _) => False
  end.
Definition doc (e c : option bool) (d : option Z) (l : option xlimit) (f : option xfilter) (x : option (list (option xextension))) : loaded :=
  LoadDoc (mkXOptions e c d l f x).
Definition name_ (s : string) : xmatcher := XmName (Some (js s)).
Definition dynamic (l : list (Z * xmatcher)) : option xlimit :=
  Some (XDynamic (Some (map (fun i => Some (mkXItem (Some (fst i)) (snd i))) l))).
Definition limited (l : list (matcher * Z)) : options :=
  with_child_limit_fn (limit_call (limit_run (limit_start UNLIMITED) (map (fun i => LOp (LAddMatcher (fst i) (snd i))) l ++ [LBuild])) 0) default_options.
Definition two_globs (f : list (option matcher) -> res matcher) (a b : string) : M matcher :=
  x <- pm_name_glob (js a); y <- pm_name_glob (js b); lift_res (f [Some x; Some y]).

(** FileTreePrettyPrinterCommandLineTest.java:56-69: without options file. *)
Example cli_no_options :
  let r := cli_run ["src/test/resources/cli/base"]
             (case_cli (world_of cli_base) (case_files [] [pth "/work/module/src/test/resources/cli/base"])) in
  match pretty_print default_options base_path (world_of cli_base) [] with
  | (Ok t, _) => cs_out r = (t ++ [c_nl])%list /\ cs_err r = []
  | (Throw _, _) => False
  end.
Proof. vm_compute. split; reflexivity. Qed.

(** FileTreePrettyPrinterCommandLineTest.java:71-100: an options file that does not exist, one that is malformed, an invalid one. *)
Example cli_errors :
  let starts (x : string) (s : cstate) := jprefixb (js x) (cs_err s) && jeqb (cs_out s) [] in
  starts "[ERROR] Options file does not exist:"
    (cli_run ["src/test/resources/cli/base"; "-o"; "not_existing"] (cli_case LoadFails)) = true /\
  contains (js "not_existing")
    (cs_err (cli_run ["src/test/resources/cli/base"; "-o"; "not_existing"] (cli_case LoadFails))) = true /\
  starts "[ERROR] IO error or malformed options file:" (run_with LoadFails) = true /\
  contains (js "o.yaml") (cs_err (run_with LoadFails)) = true /\
  starts "[ERROR] Invalid options file:" (run_with (doc None None None (dynamic [(2%Z, name_ ""); (3%Z, name_ "")]) None None)) = true.
Proof. vm_compute. repeat split; reflexivity. Qed.

(** FileTreePrettyPrinterCommandLineTest.java:119-203: emojis, compactDirectories, maxDepth, static limit. *)
Example cli_simple_options :
  as_library (ret default_emojis) (doc (Some true) None None None None None) /\
  as_library (ret (with_compact_directories true default_options)) (doc None (Some true) None None None None) /\
  as_library (ret (with_max_depth 2 default_options)) (doc None None (Some 2%Z) None None None) /\
  as_library (ret (with_child_limit 2 default_options)) (doc None None None (Some (XStatic (Some 2%Z))) None None).
Proof. vm_compute. repeat split; reflexivity. Qed.

(** FileTreePrettyPrinterCommandLineTest.java:205-301: dynamic limits. *)
Example cli_dynamic_limits :
  as_library (a <- pm_name_glob (js "*_a"); b <- pm_relative_path_glob base_path (js "/*_b"); ret (limited [(a, 2%Z); (b, 3%Z)]))
    (doc None None None (dynamic [(2%Z, name_ "*_a"); (3%Z, XmPath (Some (js "/*_b")))]) None None) /\
  as_library (ret (with_child_limit_fn (limit_call (limit_run (limit_start UNLIMITED) [LOp (LAdd (fun _ => ret 2%Z)); LBuild]) 0) default_options))
    (doc None None None (dynamic [(2%Z, XmTrue)]) None None) /\
  as_library (a <- two_globs pm_all_of "*3" "*xxx*"; b <- two_globs pm_all_of "*3" "*z*"; ret (limited [(a, 2%Z); (b, 3%Z)]))
    (doc None None None (dynamic [(2%Z, XmAllOf (Some [name_ "*3"; name_ "*xxx*"])); (3%Z, XmAllOf (Some [name_ "*3"; name_ "*z*"]))]) None None) /\
  as_library (a <- two_globs pm_any_of "*3" "*xxx*"; b <- two_globs pm_any_of "*3" "*z*"; ret (limited [(a, 2%Z); (b, 3%Z)]))
    (doc None None None (dynamic [(2%Z, XmAnyOf (Some [name_ "*3"; name_ "*xxx*"])); (3%Z, XmAnyOf (Some [name_ "*3"; name_ "*z*"]))]) None None) /\
  as_library (a <- two_globs pm_none_of "*a" "folder*"; b <- two_globs pm_none_of "*a" "*xxx*"; ret (limited [(a, 2%Z); (b, 3%Z)]))
    (doc None None None (dynamic [(2%Z, XmNoneOf (Some [name_ "*a"; name_ "folder*"])); (3%Z, XmNoneOf (Some [name_ "*a"; name_ "*xxx*"]))]) None None).
Proof. vm_compute. repeat split; reflexivity. Qed.

(** FileTreePrettyPrinterCommandLineTest.java:305-354: filter, lineExtensions. *)
Example cli_filter_and_extensions :
  as_library (a <- pm_name_glob (js "*a"); b <- pm_name_glob (js "*.java"); ret (filter_files b (filter_directories a default_options)))
    (doc None None None None (Some (mkXFilter (name_ "*a") (name_ "*.java"))) None) /\
  as_library (a <- pm_name_glob (js "*.java"); b <- pm_name_glob (js "*.php");
      ret (with_line_extension (Some (ext_call (ext_run ext_start
        [XOp (XAddMatcher a (Some (js " // This is java file"))); XOp (XAddMatcher b (Some (js " // This is php file"))); XBuild]) 0)) default_options))
    (doc None None None None None (Some [Some (mkXExtension (Some (js " // This is java file")) (name_ "*.java"));
                                         Some (mkXExtension (Some (js " // This is php file")) (name_ "*.php"))])).
Proof. vm_compute. repeat split; reflexivity. Qed.


(** RecordUtilsTest.java:16-65. *)
Example record_text_block :
  to_text_block [c_nl] (v_options (mkXOptions (Some true) (Some true) (Some 3%Z)
    (dynamic [(1%Z, name_ "*.java"); (1%Z, XmPath (Some (js "pictures")))])
    (Some (mkXFilter (name_ "folderOk") (name_ "fileOk.*")))
    (Some [Some (mkXExtension (Some (js "This is java file")) (name_ "*.java"));
           Some (mkXExtension (Some (js "This is php file")) (name_ "*.php"))]))) = text
  ["ExternalOptions";
   "  emojis: true";
   "  compactDirectories: true";
   "  maxDepth: 3";
   "  childLimit -> DynamicLimit";
   "    limits: [";
   "      [0] -> DynamicLimitItem";
   "        limit: 1";
   "        matcher -> NameGlob";
   "          glob: ""*.java""";
   "      [1] -> DynamicLimitItem";
   "        limit: 1";
   "        matcher -> PathGlob";
   "          glob: ""pictures""";
   "    ]";
   "  filter -> Filter";
   "    dir -> NameGlob";
   "      glob: ""folderOk""";
   "    file -> NameGlob";
   "      glob: ""fileOk.*""";
   "  lineExtensions: [";
   "    [0] -> LineExtension";
   "      extension: ""This is java file""";
   "      matcher -> NameGlob";
   "        glob: ""*.java""";
   "    [1] -> LineExtension";
   "      extension: ""This is php file""";
   "      matcher -> NameGlob";
   "        glob: ""*.php""";
   "  ]"].
Proof. vm_compute. reflexivity. Qed.

(** ** The options files: src/test/resources/cli/options, the one of the examples and the one of the README *)
Definition file_childLimit_dynamic_allOf : tree :=
  TObj [(js "childLimit", TObj [(js "type", TStr (js "dynamic")); (js "limits", TArr [TObj [(js "limit", TInt (2)); (js "matcher", TObj [(js
  "type", TStr (js "allOf")); (js "matchers", TArr [TObj [(js "type", TStr (js "name")); (js "glob", TStr (js "*3"))]; TObj [(js "type",
  TStr (js "name")); (js "glob", TStr (js "*xxx*"))]])])]; TObj [(js "limit", TInt (3)); (js "matcher", TObj [(js "type", TStr (js
  "allOf")); (js "matchers", TArr [TObj [(js "type", TStr (js "name")); (js "glob", TStr (js "*3"))]; TObj [(js "type", TStr (js "name"));
  (js "glob", TStr (js "*z*"))]])])]])])].
Definition file_childLimit_dynamic_anyOf : tree :=
  TObj [(js "childLimit", TObj [(js "type", TStr (js "dynamic")); (js "limits", TArr [TObj [(js "limit", TInt (2)); (js "matcher", TObj [(js
  "type", TStr (js "anyOf")); (js "matchers", TArr [TObj [(js "type", TStr (js "name")); (js "glob", TStr (js "*3"))]; TObj [(js "type",
  TStr (js "name")); (js "glob", TStr (js "*xxx*"))]])])]; TObj [(js "limit", TInt (3)); (js "matcher", TObj [(js "type", TStr (js
  "anyOf")); (js "matchers", TArr [TObj [(js "type", TStr (js "name")); (js "glob", TStr (js "*3"))]; TObj [(js "type", TStr (js "name"));
  (js "glob", TStr (js "*z*"))]])])]])])].
Definition file_childLimit_dynamic_everything : tree :=
  TObj [(js "childLimit", TObj [(js "type", TStr (js "dynamic")); (js "limits", TArr [TObj [(js "limit", TInt (2)); (js "matcher", TObj [(js
  "type", TStr (js "everything"))])]])])].
Definition file_childLimit_dynamic_glob : tree :=
  TObj [(js "childLimit", TObj [(js "type", TStr (js "dynamic")); (js "limits", TArr [TObj [(js "limit", TInt (2)); (js "matcher", TObj [(js
  "type", TStr (js "name")); (js "glob", TStr (js "*_a"))])]; TObj [(js "limit", TInt (3)); (js "matcher", TObj [(js "type", TStr (js
  "path")); (js "glob", TStr (js "/*_b"))])]])])].
Definition file_childLimit_dynamic_noneOf : tree :=
  TObj [(js "childLimit", TObj [(js "type", TStr (js "dynamic")); (js "limits", TArr [TObj [(js "limit", TInt (2)); (js "matcher", TObj [(js
  "type", TStr (js "noneOf")); (js "matchers", TArr [TObj [(js "type", TStr (js "name")); (js "glob", TStr (js "*a"))]; TObj [(js "type",
  TStr (js "name")); (js "glob", TStr (js "folder*"))]])])]; TObj [(js "limit", TInt (3)); (js "matcher", TObj [(js "type", TStr (js
  "noneOf")); (js "matchers", TArr [TObj [(js "type", TStr (js "name")); (js "glob", TStr (js "*a"))]; TObj [(js "type", TStr (js "name"));
  (js "glob", TStr (js "*xxx*"))]])])]])])].
Definition file_childLimit_static : tree :=
  TObj [(js "childLimit", TObj [(js "type", TStr (js "static")); (js "limit", TInt (2))])].
Definition file_compactDirectories : tree :=
  TObj [(js "compactDirectories", TBool true)].
Definition file_emojis : tree :=
  TObj [(js "emojis", TBool true)].
Definition file_filter : tree :=
  TObj [(js "filter", TObj [(js "dir", TObj [(js "type", TStr (js "name")); (js "glob", TStr (js "*a"))]); (js "file", TObj [(js "type",
  TStr (js "name")); (js "glob", TStr (js "*.java"))])])].
Definition file_invalid : tree :=
  TObj [(js "childLimit", TObj [(js "type", TStr (js "dynamic")); (js "limits", TArr [TObj [(js "limit", TInt (2)); (js "matcher", TObj [(js
  "type", TStr (js "name")); (js "glob", TStr (js ""))])]; TObj [(js "limit", TInt (3)); (js "matcher", TObj [(js "type", TStr (js "name"));
  (js "glob", TStr (js ""))])]])])].
Definition file_lineExtensions : tree :=
  TObj [(js "lineExtensions", TArr [TObj [(js "extension", TStr (js " // This is java file")); (js "matcher", TObj [(js "type", TStr (js
  "name")); (js "glob", TStr (js "*.java"))])]; TObj [(js "extension", TStr (js " // This is php file")); (js "matcher", TObj [(js "type",
  TStr (js "name")); (js "glob", TStr (js "*.php"))])]])].
Definition file_maxDepth : tree :=
  TObj [(js "maxDepth", TInt (2))].
Definition file_full_options : tree :=
  TObj [(js "emojis", TBool true); (js "maxDepth", TInt (2)); (js "compactDirectories", TBool true); (js "childLimit", TObj [(js "type",
  TStr (js "dynamic")); (js "limits", TArr [TObj [(js "limit", TInt (2)); (js "matcher", TObj [(js "type", TStr (js "noneOf")); (js
  "matchers", TArr [TObj [(js "type", TStr (js "name")); (js "glob", TStr (js "*a"))]; TObj [(js "type", TStr (js "name")); (js "glob", TStr
  (js "folder*"))]])])]; TObj [(js "limit", TInt (3)); (js "matcher", TObj [(js "type", TStr (js "noneOf")); (js "matchers", TArr [TObj [(js
  "type", TStr (js "name")); (js "glob", TStr (js "*a"))]; TObj [(js "type", TStr (js "name")); (js "glob", TStr (js "*xxx*"))]])])]])]);
  (js "lineExtensions", TArr [TObj [(js "extension", TStr (js " // This is java file")); (js "matcher", TObj [(js "type", TStr (js "name"));
  (js "glob", TStr (js "*.java"))])]; TObj [(js "extension", TStr (js " // This is php file")); (js "matcher", TObj [(js "type", TStr (js
  "name")); (js "glob", TStr (js "*.php"))])]]); (js "filter", TObj [(js "dir", TObj [(js "type", TStr (js "name")); (js "glob", TStr (js
  "*a"))]); (js "file", TObj [(js "type", TStr (js "name")); (js "glob", TStr (js "*.java"))])])].
Definition file_readme : tree :=
  TObj [(js "emojis", TBool true); (js "maxDepth", TInt (2)); (js "compactDirectories", TBool true); (js "childLimit", TObj [(js "type",
  TStr (js "static")); (js "limit", TInt (3))]); (js "lineExtensions", TArr [TObj [(js "extension", TStr (js " // Main entry point")); (js
  "matcher", TObj [(js "type", TStr (js "name")); (js "glob", TStr (js "FileTreePrettyPrinter.java"))])]]); (js "filter", TObj [(js "dir",
  TObj [(js "type", TStr (js "name")); (js "glob", TStr (js "src/main/**"))]); (js "file", TObj [(js "type", TStr (js "name")); (js "glob",
  TStr (js "*.java"))])])].

(** They are read as the documents used above. *)
Example options_files_read :
  reads_as file_childLimit_dynamic_allOf (doc None None None (dynamic [(2%Z, XmAllOf (Some [name_ "*3"; name_ "*xxx*"])); (3%Z, XmAllOf (Some [name_ "*3"; name_ "*z*"]))]) None None) /\
  reads_as file_childLimit_dynamic_anyOf (doc None None None (dynamic [(2%Z, XmAnyOf (Some [name_ "*3"; name_ "*xxx*"])); (3%Z, XmAnyOf (Some [name_ "*3"; name_ "*z*"]))]) None None) /\
  reads_as file_childLimit_dynamic_everything (doc None None None (dynamic [(2%Z, XmTrue)]) None None) /\
  reads_as file_childLimit_dynamic_glob (doc None None None (dynamic [(2%Z, name_ "*_a"); (3%Z, XmPath (Some (js "/*_b")))]) None None) /\
  reads_as file_childLimit_dynamic_noneOf (doc None None None (dynamic [(2%Z, XmNoneOf (Some [name_ "*a"; name_ "folder*"])); (3%Z, XmNoneOf (Some [name_ "*a"; name_ "*xxx*"]))]) None None) /\
  reads_as file_childLimit_static (doc None None None (Some (XStatic (Some 2%Z))) None None) /\
  reads_as file_compactDirectories (doc None (Some true) None None None None) /\
  reads_as file_emojis (doc (Some true) None None None None None) /\
  reads_as file_filter (doc None None None None (Some (mkXFilter (name_ "*a") (name_ "*.java"))) None) /\
  reads_as file_invalid (doc None None None (dynamic [(2%Z, name_ ""); (3%Z, name_ "")]) None None) /\
  reads_as file_lineExtensions (doc None None None None None (Some [Some (mkXExtension (Some (js " // This is java file")) (name_ "*.java")); Some (mkXExtension (Some (js " // This is php file")) (name_ "*.php"))])) /\
  reads_as file_maxDepth (doc None None (Some 2%Z) None None None).
Proof. repeat split. Qed.

(** They all conform to the schema, even invalid.yaml. *)
Example options_files_conform :
  Forall (fun t => conforms t options_schema = true) [file_childLimit_dynamic_allOf; file_childLimit_dynamic_anyOf; file_childLimit_dynamic_everything; file_childLimit_dynamic_glob; file_childLimit_dynamic_noneOf; file_childLimit_static; file_compactDirectories; file_emojis; file_filter; file_invalid; file_lineExtensions; file_maxDepth; file_full_options; file_readme].
Proof. repeat (apply Forall_cons; [vm_compute; reflexivity|]). apply Forall_nil. Qed.

(** The last two are accepted. *)
Example options_files_accepted :
  Forall (fun t => match bind_options t with Bound x => valid_options x = true | _ => False end) [file_full_options; file_readme] /\
  match bind_options file_invalid with Bound x => valid_options x = false | _ => False end.
Proof. split; [repeat (apply Forall_cons; [vm_compute; reflexivity|]); apply Forall_nil|vm_compute; reflexivity]. Qed.
