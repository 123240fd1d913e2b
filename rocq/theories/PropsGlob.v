(** * What particular globs test, on a platform with the globs of the JDK on Unix: C104-C110 *)

From Verif Require Import DocCases GlobMatchFacts GlobCases.
Close Scope Z_scope.

(** C104. A name glob made of texts separated by single stars: the name is these texts in order with anything between them. *)
Theorem C104_name_globs : forall w h pieces, unix_globs w -> pieces <> [] -> pieces_ok pieces -> Forall paired pieces ->
  exists c, pm_name_glob (join (js "*") pieces) w h = (Ok c, h) /\
    forall p n, ends_with_name p n -> ~ In c_slash n -> tells w c p (with_gaps pieces n).
Proof. exact name_pieces. Qed.
Print Assumptions C104_name_globs.

(** The globs s, s*, *s and *.s are the other tests of names. *)
Theorem C104_same_tests : forall w h s, unix_globs w -> verbatim s -> paired s ->
  exists c1 c2 c3 c4, pm_name_glob s w h = (Ok c1, h) /\ pm_name_glob (s ++ js "*") w h = (Ok c2, h) /\
    pm_name_glob (js "*" ++ s) w h = (Ok c3, h) /\ pm_name_glob (js "*." ++ s) w h = (Ok c4, h) /\
    forall p n h', ends_with_name p n -> ~ In c_slash n ->
      c1 p w h' = pm_name s p w h' /\ c2 p w h' = pm_name_starting_with s p w h' /\
      c3 p w h' = pm_name_ending_with s p w h' /\ c4 p w h' = pm_extension s p w h'.
Proof. exact name_shapes. Qed.
Print Assumptions C104_same_tests.

Example C104_case : unix_globs project_world /\ pieces_ok [js "a"; js "b"; []] /\ Forall paired [js "a"; js "b"; []] /\ verbatim (js "java") /\ paired (js "java") /\
  ends_with_name (pth "/x/aXb.java") (js "aXb.java") /\
  name_answers "a*b*" "/x/aXb.java" = Some (Ok true) /\ name_answers "a*b*" "/x/ac" = Some (Ok false) /\
  name_answers "*.java" "/x/aXb.java" = Some (Ok true) /\ name_answers "*.java" "/x.java/a" = Some (Ok false).
Proof. exact C104_case_lemma. Qed.

(** C105. A glob with a backslash before every character is the test for that name, whatever the characters. *)
Theorem C105_escaped_names : forall w h n, unix_globs w ->
  exists c, pm_name_glob (escaped n) w h = (Ok c, h) /\ forall p h', c p w h' = pm_name n p w h'.
Proof. exact name_escaped. Qed.
Print Assumptions C105_escaped_names.

(** A name glob that contains a '/' (and neither '[' nor '{') is true of no name. *)
Theorem C105_slash_in_name_glob : forall w h g c h1, unix_globs w -> In c_slash g -> ~ In 91%N g -> ~ In 123%N g ->
  pm_name_glob g w h = (Ok c, h1) -> forall p n h', ends_with_name p n -> ~ In c_slash n -> c p w h' = (Ok false, h').
Proof. exact name_slash. Qed.
Print Assumptions C105_slash_in_name_glob.

Example C105_case :
  name_answers "[1]" "/x/[1]" = Some (Ok false) /\ name_answers "\[\1\]" "/x/[1]" = Some (Ok true) /\ escaped (js "[1]") = js "\[\1\]" /\
  name_answers "src/main/**" "/x/src/main" = Some (Ok false).
Proof. vm_compute. repeat split. Qed.

(** C106. A relative glob that spells the names [rest] literally matches exactly that location below the reference. *)
Theorem C106_literal_relative_glob : forall w h ref R rest g, unix_globs w -> at_names w ref R -> rest <> [] -> Forall real_name rest ->
  literal g (slashed rest) ->
  exists c, pm_relative_path_glob ref g w h = (Ok c, h) /\ forall p L, at_names w p L -> tells w c p (L = R ++ rest).
Proof. exact relative_literal. Qed.
Print Assumptions C106_literal_relative_glob.

Example C106_case : at_names project_world (pth "p/./src/..") project_names /\ literal (js "src/main") (slashed (names_of "src/main")) /\
  literal (js "a\*b") (js "a*b") /\ at_names project_world (pth "p/x/../src/main") (project_names ++ names_of "src/main") /\
  relative_answers "p/./src/.." "src/main" "p/x/../src/main" = Some (Ok true) /\
  relative_answers "p" "src/main" "p/src/main/java" = Some (Ok false) /\ relative_answers "p" "src/main" "/home/u/src/main" = Some (Ok false).
Proof. exact C106_case_lemma. Qed.

(** C107. "dir/**" relative to a directory matches everything below dir in it. False: "**" stops at line terminators. C108 is what holds. *)
Theorem C107_refuted : exists w ref R rest r c p,
  unix_globs w /\ at_names w ref R /\ rest <> [] /\ Forall real_name rest /\ verbatim (slashed rest) /\
  pm_relative_path_glob ref (slashed rest ++ js "/**") w [] = (Ok c, []) /\
  r <> [] /\ at_names w p (R ++ rest ++ r) /\ fst (c p w []) = Ok false.
Proof. exact below_counterexample. Qed.
Print Assumptions C107_refuted.

(** C108. It matches what lies below dir (not dir itself), if no name from there on contains a line terminator, and nothing else. *)
Theorem C108_below : forall w h ref R rest g, unix_globs w -> at_names w ref R -> rest <> [] -> Forall real_name rest ->
  literal g (slashed rest) ->
  exists c, pm_relative_path_glob ref (g ++ js "/**") w h = (Ok c, h) /\ forall p L, at_names w p L ->
    tells w c p (exists r, r <> [] /\ L = R ++ rest ++ r /\ no_terminator (slashed r)).
Proof. exact relative_below. Qed.
Print Assumptions C108_below.

Example C108_case :
  relative_answers "p" "src/main/**" "p/src/main/java/App.java" = Some (Ok true) /\ relative_answers "p" "src/main/**" "p/src/main" = Some (Ok false) /\
  relative_answers "p" "src/main/**" "p/src" = Some (Ok false) /\ relative_answers "p" "src/main/**" "/src/main/java" = Some (Ok false) /\
  no_terminator (js "java/App.java").
Proof. split; [|split; [|split; [|split]]]; vm_compute; repeat constructor. Qed.

(** C109. The examples in the documentation of the matchers (PathMatchers.java:293-298, 326-333), the globs taken as they are spelled there:
    true for the Java files, and an exception for the file outside the base. False in all three cases: the backslash escapes the star. *)
Theorem C109_refuted :
  (exists w c, unix_globs w /\ pm_absolute_path_glob (js "**\*.java") w [] = (Ok c, []) /\ fst (c (pth "/home/user/project/Main.java") w []) = Ok false) /\
  (exists w c, unix_globs w /\ pm_relative_path_glob (pth "/home/user/project") (js "**\*.java") w [] = (Ok c, []) /\
     fst (c (pth "/home/user/project/src/Main.java") w []) = Ok false /\ fst (c (pth "/tmp/file.java") w []) = Ok false).
Proof. exact javadoc_counterexample. Qed.
Print Assumptions C109_refuted.

(** C110. "**" and a text: the last name ends with the text, line terminators aside. So the globs of C109 match the names ending with "*.java". *)
Theorem C110_stars_text_absolute : forall w h g s, unix_globs w -> Forall real_name (jv_cwd (w_jvm w)) -> literal g s -> paired s -> ~ In c_slash s ->
  exists c, pm_absolute_path_glob (js "**" ++ g) w h = (Ok c, h) /\
    forall p dirs n, at_names w p (dirs ++ [n]) -> p_abs p = true \/ ~ In n_dotdot (p_names (normalize p)) ->
      tells w c p (no_terminator (slashed dirs) /\ exists m, n = m ++ s /\ no_terminator m).
Proof. exact absolute_tail. Qed.
Print Assumptions C110_stars_text_absolute.

(** Relative to a directory: below it, and outside it (the reference and the path part after [common]). *)
Theorem C110_stars_text_relative : forall w h ref R g s, unix_globs w -> at_names w ref R -> literal g s -> paired s -> ~ In c_slash s ->
  exists c, pm_relative_path_glob ref (js "**" ++ g) w h = (Ok c, h) /\
    (forall p dirs n, at_names w p (R ++ dirs ++ [n]) -> tells w c p (no_terminator (slashed dirs) /\ exists m, n = m ++ s /\ no_terminator m)) /\
    (forall p common x b dirs n, R = common ++ x :: b -> hd_error (dirs ++ [n]) <> Some x -> at_names w p (common ++ dirs ++ [n]) ->
       tells w c p (no_terminator (slashed dirs) /\ exists m, n = m ++ s /\ no_terminator m)).
Proof. exact relative_tail. Qed.
Print Assumptions C110_stars_text_relative.

(** "**/*" and a text (the portable spelling of C109): absolute, the last name ends with the text. *)
Theorem C110_deep_absolute : forall w h g s, unix_globs w -> Forall real_name (jv_cwd (w_jvm w)) -> literal g s -> paired s -> ~ In c_slash s ->
  exists c, pm_absolute_path_glob (js "**/*" ++ g) w h = (Ok c, h) /\
    forall p dirs n, at_names w p (dirs ++ [n]) -> p_abs p = true \/ ~ In n_dotdot (p_names (normalize p)) ->
      tells w c p (no_terminator (slashed dirs) /\ ending n s).
Proof. exact absolute_deep. Qed.
Print Assumptions C110_deep_absolute.

(** Relative to a directory it does not match the files in the directory itself, and it matches files outside the directory. *)
Theorem C110_deep_relative : forall w h ref R g s, unix_globs w -> at_names w ref R -> literal g s -> paired s -> ~ In c_slash s ->
  exists c, pm_relative_path_glob ref (js "**/*" ++ g) w h = (Ok c, h) /\
    (forall p dirs n, at_names w p (R ++ dirs ++ [n]) -> tells w c p (dirs <> [] /\ no_terminator (slashed dirs) /\ ending n s)) /\
    (forall p common x b dirs n, R = common ++ x :: b -> hd_error (dirs ++ [n]) <> Some x -> at_names w p (common ++ dirs ++ [n]) ->
       tells w c p (no_terminator (slashed dirs) /\ ending n s)).
Proof. exact relative_deep. Qed.
Print Assumptions C110_deep_relative.

Example C110_case :
  literal (js "\*.java") (js "*.java") /\ literal (js ".java") (js ".java") /\ paired (js "*.java") /\ paired (js ".java") /\
  at_names project_world (pth "/tmp/a.java") ([] ++ [js "tmp"] ++ [js "a.java"]) /\
  relative_answers "p" "**\*.java" "p/src/x*.java" = Some (Ok true) /\
  relative_answers "p" "**/*.java" "p/src/main/java/App.java" = Some (Ok true) /\ relative_answers "p" "**/*.java" "p/B.java" = Some (Ok false) /\
  relative_answers "p" "**/*.java" "/tmp/a.java" = Some (Ok true) /\ relative_answers "p" "**.java" "p/B.java" = Some (Ok true).
Proof. exact C110_case_lemma. Qed.
