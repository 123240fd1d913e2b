(** * Concrete globs used by the examples and the counterexamples *)

From Verif Require Export SpecGlob DocCases.
From Verif Require Import PathFacts PointFacts GlobFacts GlobMatchFacts.
Close Scope Z_scope.

Definition asked_of (c : M matcher) (p : string) : option (res bool) :=
  match c project_world [] with (Ok c, []) => Some (fst (c (pth p) project_world [])) | _ => None end.
Definition name_answers (g p : string) : option (res bool) := asked_of (pm_name_glob (js g)) p.
Definition relative_answers (ref g p : string) : option (res bool) := asked_of (pm_relative_path_glob (pth ref) (js g)) p.

(** The folder symbol, U+1F4C1: two code units. *)
Definition folder_sign : jstring := [55357; 56513]%N.
(** The answer of the name glob [g] for a file called [n]. *)
Definition named_answer (g n : jstring) : option (res bool) :=
  match pm_name_glob g project_world [] with (Ok c, []) => Some (fst (c (mkPath true [js "x"; n]) project_world [])) | _ => None end.

Definition verbatimb (s : jstring) : bool := forallb (fun c => negb (existsb (N.eqb c) [92; 91; 123; 42; 63]%N)) s.
Lemma verbatimb_ok s : verbatimb s = true -> verbatim s.
Proof.
  intro H. apply Forall_forall. intros c Hc Hs. unfold verbatimb in H. rewrite forallb_forall in H. specialize (H c Hc).
  apply negb_true_iff in H. assert (existsb (N.eqb c) [92; 91; 123; 42; 63]%N = true) by (apply existsb_exists; exists c; split; [exact Hs|apply N.eqb_refl]).
  congruence.
Qed.

Lemma C104_case_lemma : unix_globs project_world /\ pieces_ok [js "a"; js "b"; []] /\ Forall paired [js "a"; js "b"; []] /\ verbatim (js "java") /\ paired (js "java") /\
  ends_with_name (pth "/x/aXb.java") (js "aXb.java") /\
  name_answers "a*b*" "/x/aXb.java" = Some (Ok true) /\ name_answers "a*b*" "/x/ac" = Some (Ok false) /\
  name_answers "*.java" "/x/aXb.java" = Some (Ok true) /\ name_answers "*.java" "/x.java/a" = Some (Ok false).
Proof.
  split; [exact project_unix|]. split; [split|split].
  - do 3 (constructor; [apply verbatimb_ok; reflexivity|]). constructor.
  - intros l x y r E Hl. destruct l as [|a l]; [now contradict Hl|]. injection E as <- E. destruct l as [|b l]; [injection E as <- _; discriminate|].
    exfalso. injection E as <- E. destruct l as [|d [|? ?]]; discriminate.
  - repeat (constructor; [apply pairedb_ok; reflexivity|]). constructor.
  - split; [apply verbatimb_ok; reflexivity|]. split; [apply pairedb_ok; reflexivity|]. split; [exact (ewn_last true [js "x"] (js "aXb.java"))|]. vm_compute. repeat split.
Qed.

Lemma C106_case_lemma : at_names project_world (pth "p/./src/..") project_names /\ literal (js "src/main") (slashed (names_of "src/main")) /\
  literal (js "a\*b") (js "a*b") /\ at_names project_world (pth "p/x/../src/main") (project_names ++ names_of "src/main") /\
  relative_answers "p/./src/.." "src/main" "p/x/../src/main" = Some (Ok true) /\
  relative_answers "p" "src/main" "p/src/main/java" = Some (Ok false) /\ relative_answers "p" "src/main" "/home/u/src/main" = Some (Ok false).
Proof.
  assert (A : forall p L, forallb realb L = true -> loc (names_of "home/u") p = L -> at_names project_world p L).
  { intros p L H E. split; [now apply all_real|]. apply same_location_complete. cbn [jv_cwd w_jvm project_world static_world unix_jvm]. rewrite E.
    unfold loc, to_absolute. cbn [p_abs p_names]. symmetry. apply norm_names_plain. eapply Forall_impl; [|apply all_real; exact H]. intros n Hn. apply Hn. }
  split; [apply A; vm_compute; reflexivity|]. split; [apply verbatim_literal, verbatimb_ok; reflexivity|]. split.
  - apply (lit_plain 97%N); [cbn; intuition discriminate|]. apply (lit_escaped 42%N). apply verbatim_literal, verbatimb_ok. reflexivity.
  - split; [apply A; vm_compute; reflexivity|]. vm_compute. repeat split.
Qed.

Lemma real_at L : Forall real_name L -> at_names project_world (mkPath true L) L.
Proof. intro H. split; [exact H|]. apply same_refl. Qed.

(** The file "a<newline>b" in the directory d. *)
Lemma below_counterexample : exists w ref R rest r c p,
  unix_globs w /\ at_names w ref R /\ rest <> [] /\ Forall real_name rest /\ verbatim (slashed rest) /\
  pm_relative_path_glob ref (slashed rest ++ js "/**") w [] = (Ok c, []) /\
  r <> [] /\ at_names w p (R ++ rest ++ r) /\ fst (c p w []) = Ok false.
Proof.
  exists project_world, (mkPath true project_names), project_names, [js "d"], [[97; 10; 98]%N]. eexists _, (mkPath true (project_names ++ [js "d"; [97; 10; 98]%N])).
  split; [exact project_unix|]. split; [apply real_at, project_real_names|]. split; [discriminate|]. split; [apply all_real; reflexivity|].
  split; [apply verbatimb_ok; reflexivity|]. split; [reflexivity|]. split; [discriminate|]. split; [apply real_at, all_real; vm_compute; reflexivity|].
  vm_compute. reflexivity.
Qed.

Lemma javadoc_counterexample :
  (exists w c, unix_globs w /\ pm_absolute_path_glob (js "**\*.java") w [] = (Ok c, []) /\ fst (c (pth "/home/user/project/Main.java") w []) = Ok false) /\
  (exists w c, unix_globs w /\ pm_relative_path_glob (pth "/home/user/project") (js "**\*.java") w [] = (Ok c, []) /\
     fst (c (pth "/home/user/project/src/Main.java") w []) = Ok false /\ fst (c (pth "/tmp/file.java") w []) = Ok false).
Proof.
  split; exists project_world; eexists; (split; [exact project_unix|]); (split; [reflexivity|]); vm_compute; [reflexivity|split; reflexivity].
Qed.

Lemma C110_case_lemma :
  literal (js "\*.java") (js "*.java") /\ literal (js ".java") (js ".java") /\ paired (js "*.java") /\ paired (js ".java") /\
  at_names project_world (pth "/tmp/a.java") ([] ++ [js "tmp"] ++ [js "a.java"]) /\
  relative_answers "p" "**\*.java" "p/src/x*.java" = Some (Ok true) /\
  relative_answers "p" "**/*.java" "p/src/main/java/App.java" = Some (Ok true) /\ relative_answers "p" "**/*.java" "p/B.java" = Some (Ok false) /\
  relative_answers "p" "**/*.java" "/tmp/a.java" = Some (Ok true) /\ relative_answers "p" "**.java" "p/B.java" = Some (Ok true).
Proof.
  split; [apply (lit_escaped 42%N), verbatim_literal, verbatimb_ok; reflexivity|]. split; [apply verbatim_literal, verbatimb_ok; reflexivity|].
  do 2 (split; [apply pairedb_ok; reflexivity|]). split; [exact (real_at (names_of "tmp/a.java") (all_real (names_of "tmp/a.java") eq_refl))|]. vm_compute. repeat split.
Qed.
