(** * What globs test in general, on a platform with the globs of the JDK on Unix: C148, C149 *)

From Verif Require Import DocCases PointFacts GlobMatchFacts GlobTextFacts GlobCases.
Close Scope Z_scope.

(** C148. A name glob tests whether the name is one of the texts its items stand for. *)
Theorem C148_name_globs : forall w h l g, unix_globs w -> spells l g ->
  exists c, pm_name_glob g w h = (Ok c, h) /\ forall p n, ends_with_name p n -> ~ In c_slash n -> tells w c p (among l n).
Proof. exact name_spelled. Qed.
Print Assumptions C148_name_globs.

(** For instance "*{a,b}": the name ends with one of the texts. *)
Theorem C148_endings : forall w h texts, unix_globs w -> texts <> [] ->
  Forall (fun t => verbatim t /\ paired t /\ ~ In 44%N t /\ ~ In 125%N t) texts ->
  exists c, pm_name_glob (js "*{" ++ join (js ",") texts ++ js "}") w h = (Ok c, h) /\
    forall p n, ends_with_name p n -> ~ In c_slash n -> tells w c p (exists t, In t texts /\ ending n t).
Proof. exact name_endings. Qed.
Print Assumptions C148_endings.

Example C148_case :
  unix_globs project_world /\
  spells ([GClass false [(65, 67); (120, 128193)]%N; GOne; GName; GLit 46%N] ++ GAlt [[GLit 106%N; GClass true [(97, 122)%N]]; [GLit 128193%N]] :: [])
         ((js "[A-Cx-" ++ folder_sign ++ js "]?*.") ++ js "{" ++ join (js ",") [js "j[!a-z]"; folder_sign] ++ js "}" ++ []) /\
  ends_with_name (pth "/x/Bob.kt") (js "Bob.kt") /\ character 128193 folder_sign /\
  map (name_answers "[A-Cx]?*.{j[!a-z],kt}") ["/x/Bob.kt"; "/x/xy.j0"; "/x/xy.js"; "/x/Dob.kt"; "/x/B.kt"]%string =
    map (fun b => Some (Ok b)) [true; true; false; false; false] /\
  map (name_answers "*{.java,.kt}") ["/x/A.kt"; "/x/.java"; "/x/A.js"]%string = map (fun b => Some (Ok b)) [true; true; false] /\
  (* one character of two code units *)
  map (named_answer (js "?.txt")) [folder_sign ++ js ".txt"; folder_sign ++ folder_sign ++ js ".txt"] = map (fun b => Some (Ok b)) [true; false] /\
  map (named_answer (js "??.txt")) [folder_sign ++ js ".txt"; folder_sign ++ folder_sign ++ js ".txt"] = map (fun b => Some (Ok b)) [false; true] /\
  map (named_answer (js "[" ++ folder_sign ++ js "]")) [folder_sign; [55357%N]; js "d"] = map (fun b => Some (Ok b)) [true; false; false] /\
  map (named_answer (js "[a-" ++ folder_sign ++ js "]")) [folder_sign; js "d"; js "A"] = map (fun b => Some (Ok b)) [true; true; false] /\
  named_answer (js "[" ++ folder_sign ++ js "-" ++ folder_sign ++ js "]") (js "d") = None.
Proof.
  split; [exact project_unix|]. split.
  { apply sp_group; [|discriminate| |apply sp_plain; constructor].
    - apply (sp_class false false [(65, 67); (120, 128193)]%N (js "A-Cx-" ++ folder_sign)); [discriminate| |].
      + apply (ct_range 65 67 [67%N] _ (js "x-" ++ folder_sign)); [| | | |lia|lia|]; [now apply unit_character|intro H; cbn in H; intuition discriminate|now apply unit_character|intro H; cbn in H; intuition discriminate|].
        apply (ct_range 120 128193 folder_sign _ []); [| | | |lia|lia|constructor];
          [now apply unit_character|intro H; cbn in H; intuition discriminate|now apply (pair_character 55357 56513)|intro H; cbn in H; intuition discriminate].
      + apply sp_one. apply sp_name; [discriminate|]. apply (sp_char _ 46 [46%N]); [now apply unit_character|intro H; cbn in H; intuition discriminate|discriminate|constructor].
    - constructor; [|constructor; [|constructor]].
      + apply (sp_char true 106 [106%N] _ (js "[!a-z]")); [now apply unit_character|intro H; cbn in H; intuition discriminate|intros _; split; discriminate|].
        apply (sp_class true true [(97, 122)%N] (js "a-z") [] []); [discriminate| |constructor].
        apply (ct_range 97 122 [122%N] _ []); [| | | |lia|lia|constructor]; try (now apply unit_character); intro H; cbn in H; intuition discriminate.
      + apply (sp_char true 128193 folder_sign [] []); [now apply (pair_character 55357 56513)|intro H; cbn in H; intuition discriminate|intros _; split; discriminate|constructor]. }
  split; [exact (ewn_last true [js "x"] (js "Bob.kt"))|]. split; [now apply (pair_character 55357 56513)|]. repeat split; vm_compute; reflexivity.
Qed.

(** C149. An absolute path glob other than "*" tests the text of the absolute path without "." and "..". *)
Theorem C149_absolute_globs : forall w h l g, unix_globs w -> Forall real_name (jv_cwd (w_jvm w)) -> g <> js "*" -> spells l g ->
  exists c, pm_absolute_path_glob g w h = (Ok c, h) /\
    forall p L, at_names w p L -> p_abs p = true \/ ~ In n_dotdot (p_names (normalize p)) -> tells w c p (among l (c_slash :: slashed L)).
Proof. exact absolute_spelled. Qed.
Print Assumptions C149_absolute_globs.

(** A relative one tests the text of the way from the reference to the path: down, or up with ".." to the last common directory and down. *)
Theorem C149_relative_globs : forall w h ref R l g, unix_globs w -> at_names w ref R -> g <> js "*" -> spells l g ->
  exists c, pm_relative_path_glob ref g w h = (Ok c, h) /\
    (forall p rest, at_names w p (R ++ rest) -> tells w c p (among l (slashed rest))) /\
    (forall p common x b rest, R = common ++ x :: b -> hd_error rest <> Some x -> at_names w p (common ++ rest) ->
       tells w c p (among l (slashed (map (fun _ => js "..") (x :: b) ++ rest)))).
Proof. exact relative_spelled. Qed.
Print Assumptions C149_relative_globs.

Example C149_case :
  spells (map GLit (js "src/") ++ GAlt [map GLit (js "main"); map GLit (js "test")] :: [GLit 47%N; GAny])
         (js "src/" ++ js "{" ++ join (js ",") [js "main"; js "test"] ++ js "}" ++ js "/**") /\
  at_names project_world (pth "p/./src/..") project_names /\ at_names project_world (pth "p/x/../src/main") (project_names ++ names_of "src/main") /\
  map (relative_answers "p" "src/{main,test}/**") ["p/src/main/java"; "p/src/test/a/b"; "p/src/main"; "p/src/it/a"; "/tmp/src/main/a"]%string =
    map (fun b => Some (Ok b)) [true; true; false; false; false] /\
  relative_answers "p" "../**" "/tmp" = Some (Ok true) /\
  map (asked_of (pm_absolute_path_glob (js "/{home,tmp}/?"))) ["/tmp/a"; "/tmp/ab"; "/a/b"; "/home/u/../v"]%string =
    map (fun b => Some (Ok b)) [true; false; false; true].
Proof.
  split.
  { apply sp_group; [apply (spells_text false (js "src/")); [apply pairedb_ok; reflexivity|apply verbatimb_ok; reflexivity|discriminate]|discriminate| |].
    - constructor; [apply (spells_text true (js "main"))|constructor; [apply (spells_text true (js "test"))|constructor]];
        try (apply pairedb_ok; reflexivity); try (apply verbatimb_ok; reflexivity); intros _; split; intro H; cbn in H; intuition discriminate.
    - apply sp_plain. apply (sp_char _ 47 [47%N] _ (js "**")); [now apply unit_character|intro H; cbn in H; intuition discriminate|discriminate|].
      apply (sp_any false [] []). constructor. }
  destruct C106_case_lemma as (H1 & _ & _ & H2 & _). split; [exact H1|]. split; [exact H2|]. repeat split; vm_compute; reflexivity.
Qed.
