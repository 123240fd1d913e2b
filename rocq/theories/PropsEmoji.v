(** * The emoji mappings: C43-C46, C48, C71-C73 *)

From Verif Require Import SpecEmoji Cases EmojiFacts.
Close Scope Z_scope.

(** C43. A mapping built by the client after the calls [cmds], called after the calls [later], which add no rule with a matcher
    (C45 and C72 are about those). The matchers are asked in order of insertion; [own_emoji] is the name, then the longest extension (files
    only), then the default. A path is a directory if its kind reads so (links not followed). *)
Theorem C43_precedence : forall w o cmds later p h,
  let lower := jv_lower (w_jvm w) in
  let ops := emoji_ops cmds in
  all_distinct_ci lower o ops -> Forall (fun c => ~ adds_rule c) later ->
  exists r0 r h', emoji_call (emoji_run lower (emoji_start o) (cmds ++ EBuild :: later)) (emoji_builds cmds) p w h = (r, h') /\
    match w_lstat w h p with
    | Some KDir => first_match w p (dir_rules ops) (EvLstat p (Some KDir) :: h) r0 h' /\
        chosen r0 (own_emoji lower (dir_name ops) no_keys (dir_default DEFAULT_DIR_EMOJI ops) p) r
    | k => first_match w p (file_rules ops) (EvLstat p k :: h) r0 h' /\
        chosen r0 (own_emoji lower (file_name o ops) (file_ext o ops) (file_default DEFAULT_FILE_EMOJI ops) p) r
    end.
Proof. exact C43_lemma. Qed.
Print Assumptions C43_precedence.

(** What C43 describes is unique. *)
Theorem C43_rule_is_unique : forall w p l h r1 h1 r2 h2, first_match w p l h r1 h1 -> first_match w p l h r2 h2 -> r1 = r2 /\ h1 = h2.
Proof. exact first_match_det. Qed.
Print Assumptions C43_rule_is_unique.

Theorem C43_own_emoji_is_unique : forall lower o ops default p e1 e2, all_distinct_ci lower o ops ->
  (own_emoji lower (file_name o ops) (file_ext o ops) default p e1 -> own_emoji lower (file_name o ops) (file_ext o ops) default p e2 -> e1 = e2) /\
  (own_emoji lower (dir_name ops) no_keys default p e1 -> own_emoji lower (dir_name ops) no_keys default p e2 -> e1 = e2).
Proof. exact own_emoji_det. Qed.
Print Assumptions C43_own_emoji_is_unique.

(** A blank builder with rules of every kind. *)
Definition case_cmds : list emoji_cmd :=
  [EOp (ESetFileExt (js "TAR.gz") (js "t")); EOp (ESetFileExt (js "gz") (js "g")); EOp (EAddFile (pm_name_starting_with (js "x")) (js "x"));
   EOp (ESetFileName (js "Zoo") (js "old")); EOp (ESetFileName (js "Zoo") (js "z")); EOp (ESetDirName (js "a") (js "A"));
   EOp (EAddFile (pm_name_ending_with (js "y")) (js "y")); EOp (ESetDefaultFile (js "f"))].

Definition case_emoji_of (p : string) : res (option jstring) :=
  fst (emoji_call (emoji_run (jv_lower sample_jvm) (emoji_start FromBlank) (case_cmds ++ [EBuild])) 0 (pth p) sample_world []).

Lemma case_distinct : all_distinct_ci (jv_lower (w_jvm sample_world)) FromBlank (emoji_ops case_cmds).
Proof.
  destruct (C71_lemma (jv_lower (w_jvm sample_world)) FromBlank case_cmds []) as (r & E & H & _). apply H.
  vm_compute in E. injection E as <-. eauto.
Qed.

Example C43_case :
  all_distinct_ci (jv_lower (w_jvm sample_world)) FromBlank (emoji_ops case_cmds) /\
  map case_emoji_of ["q/B.tar.GZ"; "q/B.x.GZ"; "/home/u/zOO"; "/home/u/A"; "/home/u/a"; "xy"; "by"; "q"]%string =
  map (fun s => Ok (Some s)) [js "t"; js "g"; js "z"; js "f"; js "A"; js "x"; js "y"; js "f"] /\
  file_name FromBlank (emoji_ops case_cmds) (js "Zoo") (js "z").
Proof.
  split; [exact case_distinct|]. split; [vm_compute; reflexivity|].
  apply (entry_set _ _ _ _ _ [ESetFileExt (js "TAR.gz") (js "t"); ESetFileExt (js "gz") (js "g"); EAddFile (pm_name_starting_with (js "x")) (js "x");
    ESetFileName (js "Zoo") (js "old")] (ESetFileName (js "Zoo") (js "z")) [ESetDirName (js "a") (js "A");
   EAddFile (pm_name_ending_with (js "y")) (js "y"); ESetDefaultFile (js "f")]); [reflexivity|reflexivity|].
  intros op v [<-|[<-|[<-|[]]]]; discriminate.
Qed.

(** C44 does not hold: giving the default builder an emoji for "Dockerfile" does not replace that of its key "dockerfile"; [build] then
    throws IllegalStateException. *)
Theorem C44_refuted : exists lower k v n e,
  file_name FromDefault [] k v /\ lower n = lower k /\
  es_built (emoji_run lower (emoji_start FromDefault) [EOp (ESetFileName n e); EBuild]) = [Throw ExIllegalState].
Proof.
  exists (map ascii_lower), (js "dockerfile"), [55357; 56371]%N, (js "Dockerfile"), (js "D").
  split; [|split; vm_compute; reflexivity]. apply entry_init; [intros ? ? []|]. right. left. vm_compute. reflexivity.
Qed.
Print Assumptions C44_refuted.

(** C71. [build] throws IllegalStateException exactly if two keys of one kind (directory names, file names, file extensions) differ in case
    only, and returns a mapping otherwise. *)
Theorem C71_keys_differing_in_case : forall lower o cmds later,
  let s := emoji_run lower (emoji_start o) (cmds ++ EBuild :: later) in
  let ops := emoji_ops cmds in
  exists r, nth_error (es_built s) (emoji_builds cmds) = Some r /\
    ((exists be, r = Ok be) <-> all_distinct_ci lower o ops) /\
    (r = Throw ExIllegalState <-> ~ all_distinct_ci lower o ops).
Proof. exact C71_lemma. Qed.
Print Assumptions C71_keys_differing_in_case.

Example C71_case :
  all_distinct_ci (map ascii_lower) FromBlank (emoji_ops case_cmds) /\
  ~ all_distinct_ci (map ascii_lower) FromBlank [ESetFileName (js "Zoo") (js "1"); ESetFileName (js "ZOO") (js "2")].
Proof.
  split; [exact case_distinct|]. intros (_ & H & _).
  specialize (H (js "Zoo") (js "1") (js "ZOO") (js "2")). discriminate H; [| |reflexivity].
  - eapply (entry_set _ _ _ _ _ [] _ [_]); [reflexivity|reflexivity|]. intros op v [<-|[]]; discriminate.
  - eapply (entry_set _ _ _ _ _ [_] _ []); [reflexivity|reflexivity|]. intros ? ? [].
Qed.

(** C45 does not hold: [addFileEmoji] after [build] changes what the built mapping returns. *)
Theorem C45_refuted : exists w o cmds later p h,
  let lower := jv_lower (w_jvm w) in
  fst (emoji_call (emoji_run lower (emoji_start o) (cmds ++ EBuild :: later)) (emoji_builds cmds) p w h) <>
  fst (emoji_call (emoji_run lower (emoji_start o) (cmds ++ [EBuild])) (emoji_builds cmds) p w h).
Proof.
  exists sample_world, FromBlank, [], [EOp (EAddFile (pm_name (js "b.txt")) (js "b"))], (pth "/home/u/b.txt"), [].
  vm_compute. discriminate.
Qed.
Print Assumptions C45_refuted.

(** C72. A built mapping uses the names, extensions and defaults as they were at [build], and the rules with a matcher of all calls up to
    now, including those after [build]. *)
Theorem C72_rules_are_shared_with_the_builder : forall w o cmds later p h,
  let lower := jv_lower (w_jvm w) in
  let built := emoji_ops cmds in
  let now := emoji_ops (cmds ++ later) in
  all_distinct_ci lower o built ->
  exists r0 r h', emoji_call (emoji_run lower (emoji_start o) (cmds ++ EBuild :: later)) (emoji_builds cmds) p w h = (r, h') /\
    match w_lstat w h p with
    | Some KDir => first_match w p (dir_rules now) (EvLstat p (Some KDir) :: h) r0 h' /\
        chosen r0 (own_emoji lower (dir_name built) no_keys (dir_default DEFAULT_DIR_EMOJI built) p) r
    | k => first_match w p (file_rules now) (EvLstat p k :: h) r0 h' /\
        chosen r0 (own_emoji lower (file_name o built) (file_ext o built) (file_default DEFAULT_FILE_EMOJI built) p) r
    end.
Proof. exact C72_lemma. Qed.
Print Assumptions C72_rules_are_shared_with_the_builder.

(** Later calls other than those adding a rule with a matcher have no effect. *)
Theorem C72_other_calls_have_no_effect : forall w o cmds later p h, Forall (fun c => ~ adds_rule c) later ->
  let lower := jv_lower (w_jvm w) in
  emoji_call (emoji_run lower (emoji_start o) (cmds ++ EBuild :: later)) (emoji_builds cmds) p w h =
  emoji_call (emoji_run lower (emoji_start o) (cmds ++ [EBuild])) (emoji_builds cmds) p w h.
Proof. exact C72_independent. Qed.
Print Assumptions C72_other_calls_have_no_effect.

Example C72_case :
  Forall (fun c => ~ adds_rule c) [EOp (ESetFileName (js "b.txt") (js "b")); EBuild; EOp (ESetDefaultFile (js "d"))] /\
  let s := emoji_run (jv_lower sample_jvm) (emoji_start FromBlank)
             ([] ++ EBuild :: [EOp (ESetFileName (js "b.txt") (js "b")); EBuild; EOp (ESetDefaultFile (js "d"))]) in
  map (fun i => fst (emoji_call s i (pth "/home/u/b.txt") sample_world [])) [0; 1] = [Ok (Some DEFAULT_FILE_EMOJI); Ok (Some (js "b"))].
Proof. split; [repeat constructor; intros []|]. vm_compute. reflexivity. Qed.

(** C46. [get_extensions] is given the lower-cased name. *)
Theorem C46_extensions : forall name,
  StronglySorted (fun a b => length b < length a) (get_extensions name) /\
  (forall x, In x (get_extensions name) <-> extension_of name x).
Proof. exact C46_lemma. Qed.
Print Assumptions C46_extensions.

Example C46_case :
  map get_extensions [js "a.tar.gz"; js ".x.."; js "a..b"; js "..."; js "Makefile"] =
  [[js "tar.gz"; js "gz"]; [js "x"]; [js ".b"; js "b"]; []; []] /\
  extension_of (js "a..b...") (js ".b").
Proof.
  split; [vm_compute; reflexivity|]. exists (js "a..b"), 3, (js "a"). split; [reflexivity|]. split; [right; discriminate|reflexivity].
Qed.

(** C48 does not hold: in a Turkish locale "LICENSE" is lower-cased to "lıcense", which is not a key. The two worlds differ in
    [String.toLowerCase()] only. *)
Definition turkish_lower (c : jchar) : jchar := if (c =? 73)%N then 305%N else ascii_lower c.
Definition case_license_fs : fsys := table_fs [([], IDir [js "LICENSE"]); ([js "LICENSE"], IReg 1)].
Definition case_locale_world (lower : jstring -> jstring) : world :=
  static_world case_license_fs {| jv_cwd := []; jv_lower := lower; jv_fold := ascii_lower; jv_glob := sample_glob |}.
Theorem C48_refuted : exists lower1 lower2 f1 f2 p,
  emoji_create_default lower1 = Ok f1 /\ emoji_create_default lower2 = Ok f2 /\
  fst (f1 p (case_locale_world lower1) []) = Ok (Some [9878; 65039]%N) /\
  fst (f2 p (case_locale_world lower2) []) = Ok (Some DEFAULT_FILE_EMOJI).
Proof.
  exists (map ascii_lower), (map turkish_lower). eexists _, _, (pth "/LICENSE").
  split; [vm_compute; reflexivity|]. split; [vm_compute; reflexivity|]. split; vm_compute; reflexivity.
Qed.
Print Assumptions C48_refuted.

(** C73. In a locale that leaves the (lower-case ASCII) keys of the default tables unchanged: every directory gets the folder emoji; any
    other path the emoji of its lower-cased name, or of the longest extension of its lower-cased name, or the default one. *)
Theorem C73_default_emojis : forall w,
  let lower := jv_lower (w_jvm w) in
  (forall k v, default_names k v \/ default_exts k v -> lower k = k) ->
  exists f, emoji_create_default lower = Ok f /\ forall p h,
    exists e, f p w h = (Ok (Some e), EvLstat p (w_lstat w h p) :: h) /\
      (w_lstat w h p = Some KDir -> e = DEFAULT_DIR_EMOJI) /\
      (w_lstat w h p <> Some KDir -> own_emoji lower default_names default_exts DEFAULT_FILE_EMOJI p e).
Proof. exact C73_lemma. Qed.
Print Assumptions C73_default_emojis.

Example C73_case : forall k v, default_names k v \/ default_exts k v -> map turkish_lower k = k.
Proof.
  assert (H : forallb (fun e => jeqb (map turkish_lower (fst e)) (fst e)) (DEFAULT_FILENAME_EMOJIS ++ DEFAULT_FILEEXTENSIONS_EMOJIS) = true)
    by (vm_compute; reflexivity).
  intros k v Hk. rewrite forallb_forall in H. apply SortFacts.jeqb_eq. apply (H (k, v)). apply in_or_app. exact Hk.
Qed.
