(** * Null arguments: C132, C133 *)

From Verif Require Import SpecBuild SpecNulls Cases NullFacts.

(** C132. [attempts] makes the calls one after the other on a new builder, going on after exceptions; its second component is what each
    call threw. [limit_run … (all_meant …)] is the session in which the calls with a null are not made at all, and C29-C35, C43-C46, C66,
    C71 and C72 say what the functions built in such a session do. *)
Theorem C132_limits : forall default l,
  attempts limit_attempt (limit_start default) l =
  (limit_run (limit_start default) (all_meant limit_meant l), map (fun r => null_pointer (limit_meant r)) l).
Proof. exact C132_limits_lemma. Qed.
Print Assumptions C132_limits.

Theorem C132_extensions : forall l,
  attempts ext_attempt ext_start l = (ext_run ext_start (all_meant ext_meant l), map (fun r => null_pointer (ext_meant r)) l).
Proof. exact C132_extensions_lemma. Qed.
Print Assumptions C132_extensions.

Theorem C132_sorts : forall l,
  attempts sort_attempt sort_start l = (sort_run sort_start (all_meant sort_meant l), map (fun r => null_pointer (sort_meant r)) l).
Proof. exact C132_sorts_lemma. Qed.
Print Assumptions C132_sorts.

(** [build] of an emoji mapping can throw for a reason of its own (C71). *)
Theorem C132_emojis : forall lower o l,
  fst (attempts (emoji_attempt lower) (emoji_start o) l) = emoji_run lower (emoji_start o) (all_meant emoji_meant l) /\
  Forall2 (fun r t => r <> AskEmojiBuild -> t = null_pointer (emoji_meant r)) l (snd (attempts (emoji_attempt lower) (emoji_start o) l)).
Proof. exact C132_emojis_lemma. Qed.
Print Assumptions C132_emojis.

(** Of five calls two are refused; the function built is that of the other calls. A null text for a line is no reason to refuse. *)
Example C132_case :
  let l := [AskLimitRule None; AskLimitMatcher (Some (pure (fun _ => true))) 3; AskLimitMatcher None 7; AskLimitDefault 5; AskLimitBuild] in
  let e := [AskAddDir (Some (pure (fun _ => true))) None; AskDirName None (Some (js "x")); AskAddDir (Some (pure (fun _ => true))) (Some (js "y"));
            AskEmojiBuild] in
  snd (attempts limit_attempt (limit_start (-1)) l) = [Some ExNullPointer; None; Some ExNullPointer; None; None] /\
  length (ls_built (fst (attempts limit_attempt (limit_start (-1)) l))) = 1%nat /\
  limit_call (fst (attempts limit_attempt (limit_start (-1)) l)) 0 (pth "/a") sample_world [] = (Ok 3%Z, []) /\
  snd (attempts ext_attempt ext_start [AskExtMatcher (Some (pure (fun _ => true))) None; AskExtLineBreak None]) = [None; Some ExNullPointer] /\
  snd (attempts sort_attempt sort_start [AskSortLast None; AskSortBuild]) = [Some ExNullPointer; None] /\
  snd (attempts (emoji_attempt (map ascii_lower)) (emoji_start FromBlank) e) = [Some ExNullPointer; Some ExNullPointer; None; None] /\
  fst (emoji_call (fst (attempts (emoji_attempt (map ascii_lower)) (emoji_start FromBlank) e)) 0 (pth "/") sample_world []) = Ok (Some (js "y")).
Proof. repeat split. Qed.

(** C133. [lacks x]: some argument of the factory call [x] is null. The history stays what it was: nothing is looked up. *)
Theorem C133_null_refused_at_once : forall x w h, lacks x -> make x w h = (Throw ExNullPointer, h).
Proof. exact C133_null_lemma. Qed.
Print Assumptions C133_null_refused_at_once.

Theorem C133_empty_refused : forall md w h, make (WOfAll md (Some [])) w h = (Throw ExIllegalArgument, h).
Proof. exact C133_empty_lemma. Qed.
Print Assumptions C133_empty_refused.

Theorem C133_bad_glob_refused : forall x g w h, compiles x g -> jv_glob (w_jvm w) g = None ->
  make x w h = (Throw (ExPatternSyntax g), h).
Proof. exact C133_glob_lemma. Qed.
Print Assumptions C133_bad_glob_refused.

Theorem C133_otherwise_made : forall x w h, ~ lacks x -> (forall md, x <> WOfAll md (Some [])) ->
  (forall g, compiles x g -> jv_glob (w_jvm w) g <> None) -> exists m, make x w h = (Ok m, h).
Proof. exact C133_made_lemma. Qed.
Print Assumptions C133_otherwise_made.

(** The two ways of giving several matchers are the same. *)
Theorem C133_arguments_or_list : forall md m ms w h, make (WOf md m (Some ms)) w h = make (WOfAll md (Some (m :: ms))) w h.
Proof. exact C133_list_lemma. Qed.
Print Assumptions C133_arguments_or_list.

(** What is made is what the properties of the matchers (C36-C42, C69, C79) are about. *)
Theorem C133_which_matcher : forall x k w h, makes x k -> make x w h = k w h.
Proof. exact C133_which_lemma. Qed.
Print Assumptions C133_which_matcher.

Example C133_case :
  lacks (WOf ANY (Some pm_is_directory) (Some [Some pm_is_file; None])) /\ lacks (WRelativeGlob None (Some (js "["))) /\
  compiles (WNameGlob (Some (js "["))) (js "[") /\ jv_glob sample_jvm (js "[") = None /\
  ~ lacks (WOf ANY (Some pm_is_directory) (Some [])) /\ ~ lacks (WNameGlob (Some (js "*.java"))) /\
  (forall g, compiles (WNameGlob (Some (js "*.java"))) g -> jv_glob sample_jvm g <> None) /\
  (exists m, make (WOf ANY (Some pm_is_directory) (Some [])) sample_world [] = (Ok m, [])).
Proof.
  assert (H : forall g, compiles (WNameGlob (Some (js "*.java"))) g -> jv_glob sample_jvm g <> None).
  { intros g [_ [E|[E|[ref E]]]]; try discriminate. injection E as <-. discriminate. }
  split; [right; cbn; tauto|]. split; [now left|]. split; [split; [discriminate|right; now left]|]. split; [reflexivity|].
  split; [cbn; intros [E|[]]; discriminate|]. split; [discriminate|]. split; [exact H|]. eexists. reflexivity.
Qed.
