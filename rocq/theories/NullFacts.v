(** * Proofs for C132 and C133 *)

From Verif Require Import SpecNulls PathFacts.

Lemma attempts_state : forall S R C (f : S -> R -> S * option exn) (meant : R -> option C) (exec : S -> C -> S),
  (forall s r, fst (f s r) = match meant r with Some c => exec s c | None => s end) ->
  forall l s, fst (attempts f s l) = fold_left exec (all_meant meant l) s.
Proof.
  intros S R C f meant exec H. induction l as [|r l IH]; intro s; [reflexivity|].
  cbn [attempts all_meant]. pose proof (H s r) as Hr. destruct (f s r) as [s1 t]. specialize (IH s1).
  destruct (attempts f s1 l) as [s2 ts]. cbn [fst] in *. rewrite IH, Hr. destruct (meant r); reflexivity.
Qed.

Lemma attempts_thrown : forall S R C (f : S -> R -> S * option exn) (meant : R -> option C),
  (forall s r, snd (f s r) = null_pointer (meant r)) -> forall l s, snd (attempts f s l) = map (fun r => null_pointer (meant r)) l.
Proof.
  intros S R C f meant H. induction l as [|r l IH]; intro s; [reflexivity|].
  cbn [attempts map]. pose proof (H s r) as Hr. destruct (f s r) as [s1 t]. specialize (IH s1).
  destruct (attempts f s1 l) as [s2 ts]. cbn [snd] in *. now rewrite Hr, IH.
Qed.

Lemma attempts_both : forall S R C (f : S -> R -> S * option exn) (meant : R -> option C) (exec : S -> C -> S),
  (forall s r, f s r = (match meant r with Some c => exec s c | None => s end, null_pointer (meant r))) ->
  forall l s, attempts f s l = (fold_left exec (all_meant meant l) s, map (fun r => null_pointer (meant r)) l).
Proof.
  intros S R C f meant exec H l s.
  pose proof (attempts_state S R C f meant exec (fun s r => f_equal fst (H s r)) l s) as H1.
  pose proof (attempts_thrown S R C f meant (fun s r => f_equal snd (H s r)) l s) as H2.
  destruct (attempts f s l). cbn [fst snd] in *. now subst.
Qed.

Lemma limit_attempt_eq : forall s r,
  limit_attempt s r = (match limit_meant r with Some c => limit_exec s c | None => s end, null_pointer (limit_meant r)).
Proof. intros [b l] [z|[rule|]|[m|] z|]; reflexivity. Qed.

Lemma ext_attempt_eq : forall s r,
  ext_attempt s r = (match ext_meant r with Some c => ext_exec s c | None => s end, null_pointer (ext_meant r)).
Proof. intros [b l] [[rule|]|[m|] x|[m|]|]; reflexivity. Qed.

Lemma sort_attempt_eq : forall s r,
  sort_attempt s r = (match sort_meant r with Some c => sort_exec s c | None => s end, null_pointer (sort_meant r)).
Proof. intros [b l] [[o|]|[m|] z|[m|]|[m|]|]; reflexivity. Qed.

Lemma C132_limits_lemma : forall default l,
  attempts limit_attempt (limit_start default) l =
  (limit_run (limit_start default) (all_meant limit_meant l), map (fun r => null_pointer (limit_meant r)) l).
Proof. intros d l. exact (attempts_both _ _ _ _ _ _ limit_attempt_eq l _). Qed.

Lemma C132_extensions_lemma : forall l,
  attempts ext_attempt ext_start l = (ext_run ext_start (all_meant ext_meant l), map (fun r => null_pointer (ext_meant r)) l).
Proof. intros l. exact (attempts_both _ _ _ _ _ _ ext_attempt_eq l _). Qed.

Lemma C132_sorts_lemma : forall l,
  attempts sort_attempt sort_start l = (sort_run sort_start (all_meant sort_meant l), map (fun r => null_pointer (sort_meant r)) l).
Proof. intros l. exact (attempts_both _ _ _ _ _ _ sort_attempt_eq l _). Qed.

Lemma emoji_attempt_state : forall lower s r,
  fst (emoji_attempt lower s r) = match emoji_meant r with Some c => emoji_exec lower s c | None => s end.
Proof. intros lower [b l] [[e|]|[n|] [e|]|[m|] [e|]|[e|]|[n|] [e|]|[x|] [e|]|[m|] [e|]|]; reflexivity. Qed.

Lemma emoji_attempt_thrown : forall lower s r, r <> AskEmojiBuild -> snd (emoji_attempt lower s r) = null_pointer (emoji_meant r).
Proof. intros lower [b l] [[e|]|[n|] [e|]|[m|] [e|]|[e|]|[n|] [e|]|[x|] [e|]|[m|] [e|]|] H; try reflexivity. congruence. Qed.

Lemma emoji_attempts_thrown : forall lower l s,
  Forall2 (fun r t => r <> AskEmojiBuild -> t = null_pointer (emoji_meant r)) l (snd (attempts (emoji_attempt lower) s l)).
Proof.
  intros lower. induction l as [|r l IH]; intro s; [constructor|].
  cbn [attempts]. pose proof (emoji_attempt_thrown lower s r) as Hr. destruct (emoji_attempt lower s r) as [s1 t]. specialize (IH s1).
  destruct (attempts _ s1 l) as [s2 ts]. constructor; assumption.
Qed.

Lemma C132_emojis_lemma : forall lower o l,
  fst (attempts (emoji_attempt lower) (emoji_start o) l) = emoji_run lower (emoji_start o) (all_meant emoji_meant l) /\
  Forall2 (fun r t => r <> AskEmojiBuild -> t = null_pointer (emoji_meant r)) l (snd (attempts (emoji_attempt lower) (emoji_start o) l)).
Proof.
  intros lower o l. split; [|apply emoji_attempts_thrown].
  exact (attempts_state _ _ _ _ _ _ (emoji_attempt_state lower) l _).
Qed.

(** ** Matcher factories *)

Lemma check_null : forall ms, In None ms -> check_non_null ms = None.
Proof. induction ms as [|[m|] ms IH]; cbn; [easy| |reflexivity]. intros [E|H]; [discriminate|]. now rewrite (IH H). Qed.

Lemma check_full : forall ms, ~ In None ms -> exists l, check_non_null ms = Some l /\ ms = map Some l.
Proof.
  induction ms as [|[m|] ms IH]; cbn; intro H; [now exists []| |tauto].
  destruct IH as (l & -> & ->); [tauto|]. now exists (m :: l).
Qed.

Lemma check_map : forall l, check_non_null (map Some l) = Some l.
Proof. induction l as [|m l IH]; cbn; [reflexivity|]. now rewrite IH. Qed.

Lemma C133_null_lemma : forall x w h, lacks x -> make x w h = (Throw ExNullPointer, h).
Proof.
  intros x w h H.
  destruct x as [m|md m ms|md ms|i t e|g|ref g|m|ref m|n|n|f|g|n|n|n| | | | |m|m|m|m|m]; cbn [lacks] in H;
    try (subst; reflexivity); try contradiction.
  - destruct m as [m|]; [|reflexivity]. destruct H as [H|H]; [discriminate|]. destruct ms as [ms|]; [|reflexivity].
    cbn [make]. unfold build_safe_list, need, bind, ret, throw. cbn [has_null] in H. now rewrite (check_null _ H).
  - destruct ms as [ms|]; [|reflexivity]. cbn [make]. unfold combine_iterable, combine_matchers, need, bind, ret. cbn [has_null] in H.
    now rewrite (check_null _ H).
  - destruct H as [H|[H|H]]; subst; [reflexivity|now destruct i|]. now destruct i, t.
  - destruct H as [H|H]; subst; [now destruct g|reflexivity].
  - destruct H as [H|H]; subst; [now destruct m|reflexivity].
Qed.

Lemma C133_empty_lemma : forall md w h, make (WOfAll md (Some [])) w h = (Throw ExIllegalArgument, h).
Proof. reflexivity. Qed.

Lemma star_eqb : forall g, g <> js "*" -> jeqb g s_star = false.
Proof. intros g H. destruct (jeqb_spec g s_star) as [E|_]; [now destruct H|reflexivity]. Qed.

Lemma C133_glob_lemma : forall x g w h, compiles x g -> jv_glob (w_jvm w) g = None -> make x w h = (Throw (ExPatternSyntax g), h).
Proof.
  intros x g w h [Hs Hx] Hg. apply star_eqb in Hs.
  destruct Hx as [Hx|[Hx|[ref Hx]]]; subst x; cbn [make]; unfold need, bind, ret;
    [unfold pm_absolute_path_glob|unfold pm_name_glob|unfold pm_relative_path_glob];
    rewrite Hs; unfold glob_matcher, bind, get_jvm, ret, throw; now rewrite Hg.
Qed.

Lemma C133_made_lemma : forall x w h, ~ lacks x -> (forall md, x <> WOfAll md (Some [])) ->
  (forall g, compiles x g -> jv_glob (w_jvm w) g <> None) -> exists m, make x w h = (Ok m, h).
Proof.
  intros x w h H He Hg.
  destruct x as [m|md m ms|md ms|i t e|g|ref g|m|ref m|n|n|f|g|n|n|n| | | | |m|m|m|m|m]; cbn [lacks] in H;
    try (match goal with x : option _ |- _ => destruct x; [eexists; reflexivity|congruence] end); try (eexists; reflexivity).
  - destruct m as [m|]; [|tauto]. destruct ms as [ms|]; [|cbn in H; tauto]. cbn [has_null] in H.
    destruct (check_full ms) as (l & E & ->); [tauto|]. cbn [make]. unfold build_safe_list, need, bind, ret.
    rewrite check_map. unfold combine_iterable, need, bind, ret, combine_matchers. cbn [map check_non_null]. rewrite check_map. eexists. reflexivity.
  - destruct ms as [ms|]; [|cbn in H; tauto]. cbn [has_null] in H. destruct (check_full ms H) as (l & E & ->).
    cbn [make]. unfold combine_iterable, need, bind, ret, combine_matchers. rewrite check_map. destruct l as [|m l]; [now destruct (He md)|].
    eexists. reflexivity.
  - destruct i, t, e; try tauto. eexists. reflexivity.
  - destruct g as [g|]; [|tauto]. cbn [make]. unfold need, bind at 1, ret at 1, pm_absolute_path_glob.
    destruct (jeqb g s_star) eqn:Es; [eexists; reflexivity|].
    unfold glob_matcher, bind, get_jvm, ret, throw. destruct (jv_glob (w_jvm w) g) eqn:Eg; [eexists; reflexivity|].
    exfalso. apply (Hg g); [|exact Eg]. split; [|now left]. intros ->. discriminate Es.
  - destruct ref as [ref|]; [|tauto]. destruct g as [g|]; [|tauto]. cbn [make]. unfold need, bind at 1 2, ret at 1 2, pm_relative_path_glob.
    destruct (jeqb g s_star) eqn:Es; [eexists; reflexivity|].
    unfold glob_matcher, bind, get_jvm, ret, throw. destruct (jv_glob (w_jvm w) g) eqn:Eg; [eexists; reflexivity|].
    exfalso. apply (Hg g); [|exact Eg]. split; [|right; right; now exists ref]. intros ->. discriminate Es.
  - destruct ref as [ref|]; [|tauto]. destruct m as [m|]; [|tauto]. eexists. reflexivity.
  - destruct g as [g|]; [|tauto]. cbn [make]. unfold need, bind at 1, ret at 1, pm_name_glob.
    destruct (jeqb g s_star) eqn:Es; [eexists; reflexivity|].
    unfold glob_matcher, bind, get_jvm, ret, throw. destruct (jv_glob (w_jvm w) g) eqn:Eg; [eexists; reflexivity|].
    exfalso. apply (Hg g); [|exact Eg]. split; [|right; now left]. intros ->. discriminate Es.
Qed.

Lemma C133_list_lemma : forall md m ms w h, make (WOf md m (Some ms)) w h = make (WOfAll md (Some (m :: ms))) w h.
Proof.
  intros md m ms w h. cbn [make]. unfold build_safe_list, combine_iterable, combine_matchers, need, bind, ret, throw.
  destruct m as [m|]; cbn [check_non_null]; [|reflexivity]. destruct (check_non_null ms) as [l|]; [|reflexivity].
  cbn [map check_non_null]. now rewrite check_map.
Qed.

Lemma C133_which_lemma : forall x k w h, makes x k -> make x w h = k w h.
Proof.
  intros x k w h H. destruct H; cbn [make]; try reflexivity;
    unfold combine_iterable, combine_matchers, need, bind, ret; now rewrite check_map.
Qed.
