(** * Proofs about the builders and the built-in comparators *)

From Verif Require Import TreeFacts SpecScan SpecBuild SortFacts ScanPrintFacts PointFacts.

(** ** LineExtensionBuilder *)

Lemma ext_run_app s a b : ext_run s (a ++ b) = ext_run (ext_run s a) b.
Proof. apply fold_left_app. Qed.

(** The rule list that the [add] calls [ops] leave. *)
Definition ext_rules (ops : list ext_op) : list ext_fn :=
  map (fun o => match o with
                | XAdd f => f
                | XAddMatcher m x => ext_rule m x
                | XAddLineBreak m => ext_rule m (Some LINE_BREAK_EXTENSION)
                end) ops.

Lemma ext_run_builder cmds : forall s, xs_builder (ext_run s cmds) = xs_builder s ++ ext_rules (ext_ops cmds).
Proof.
  induction cmds as [|c cmds IH]; intro s; simpl; [now rewrite app_nil_r|].
  rewrite IH. destruct c as [o|]; simpl; [|reflexivity].
  destruct o; simpl; now rewrite <- app_assoc.
Qed.

Lemma ext_run_built cmds : forall s, exists more, xs_built (ext_run s cmds) = xs_built s ++ more /\
  length more = ext_builds cmds.
Proof.
  induction cmds as [|c cmds IH]; intro s; simpl; [exists []; now rewrite app_nil_r|].
  destruct (IH (ext_exec s c)) as (more & E & L). rewrite E. destruct c as [o|]; simpl.
  - now exists more.
  - exists (xs_builder s :: more). rewrite <- app_assoc. simpl. auto.
Qed.

Lemma ext_built_rules cmds later :
  nth_error (xs_built (ext_run ext_start (cmds ++ XBuild :: later))) (ext_builds cmds) = Some (ext_rules (ext_ops cmds)).
Proof.
  rewrite ext_run_app. cbn [ext_run fold_left]. fold (ext_run (ext_exec (ext_run ext_start cmds) XBuild) later).
  destruct (ext_run_built later (ext_exec (ext_run ext_start cmds) XBuild)) as (more & E & _).
  rewrite E. cbn [ext_exec xs_built]. destruct (ext_run_built cmds ext_start) as (more' & E' & L').
  rewrite E'. cbn [ext_start xs_built app]. rewrite <- app_assoc. rewrite nth_error_app2 by lia.
  rewrite L', Nat.sub_diag. cbn [app nth_error]. rewrite ext_run_builder. reflexivity.
Qed.

Lemma ext_rule_value w m x p h :
  exists r h', ext_rule m x p w h = (r, h') /\ ext_value w p (XAddMatcher m x) h r h'.
Proof.
  unfold ext_rule, bind. destruct (m p w h) as [[[|]|e] h'] eqn:E; eexists; eexists; split; try reflexivity;
    constructor; exact E.
Qed.

Lemma ext_op_value w p o h :
  exists r h', (match o with XAdd f => f | XAddMatcher m x => ext_rule m x
                | XAddLineBreak m => ext_rule m (Some LINE_BREAK_EXTENSION) end) p w h = (r, h') /\
               ext_value w p o h r h'.
Proof.
  destruct o as [f|m x|m].
  - destruct (f p w h) as [r h'] eqn:E. exists r, h'. split; [reflexivity|]. now constructor.
  - apply ext_rule_value.
  - unfold ext_rule, bind. destruct (m p w h) as [[[|]|e] h'] eqn:E; eexists; eexists; split; try reflexivity;
      constructor; exact E.
Qed.

Lemma ext_loop_value w p ops : forall h,
  exists r h', ext_loop None (ext_rules ops) p w h = (r, h') /\ first_non_null w p ops h r h'.
Proof.
  induction ops as [|o ops IH]; intro h; [eexists; eexists; split; [reflexivity|constructor]|].
  destruct (ext_op_value w p o h) as (r & h' & E & V).
  cbn [ext_rules map ext_loop]. unfold bind. rewrite E. destruct r as [[x|]|e].
  - eexists; eexists; split; [reflexivity|]. now constructor.
  - cbn [is_some]. destruct (IH h') as (r & h'' & E' & V'). exists r, h''. split; [exact E'|].
    eapply fnn_next; eassumption.
  - eexists; eexists; split; [reflexivity|]. now constructor.
Qed.

Theorem C29_lemma : forall w p cmds later h,
  exists r h', first_non_null w p (ext_ops cmds) h r h' /\
               ext_call (ext_run ext_start (cmds ++ XBuild :: later)) (ext_builds cmds) p w h = (r, h').
Proof.
  intros w p cmds later h. destruct (ext_loop_value w p (ext_ops cmds) h) as (r & h' & E & V).
  exists r, h'. split; [exact V|]. unfold ext_call. now rewrite ext_built_rules.
Qed.

(** The relation is a function: there is only one such outcome. *)
Lemma ext_value_det w p o h r1 h1 r2 h2 : ext_value w p o h r1 h1 -> ext_value w p o h r2 h2 -> r1 = r2 /\ h1 = h2.
Proof.
  unfold says. intros H1 H2. destruct H1; inversion H2; subst; unfold says in *;
  match goal with A : ?x = _, B : ?x = _ |- _ => rewrite A in B; injection B; intros; subst end; auto; discriminate.
Qed.

Theorem first_non_null_det : forall w p ops h r1 h1 r2 h2,
  first_non_null w p ops h r1 h1 -> first_non_null w p ops h r2 h2 -> r1 = r2 /\ h1 = h2.
Proof.
  intros w p ops h r1 h1 r2 h2 H. revert r2 h2.
  induction H as [h|o os h x h' V|o os h e h' V|o os h h' r h'' V Hn IH]; intros r2 h2 H2; inversion H2; subst; auto;
    match goal with A : ext_value _ _ _ _ _ _, B : ext_value _ _ _ _ _ _ |- _ =>
      destruct (ext_value_det _ _ _ _ _ _ _ _ A B) as [EE Eh] end; try discriminate; subst.
  - injection EE as ->; auto.
  - injection EE as ->; auto.
  - auto.
Qed.

(** ** ChildLimitBuilder *)

Lemma limit_run_app s a b : limit_run s (a ++ b) = limit_run (limit_run s a) b.
Proof. apply fold_left_app. Qed.

Definition limit_fns (rs : list limit_rule_of) : list limit_fn :=
  map (fun r => match r with RFun f => f | RMatch m z => limit_rule m z end) rs.

Lemma limit_run_rules cmds : forall s, lb_limits (ls_builder (limit_run s cmds)) =
  lb_limits (ls_builder s) ++ limit_fns (limit_rules cmds).
Proof.
  induction cmds as [|c cmds IH]; intro s; simpl; [now rewrite app_nil_r|].
  rewrite IH. destruct c as [[z|f|m z]|]; simpl; try reflexivity; now rewrite <- app_assoc.
Qed.

Lemma limit_run_default cmds : forall s, lb_default (ls_builder (limit_run s cmds)) =
  last_default (lb_default (ls_builder s)) cmds.
Proof.
  induction cmds as [|c cmds IH]; intro s; simpl; [reflexivity|].
  rewrite IH. destruct c as [[z|f|m z]|]; reflexivity.
Qed.

Lemma limit_run_built cmds : forall s, exists more, ls_built (limit_run s cmds) = ls_built s ++ more /\
  length more = limit_builds cmds.
Proof.
  induction cmds as [|c cmds IH]; intro s; simpl; [exists []; now rewrite app_nil_r|].
  destruct (IH (limit_exec s c)) as (more & E & L). rewrite E. destruct c as [o|]; simpl.
  - now exists more.
  - exists (lb_limits (ls_builder s) :: more). rewrite <- app_assoc. simpl. auto.
Qed.

Lemma limit_built_rules d cmds later :
  nth_error (ls_built (limit_run (limit_start d) (cmds ++ LBuild :: later))) (limit_builds cmds) =
  Some (limit_fns (limit_rules cmds)).
Proof.
  rewrite limit_run_app. cbn [limit_run fold_left].
  fold (limit_run (limit_exec (limit_run (limit_start d) cmds) LBuild) later).
  destruct (limit_run_built later (limit_exec (limit_run (limit_start d) cmds) LBuild)) as (more & E & _).
  rewrite E. cbn [limit_exec ls_built]. destruct (limit_run_built cmds (limit_start d)) as (more' & E' & L').
  rewrite E'. cbn [limit_start ls_built app]. rewrite <- app_assoc. rewrite nth_error_app2 by lia.
  rewrite L', Nat.sub_diag. cbn [app nth_error]. rewrite limit_run_rules. reflexivity.
Qed.

Lemma limit_op_value w p r h :
  exists a h', (match r with RFun f => f | RMatch m z => limit_rule m z end) p w h = (a, h') /\ limit_value w p r h a h'.
Proof.
  destruct r as [f|m z].
  - destruct (f p w h) as [a h'] eqn:E. exists a, h'. split; [reflexivity|]. now constructor.
  - unfold limit_rule, bind. destruct (m p w h) as [[[|]|e] h'] eqn:E; eexists; eexists; split; try reflexivity;
      constructor; exact E.
Qed.

Lemma limit_loop_value w p d rs : forall h,
  exists a h', limit_loop d (limit_fns rs) p w h = (a, h') /\ limit_result w p d rs h a h'.
Proof.
  assert (Hgen : forall rs d' h, rs <> [] ->
    exists a h', limit_loop d' (limit_fns rs) p w h = (a, h') /\ limit_result w p d rs h a h').
  { clear rs. induction rs as [|r rs IH]; intros d' h Hne; [congruence|].
    destruct (limit_op_value w p r h) as (a & h' & E & V).
    cbn [limit_fns map limit_loop]. unfold bind. rewrite E. destruct a as [z|e].
    - destruct (Z.leb_spec 0 z) as [Hz|Hz].
      + eexists; eexists; split; [reflexivity|]. now constructor.
      + destruct rs as [|r' rs].
        * eexists; eexists; split; [reflexivity|]. now apply lr_last.
        * destruct (IH z h') as (a & h'' & E' & V'); [discriminate|]. exists a, h''.
          split; [exact E'|]. eapply lr_next; eassumption.
    - eexists; eexists; split; [reflexivity|]. now constructor. }
  intro h. destruct rs as [|r rs]; [|apply Hgen; discriminate].
  eexists; eexists; split; [reflexivity|constructor].
Qed.

Theorem C66_lemma : forall w p d cmds later h,
  exists a h', limit_result w p (last_default d (cmds ++ later)) (limit_rules cmds) h a h' /\
    limit_call (limit_run (limit_start d) (cmds ++ LBuild :: later)) (limit_builds cmds) p w h = (a, h').
Proof.
  intros w p d cmds later h.
  destruct (limit_loop_value w p (last_default d (cmds ++ later)) (limit_rules cmds) h) as (a & h' & E & V).
  exists a, h'. split; [exact V|]. unfold limit_call. rewrite limit_built_rules, limit_run_default.
  replace (last_default _ (cmds ++ LBuild :: later)) with (last_default d (cmds ++ later)); [exact E|].
  cbn [limit_start ls_builder limit_builder_new lb_default]. clear. revert d.
  induction cmds as [|c cmds IH]; intro d; [reflexivity|]. destruct c as [[z|f|m z]|]; simpl; apply IH.
Qed.

Lemma limit_loop_default_irrelevant rules p w h d1 d2 :
  rules <> [] -> limit_loop d1 rules p w h = limit_loop d2 rules p w h.
Proof. destruct rules; [congruence|reflexivity]. Qed.

Lemma last_default_app d a b : last_default d (a ++ b) = last_default (last_default d a) b.
Proof. revert d. induction a as [|c a IH]; intro d; [reflexivity|]. destruct c as [[z|f|m z]|]; simpl; apply IH. Qed.

Theorem C67_lemma : forall d cmds later,
  (limit_rules cmds <> [] \/ last_default (last_default d cmds) later = last_default d cmds) ->
  forall p w h,
    limit_call (limit_run (limit_start d) (cmds ++ LBuild :: later)) (limit_builds cmds) p w h =
    limit_call (limit_run (limit_start d) (cmds ++ [LBuild])) (limit_builds cmds) p w h.
Proof.
  intros d cmds later H p w h. unfold limit_call. rewrite !limit_built_rules, !limit_run_default.
  cbn [limit_start ls_builder limit_builder_new lb_default]. rewrite !last_default_app. simpl.
  destruct H as [H|H].
  - apply limit_loop_default_irrelevant. destruct (limit_rules cmds); [congruence|discriminate].
  - now rewrite H.
Qed.

(** For matchers that are predicates and non-negative limits the documented semantics holds, except
    that the default is replaced by -1 as soon as there is a rule. *)
Theorem documented_when_matched : forall d rules p w h,
  Forall (fun r => (0 <= snd r)%Z) rules -> Exists (fun r => fst r p = true) rules ->
  limit_call (limit_run (limit_start d) (map (fun r => LOp (LAddMatcher (pure (fst r)) (snd r))) rules ++ [LBuild])) 0 p w h
  = (Ok (documented_limit d rules p), h).
Proof.
  intros d rules p w h Hpos Hex.
  assert (Hb : limit_builds (map (fun r => LOp (LAddMatcher (pure (fst r)) (snd r))) rules) = 0%nat).
  { clear. induction rules; simpl; auto. }
  assert (Hr : limit_rules (map (fun r => LOp (LAddMatcher (pure (fst r)) (snd r))) rules) =
               map (fun r => RMatch (pure (fst r)) (snd r)) rules).
  { clear. induction rules as [|r rules IH]; simpl; [reflexivity|]. now rewrite IH. }
  unfold limit_call.
  pose proof (limit_built_rules d (map (fun r => LOp (LAddMatcher (pure (fst r)) (snd r))) rules) []) as E.
  rewrite Hb, Hr in E. rewrite E. clear E.
  generalize (lb_default (ls_builder (limit_run (limit_start d)
    (map (fun r => LOp (LAddMatcher (pure (fst r)) (snd r))) rules ++ [LBuild])))) as z.
  clear Hb Hr. induction rules as [|[m z0] rules IH]; intro z; [inversion Hex|].
  cbn [map limit_fns limit_loop documented_limit fst snd]. unfold bind, limit_rule, pure, ret. unfold bind.
  inversion Hpos as [|? ? Hz Hpos']; subst. cbn [snd] in Hz. destruct (m p) eqn:Em.
  - destruct (Z.leb_spec 0 z0); [reflexivity|lia].
  - cbn [Z.leb]. change (0 <=? UNLIMITED)%Z with false. cbn iota. apply IH; [exact Hpos'|].
    inversion Hex; subst; [cbn in *; congruence|assumption].
Qed.

(** ** PathSortBuilder *)

Lemma sort_run_app s a b : sort_run s (a ++ b) = sort_run (sort_run s a) b.
Proof. apply fold_left_app. Qed.

(** The precedence of an [add] call, as the code computes it. *)
Definition rule_fn (o : sort_op) : path -> M Z :=
  let on (m : matcher) (z : Z) := fun p => matches <- m p; ret (if matches then z else DEFAULT_PRECEDENCE) in
  match o with
  | SAdd f => f
  | SAddMatcher m z => on m z
  | SAddFirst m => on m HIGHEST_PRECEDENCE
  | SAddLast m => on m LOWEST_PRECEDENCE
  end.

Lemma sort_run_builder cmds : forall s, ss_builder (sort_run s cmds) = ss_builder s ++ map rule_fn (sort_ops cmds).
Proof.
  induction cmds as [|c cmds IH]; intro s; simpl; [now rewrite app_nil_r|].
  rewrite (IH (sort_exec s c)). destruct c as [o|]; [|reflexivity].
  destruct o; cbn [sort_exec sort_step ss_builder]; unfold sort_add_matcher, sort_add; rewrite <- app_assoc; reflexivity.
Qed.

Lemma sort_run_built cmds : forall s, exists more, ss_built (sort_run s cmds) = ss_built s ++ more /\
  length more = sort_builds cmds.
Proof.
  induction cmds as [|c cmds IH]; intro s; simpl; [exists []; now rewrite app_nil_r|].
  destruct (IH (sort_exec s c)) as (more & E & L). rewrite E. destruct c as [o|]; simpl.
  - now exists more.
  - exists (ss_builder s :: more). rewrite <- app_assoc. simpl. auto.
Qed.

Lemma sort_built_rules cmds later :
  sort_call (sort_run sort_start (cmds ++ SBuild :: later)) (sort_builds cmds) = sort_build (map rule_fn (sort_ops cmds)).
Proof.
  unfold sort_call.
  rewrite sort_run_app. cbn [sort_run fold_left]. fold (sort_run (sort_exec (sort_run sort_start cmds) SBuild) later).
  destruct (sort_run_built later (sort_exec (sort_run sort_start cmds) SBuild)) as (more & E & _).
  rewrite E. cbn [sort_exec ss_built]. destruct (sort_run_built cmds sort_start) as (more' & E' & L').
  rewrite E'. cbn [sort_start ss_built app]. rewrite <- app_assoc. rewrite nth_error_app2 by lia.
  rewrite L', Nat.sub_diag. cbn [app nth_error]. rewrite sort_run_builder. reflexivity.
Qed.

Lemma precedence_value_run w p o h r h' : precedence_value w p o h r h' <-> rule_fn o p w h = (r, h').
Proof.
  split.
  - destruct 1 as [f h r h' E|o m z h h' R E|o m z h h' R E|o m z e h h' R E]; [exact E| | |];
      unfold says in E; destruct R as [->|[[-> ->]|[-> ->]]]; cbn [rule_fn]; unfold bind; rewrite E; reflexivity.
  - intro E. destruct o as [f|m z|m|m]; [now constructor| | |]; cbn [rule_fn] in E; unfold bind in E;
      destruct (m p w h) as [[[]|e] h1] eqn:Em; injection E as <- <-.
    1, 4, 7: eapply pv_match; [|exact Em]; unfold ranks; auto.
    1, 3, 5: eapply pv_no_match with (m := m); [|exact Em]; unfold ranks; eauto.
    all: eapply pv_throw with (m := m); [|exact Em]; unfold ranks; eauto.
Qed.

Lemma first_non_zero_run w p ops h r h' : first_non_zero w p ops h r h' <-> sort_precedence (map rule_fn ops) p w h = (r, h').
Proof.
  unfold sort_precedence. split.
  - induction 1 as [h|o os h z h' E Hz|o os h e h' E|o os h h' r h'' E H IH]; cbn [map sort_precedence_loop]; [reflexivity| | |];
      apply precedence_value_run in E; unfold bind; rewrite E; [|reflexivity|].
    + destruct (Z.eqb_spec z DEFAULT_PRECEDENCE); [contradiction|reflexivity].
    + exact IH.
  - revert h. induction ops as [|o ops IH]; intros h E; cbn [map sort_precedence_loop] in E.
    + injection E as <- <-. constructor.
    + unfold bind in E. destruct (rule_fn o p w h) as [[z|e] h1] eqn:Eo; apply precedence_value_run in Eo.
      * destruct (Z.eqb_spec z DEFAULT_PRECEDENCE) as [->|Hz]; cbn [negb] in E.
        -- eapply fnz_next; [exact Eo|]. now apply IH.
        -- injection E as <- <-. now apply fnz_here.
      * injection E as <- <-. now apply fnz_throw.
Qed.

Theorem C33_exists_lemma : forall w p ops h, exists r h', first_non_zero w p ops h r h' /\
  forall r2 h2, first_non_zero w p ops h r2 h2 -> r2 = r /\ h2 = h'.
Proof.
  intros w p ops h. destruct (sort_precedence (map rule_fn ops) p w h) as [r h'] eqn:E. exists r, h'.
  split; [now apply first_non_zero_run|]. intros r2 h2 H. apply first_non_zero_run in H. rewrite E in H. injection H as -> ->. auto.
Qed.

Theorem C33_order_lemma : forall cmds later x y w h px h1 py h2,
  first_non_zero w x (sort_ops cmds) h (Ok px) h1 -> first_non_zero w y (sort_ops cmds) h1 (Ok py) h2 ->
  exists z, sort_call (sort_run sort_start (cmds ++ SBuild :: later)) (sort_builds cmds) x y w h = (Ok z, h2) /\
    ((px < py)%Z -> (z < 0)%Z) /\ ((px > py)%Z -> (z > 0)%Z) /\
    (px = py -> (z < 0 <-> name_lt (last_name x) (last_name y))%Z /\ (z = 0 <-> last_name x = last_name y)%Z).
Proof.
  intros cmds later x y w h px h1 py h2 Hx Hy. apply first_non_zero_run in Hx. apply first_non_zero_run in Hy.
  rewrite sort_built_rules. unfold sort_build, then_comparing, comparing, bind. rewrite Hx, Hy. cbn [ret].
  rewrite <- (alpha_key_last x), <- (alpha_key_last y).
  unfold zcompare, ALPHABETICAL. destruct (Z.ltb_spec px py); [eexists; split; [reflexivity|]; split; [|split]; lia|].
  destruct (Z.ltb_spec py px); [eexists; split; [reflexivity|]; split; [|split]; lia|].
  eexists. split; [reflexivity|]. split; [lia|]. split; [lia|]. intros _. split; [apply jcompare_lt|apply jcompare_eq].
Qed.

Theorem C33_throws_lemma : forall cmds later x y w h e h',
  (first_non_zero w x (sort_ops cmds) h (Throw e) h' \/
   exists px h1, first_non_zero w x (sort_ops cmds) h (Ok px) h1 /\ first_non_zero w y (sort_ops cmds) h1 (Throw e) h') ->
  sort_call (sort_run sort_start (cmds ++ SBuild :: later)) (sort_builds cmds) x y w h = (Throw e, h').
Proof.
  intros cmds later x y w h e h' [Hx|(px & h1 & Hx & Hy)]; rewrite sort_built_rules; unfold sort_build, then_comparing, comparing, bind;
    apply first_non_zero_run in Hx; rewrite Hx; [reflexivity|]. apply first_non_zero_run in Hy. now rewrite Hy.
Qed.

(** The order given by precedences. *)
Definition by_prec (prec : path -> Z) : ordering := then_by (fun a b => zcompare (prec a) (prec b)) alphabetical.

Lemma contract_by_prec prec : contract (by_prec prec).
Proof. apply contract_then; [apply contract_key|apply contract_alphabetical]. Qed.

Lemma answers_built w cmds later prec : give w (sort_ops cmds) prec ->
  forall a, answers w (sort_call (sort_run sort_start (cmds ++ SBuild :: later)) (sort_builds cmds) a) (by_prec prec a).
Proof.
  intro Hg. rewrite sort_built_rules. apply answers_then; [|exact (answers_alphabetical w)].
  intros a b h. destruct (Hg a h) as [h1 H1]. destruct (Hg b h1) as [h2 H2]. apply first_non_zero_run in H1, H2.
  exists h2. unfold comparing, bind. rewrite H1, H2. reflexivity.
Qed.

Theorem C33_contract_lemma : forall w cmds later prec, give w (sort_ops cmds) prec ->
  exists g, contract g /\ forall a, answers w (sort_call (sort_run sort_start (cmds ++ SBuild :: later)) (sort_builds cmds) a) (g a).
Proof. intros w cmds later prec H. exists (by_prec prec). split; [apply contract_by_prec|now apply answers_built]. Qed.

Theorem C33_first_lemma : forall m cmds later x y w h h1 h2 py h3,
  says w m x h (Ok true) h1 -> says w m y h1 (Ok false) h2 ->
  first_non_zero w y (sort_ops cmds) h2 (Ok py) h3 -> (-2147483648 < py)%Z ->
  exists z, sort_call (sort_run sort_start ((SOp (SAddFirst m) :: cmds) ++ SBuild :: later)) (sort_builds cmds) x y w h = (Ok z, h3) /\ (z < 0)%Z.
Proof.
  intros m cmds later x y w h h1 h2 py h3 Hx Hy Hp Hlt.
  destruct (C33_order_lemma (SOp (SAddFirst m) :: cmds) later x y w h (-2147483648)%Z h1 py h3) as (z & E & Hz & _).
  - apply fnz_here; [|lia]. eapply pv_match; [|exact Hx]. right. now left.
  - eapply fnz_next; [|exact Hp]. eapply pv_no_match with (m := m); [|exact Hy]. right. left. split; reflexivity.
  - exists z. split; [exact E|lia].
Qed.

Theorem C33_last_lemma : forall m cmds later x y w h h1 h2 py h3,
  says w m x h (Ok true) h1 -> says w m y h1 (Ok false) h2 ->
  first_non_zero w y (sort_ops cmds) h2 (Ok py) h3 -> (py < 2147483647)%Z ->
  exists z, sort_call (sort_run sort_start ((SOp (SAddLast m) :: cmds) ++ SBuild :: later)) (sort_builds cmds) x y w h = (Ok z, h3) /\ (z > 0)%Z.
Proof.
  intros m cmds later x y w h h1 h2 py h3 Hx Hy Hp Hlt.
  destruct (C33_order_lemma (SOp (SAddLast m) :: cmds) later x y w h 2147483647%Z h1 py h3) as (z & E & _ & Hz & _).
  - apply fnz_here; [|lia]. eapply pv_match; [|exact Hx]. right. now right.
  - eapply fnz_next; [|exact Hp]. eapply pv_no_match with (m := m); [|exact Hy]. right. right. split; reflexivity.
  - exists z. split; [exact E|lia].
Qed.

(** ** Built-in comparators *)

Open Scope Z_scope.

(** The orders they answer, for given facts about the files. *)
Definition dirs_first (isdir : path -> bool) : ordering :=
  fun a b => if Bool.eqb (isdir a) (isdir b) then 0 else if isdir a then -1 else 1.
Definition by_size (isdir : path -> bool) (len : path -> Z) : ordering :=
  fun a b => zcompare (if isdir a then 0 else len a) (if isdir b then 0 else len b).
Definition by_ext (isdir : path -> bool) (fold : jchar -> jchar) : ordering :=
  fun a b => if isdir a then (if isdir b then 0 else -1) else if isdir b then 1 else compare_extensions fold (alpha_key a) (alpha_key b).

Lemma is_directory_answers w dk : steady w dk -> answers w pm_is_directory (is_dirb dk).
Proof.
  intros (Hl & _) p h. unfold pm_is_directory, has_kind, bind, lstat. cbn. rewrite Hl. unfold is_dirb.
  destruct (d_kind dk p) as [[]|]; eexists; reflexivity.
Qed.

Lemma answers_comparing w key k : answers w key k -> forall a, answers w (comparing key a) (fun b => zcompare (k a) (k b)).
Proof.
  intros Hk a b h. unfold comparing, bind. destruct (Hk a h) as [h1 E1]. rewrite E1. destruct (Hk b h1) as [h2 E2]. rewrite E2.
  exists h2. reflexivity.
Qed.

Lemma directory_first_answers w dk : steady w dk -> forall a, answers w (DIRECTORY_FIRST a) (dirs_first (is_dirb dk) a).
Proof.
  intros Hw a b h. pose proof (is_directory_answers w dk Hw) as Hd. unfold DIRECTORY_FIRST, bind.
  destruct (Hd a h) as [h1 E1]. rewrite E1. destruct (Hd b h1) as [h2 E2]. rewrite E2. exists h2. reflexivity.
Qed.

Lemma directory_last_answers w dk : steady w dk -> forall a, answers w (DIRECTORY_LAST a) (flipped (dirs_first (is_dirb dk)) a).
Proof. intro Hw. apply answers_reversed. now apply directory_first_answers. Qed.

Lemma by_file_size_answers w dk : steady w dk -> forall a, answers w (BY_FILE_SIZE a) (by_size (is_dirb dk) (d_length dk) a).
Proof.
  intros Hw a b h. pose proof (is_directory_answers w dk Hw) as Hd. destruct Hw as (_ & _ & _ & _ & Hn).
  assert (Hk : answers w (fun p => is_dir <- pm_is_directory p; if is_dir then ret 0 else file_length p)
                 (fun p => if is_dirb dk p then 0 else d_length dk p)).
  { intros p h0. unfold bind. destruct (Hd p h0) as [h1 E1]. rewrite E1. destruct (is_dirb dk p); [exists h1; reflexivity|].
    unfold file_length. rewrite Hn. eexists. reflexivity. }
  exact (answers_comparing w _ _ Hk a b h).
Qed.

Lemma by_extension_answers w dk : steady w dk -> forall a, answers w (BY_EXTENSION a) (by_ext (is_dirb dk) (jv_fold (w_jvm w)) a).
Proof.
  intros Hw a b h. pose proof (is_directory_answers w dk Hw) as Hd. unfold BY_EXTENSION, by_ext, bind.
  destruct (Hd a h) as [h1 E1]. rewrite E1. destruct (Hd b h1) as [h2 E2]. rewrite E2.
  destruct (is_dirb dk a), (is_dirb dk b); exists h2; reflexivity.
Qed.

Lemma contract_dirs_first isdir : contract (dirs_first isdir).
Proof.
  apply contract_intro; unfold dirs_first.
  - intros x y. destruct (isdir x), (isdir y); reflexivity.
  - intros x y z. destruct (isdir x), (isdir y), (isdir z); cbn; lia.
Qed.

Lemma contract_by_size isdir len : contract (by_size isdir len).
Proof. apply (contract_key (fun p => if isdir p then 0 else len p)). Qed.

Lemma compare_folded_map fold a : forall b, compare_folded fold a b = jcompare (map fold a) (map fold b).
Proof.
  induction a as [|x a IH]; intros [|y b]; simpl; rewrite ?map_length; try reflexivity. now rewrite IH.
Qed.

Lemma jcompare_ci_map fold a b : jcompare_ci fold a b = jcompare (map fold (points a)) (map fold (points b)).
Proof. apply compare_folded_map. Qed.

Lemma jcompare_ci_anti fold a b : jcompare_ci fold b a = - jcompare_ci fold a b.
Proof. rewrite !jcompare_ci_map. apply jcompare_anti. Qed.

Lemma jcompare_ci_trans fold a b c : jcompare_ci fold a b <= 0 -> jcompare_ci fold b c <= 0 -> jcompare_ci fold a c <= 0.
Proof. rewrite !jcompare_ci_map. apply jcompare_trans. Qed.

Lemma jcompare_ci_zero fold a b : jcompare_ci fold a b = 0 <-> same_ci fold a b.
Proof. rewrite jcompare_ci_map, same_points. apply jcompare_eq. Qed.

Lemma compare_folded_neg fold a b : compare_folded fold a b < 0 <-> folded_before fold a b.
Proof.
  revert b. induction a as [|x a IH]; intros [|y b]; cbn [compare_folded].
  - split; [lia|inversion 1].
  - split; [constructor|intros _; cbn [length]; lia].
  - split; [cbn [length]; lia|inversion 1].
  - destruct (N.eqb_spec (fold x) (fold y)) as [E|E].
    + rewrite IH. split; [now apply fb_same|]. inversion 1; subst; [lia|assumption].
    + split; [intro; apply fb_less; lia|]. inversion 1; subst; [lia|contradiction].
Qed.

Lemma jcompare_ci_neg fold a b : jcompare_ci fold a b < 0 <-> before_ci fold a b.
Proof.
  unfold jcompare_ci. rewrite compare_folded_neg. split; [intro H; exists (points a), (points b); repeat split; try apply points_spec; exact H|].
  intros (la & lb & Ha & Hb & H). apply points_of_iff in Ha as ->. now apply points_of_iff in Hb as ->.
Qed.

Lemma ext_parts_anti fold a : forall b, Z.sgn (compare_ext_parts fold a b) = - Z.sgn (compare_ext_parts fold b a).
Proof.
  induction a as [|x a IH]; intros [|y b]; simpl; try reflexivity.
  pose proof (jcompare_ci_anti fold x y) as A.
  destruct (Z.eqb_spec (jcompare_ci fold x y) 0); destruct (Z.eqb_spec (jcompare_ci fold y x) 0); try lia.
  apply IH.
Qed.

Lemma ext_parts_trans fold a : forall b c, compare_ext_parts fold a b <= 0 -> compare_ext_parts fold b c <= 0 ->
  compare_ext_parts fold a c <= 0.
Proof.
  induction a as [|x a IH]; intros [|y b] [|z c]; simpl; try lia.
  pose proof (jcompare_ci_trans fold x y z) as T1. pose proof (jcompare_ci_trans fold y z x) as T2.
  pose proof (jcompare_ci_trans fold z x y) as T3.
  pose proof (jcompare_ci_anti fold x y). pose proof (jcompare_ci_anti fold y z). pose proof (jcompare_ci_anti fold x z).
  destruct (Z.eqb_spec (jcompare_ci fold x y) 0); destruct (Z.eqb_spec (jcompare_ci fold y z) 0);
    destruct (Z.eqb_spec (jcompare_ci fold x z) 0); intros; try lia. eapply IH; eauto.
Qed.

Lemma ext_parts_neg fold a : forall b, compare_ext_parts fold a b < 0 <-> parts_before fold a b.
Proof.
  induction a as [|x a IH]; intros [|y b]; cbn [compare_ext_parts].
  - split; [lia|inversion 1].
  - split; [constructor|lia].
  - split; [lia|inversion 1].
  - destruct (Z.eqb_spec (jcompare_ci fold x y) 0) as [E|E].
    + rewrite IH. split; [apply pb_same; now apply jcompare_ci_zero|].
      inversion 1; subst; [|assumption]. match goal with B : before_ci _ _ _ |- _ => apply jcompare_ci_neg in B; lia end.
    + rewrite jcompare_ci_neg. split; [now apply pb_less|]. inversion 1; subst; [assumption|].
      match goal with B : same_ci _ _ _ |- _ => apply jcompare_ci_zero in B; contradiction end.
Qed.

Lemma ext_parts_zero fold a : forall b, compare_ext_parts fold a b = 0 <-> Forall2 (same_ci fold) a b.
Proof.
  induction a as [|x a IH]; intros [|y b]; cbn [compare_ext_parts].
  - split; [constructor|reflexivity].
  - split; [lia|inversion 1].
  - split; [lia|inversion 1].
  - destruct (Z.eqb_spec (jcompare_ci fold x y) 0) as [E|E].
    + rewrite IH. split; [constructor; [now apply jcompare_ci_zero|assumption]|now inversion 1].
    + split; [contradiction|]. inversion 1; subst.
      match goal with B : same_ci _ _ _ |- _ => apply jcompare_ci_zero in B; contradiction end.
Qed.

Lemma contract_by_ext isdir fold : contract (by_ext isdir fold).
Proof.
  apply contract_intro; unfold by_ext, compare_extensions.
  - intros x y. destruct (isdir x), (isdir y); try reflexivity.
    destruct (length (jsplit_dot (alpha_key x)) =? 1)%nat, (length (jsplit_dot (alpha_key y)) =? 1)%nat; cbn; try reflexivity.
    + rewrite (jcompare_ci_anti fold (alpha_key y)). lia.
    + apply ext_parts_anti.
  - intros x y z. destruct (isdir x), (isdir y), (isdir z); try lia.
    destruct (length (jsplit_dot (alpha_key x)) =? 1)%nat, (length (jsplit_dot (alpha_key y)) =? 1)%nat,
             (length (jsplit_dot (alpha_key z)) =? 1)%nat; cbn; try lia.
    + apply jcompare_ci_trans.
    + apply ext_parts_trans.
Qed.

(** *** Splitting names *)

Lemma split_on_no_dot x : ~ In c_dot x -> split_on c_dot x = [x].
Proof.
  induction x as [|a x IH]; intro H; [reflexivity|]. cbn [split_on].
  destruct (N.eqb_spec a c_dot) as [->|Hn]; [exfalso; apply H; now left|].
  rewrite IH; [reflexivity|]. intro; apply H; now right.
Qed.

Lemma split_on_nonempty c s : split_on c s <> [].
Proof. destruct s; cbn; [discriminate|]. destruct (N.eqb n c); [discriminate|]. destruct (split_on c s); discriminate. Qed.

Lemma split_on_app x s : ~ In c_dot x -> split_on c_dot (x ++ [c_dot] ++ s) = x :: split_on c_dot s.
Proof.
  induction x as [|a x IH]; intro H; [reflexivity|]. cbn [app split_on].
  destruct (N.eqb_spec a c_dot) as [->|Hn]; [exfalso; apply H; now left|].
  cbn [app] in IH. rewrite IH; [reflexivity|]. intro; apply H; now right.
Qed.

Lemma split_on_pieces s l : pieces s l -> split_on c_dot s = l.
Proof.
  intros (Hne & -> & F). induction F as [|x l Hx F IH]; [congruence|].
  destruct l as [|y l]; [now apply split_on_no_dot|].
  cbn [join]. rewrite split_on_app by assumption. f_equal. apply IH. discriminate.
Qed.

Lemma pieces_split_on s : pieces s (split_on c_dot s).
Proof.
  split; [apply split_on_nonempty|]. induction s as [|a s [IH1 IH2]].
  - split; [reflexivity|]. repeat constructor. intros [].
  - cbn [split_on]. destruct (N.eqb_spec a c_dot) as [->|Hn].
    + split; [|constructor; [intros []|assumption]].
      pose proof (split_on_nonempty c_dot s). destruct (split_on c_dot s) eqn:E; [congruence|].
      rewrite IH1 at 1. reflexivity.
    + pose proof (split_on_nonempty c_dot s). destruct (split_on c_dot s) as [|w ws] eqn:E; [congruence|].
      pose proof (Forall_inv IH2) as Hw. pose proof (Forall_inv_tail IH2) as Hws. split.
      * rewrite IH1 at 1. destruct ws; reflexivity.
      * constructor; [|assumption]. intros [->|Hin]; contradiction.
Qed.

Lemma jsplit_dot_no_dot s : ~ In c_dot s -> jsplit_dot s = [s].
Proof.
  intro H. unfold jsplit_dot. destruct (existsb (N.eqb c_dot) s) eqn:E; [|reflexivity].
  apply existsb_exists in E. destruct E as (x & Hin & Heq). apply N.eqb_eq in Heq. subst. contradiction.
Qed.

Lemma drop_leading_nonempty x l : x <> [] -> drop_leading_empty (x :: l) = x :: l.
Proof. destruct x; [congruence|reflexivity]. Qed.

Lemma join_has_dot x y l : In c_dot (join [c_dot] (x :: y :: l)).
Proof. cbn [join]. apply in_or_app. right. now left. Qed.

Lemma split_on_snoc s : split_on c_dot (s ++ [c_dot]) = split_on c_dot s ++ [[]].
Proof.
  induction s as [|a s IH]; [reflexivity|]. cbn [app split_on]. destruct (N.eqb a c_dot); rewrite IH; [reflexivity|].
  pose proof (split_on_nonempty c_dot s). destruct (split_on c_dot s); [congruence|reflexivity].
Qed.

Lemma repeat_snoc {A} (x : A) k : repeat x (S k) = repeat x k ++ [x].
Proof. induction k as [|k IH]; [reflexivity|]. cbn [repeat app] in *. now rewrite <- IH. Qed.

Lemma split_on_dots s k : split_on c_dot (s ++ repeat c_dot k) = split_on c_dot s ++ repeat [] k.
Proof.
  induction k as [|k IH]; [now rewrite !app_nil_r|].
  rewrite !repeat_snoc, !app_assoc, split_on_snoc. now rewrite IH.
Qed.

Lemma drop_leading_repeat k l : drop_leading_empty (repeat [] k ++ l) = drop_leading_empty l.
Proof. induction k; [reflexivity|assumption]. Qed.

Lemma rev_repeat {A} (x : A) k : rev (repeat x k) = repeat x k.
Proof. induction k as [|k IH]; [reflexivity|]. cbn [repeat rev]. now rewrite IH, <- repeat_snoc. Qed.

(** Trailing dots do not matter, unless there is nothing else. *)
Lemma jsplit_dots s k : In c_dot (s ++ repeat c_dot k) ->
  jsplit_dot (s ++ repeat c_dot k) = rev (drop_leading_empty (rev (split_on c_dot s))).
Proof.
  intro H. unfold jsplit_dot. replace (existsb (N.eqb c_dot) (s ++ repeat c_dot k)) with true.
  - now rewrite split_on_dots, rev_app_distr, rev_repeat, drop_leading_repeat.
  - symmetry. apply existsb_exists. exists c_dot. split; [exact H|apply N.eqb_refl].
Qed.

Lemma has_parts_split name exts : has_parts name exts ->
  length (jsplit_dot name) <> 1%nat /\ tl (jsplit_dot name) = exts.
Proof.
  intros (core & k & -> & [(Hne & Hlast & stem & Hp)|(-> & -> & Hk)]).
  - assert (Hin : In c_dot (core ++ repeat c_dot k)).
    { apply in_or_app. left. destruct Hp as (_ & -> & _). destruct exts as [|y l]; [congruence|]. apply join_has_dot. }
    rewrite (jsplit_dots _ _ Hin), (split_on_pieces _ _ Hp).
    destruct (exists_last Hne) as (l & z & ->). rewrite last_last in Hlast.
    change (stem :: l ++ [z]) with ((stem :: l) ++ [z]). rewrite rev_app_distr. cbn [rev app].
    rewrite drop_leading_nonempty by assumption.
    change (rev (z :: rev l ++ [stem])) with (rev (rev l ++ [stem]) ++ [z]).
    rewrite rev_app_distr, rev_involutive. cbn. rewrite app_length. cbn. split; [lia|reflexivity].
  - destruct k as [|k]; [congruence|]. rewrite (jsplit_dots [] (S k)) by now left. now split.
Qed.

Lemma no_extension_split name : no_extension name -> length (jsplit_dot name) = 1%nat.
Proof.
  intros (core & k & -> & Hn & Hc). destruct k as [|k].
  - cbn. rewrite app_nil_r, jsplit_dot_no_dot by assumption. reflexivity.
  - destruct Hc as [Hc|Hc]; [|discriminate]. rewrite jsplit_dots.
    + rewrite split_on_no_dot by assumption. cbn. destruct core; [congruence|reflexivity].
    + apply in_or_app. right. now left.
Qed.

(** Every name is of one of the two forms. *)
Lemma join_empties k : join [c_dot] (repeat [] (S k)) = repeat c_dot k.
Proof. induction k as [|k IH]; [reflexivity|]. cbn [repeat join app] in *. now rewrite IH. Qed.

Lemma join_app_empties l k : l <> [] -> join [c_dot] (l ++ repeat [] k) = join [c_dot] l ++ repeat c_dot k.
Proof.
  induction l as [|x l IH]; intro H; [congruence|]. destruct l as [|y l].
  - destruct k as [|k]; [cbn; now rewrite app_nil_r|].
    change ([x] ++ repeat [] (S k)) with (x :: repeat [] (S k)). 
    assert (E : join [c_dot] (x :: repeat [] (S k)) = x ++ [c_dot] ++ join [c_dot] (repeat [] (S k))) by reflexivity.
    rewrite E, join_empties. reflexivity.
  - assert (E : join [c_dot] ((x :: y :: l) ++ repeat [] k) = x ++ [c_dot] ++ join [c_dot] ((y :: l) ++ repeat [] k)) by reflexivity.
    rewrite E, IH by discriminate. cbn [join app]. now rewrite <- app_assoc.
Qed.

Lemma strip_empties (l : list jstring) : exists l' k, l = l' ++ repeat [] k /\ (l' = [] \/ last l' [] <> []).
Proof.
  induction l as [|x l IH] using rev_ind; [exists [], 0%nat; auto|].
  destruct x as [|c x].
  - destruct IH as (l' & k & -> & H). exists l', (S k). split; [|exact H]. now rewrite repeat_snoc, app_assoc.
  - exists (l ++ [c :: x]), 0%nat. cbn [repeat]. rewrite app_nil_r. split; [reflexivity|right].
    rewrite last_last. discriminate.
Qed.

Theorem name_classes : forall name, no_extension name \/ exists exts, has_parts name exts.
Proof.
  intro name. pose proof (pieces_split_on name) as (Hne & Hj & F).
  destruct (strip_empties (split_on c_dot name)) as (l & k & E & H). rewrite E in *.
  destruct l as [|stem exts].
  - cbn [app] in *. destruct k as [|[|k]]; [cbn in Hne; congruence| |].
    + left. exists [], 0%nat. cbn in Hj. subst. repeat split; auto.
    + right. exists [], [], (S k). rewrite join_empties in Hj. split; [assumption|]. right. repeat split. discriminate.
  - rewrite join_app_empties in Hj by discriminate. apply Forall_app in F. destruct F as [F _].
    destruct H as [H|H]; [discriminate|]. destruct exts as [|y exts].
    + left. exists stem, k. cbn in Hj, H. split; [assumption|]. split; [now apply Forall_inv in F|now left].
    + right. exists (y :: exts), (join [c_dot] (stem :: y :: exts)), k. split; [assumption|]. left.
      split; [discriminate|]. split; [exact H|]. exists stem. repeat split; auto. discriminate.
Qed.

Lemma has_parts_det name a b : has_parts name a -> has_parts name b -> a = b.
Proof. intros Ha Hb. apply has_parts_split in Ha, Hb. destruct Ha, Hb. congruence. Qed.

Lemma by_ext_order isdir fold a b : isdir a = false -> isdir b = false ->
  (forall ea eb, has_parts (last_name a) ea -> has_parts (last_name b) eb ->
     (by_ext isdir fold a b < 0 <-> parts_before fold (rev ea) (rev eb)) /\
     (by_ext isdir fold a b = 0 <-> Forall2 (same_ci fold) (rev ea) (rev eb))) /\
  (forall eb, no_extension (last_name a) -> has_parts (last_name b) eb -> by_ext isdir fold a b < 0) /\
  (no_extension (last_name a) -> no_extension (last_name b) ->
     (by_ext isdir fold a b < 0 <-> before_ci fold (last_name a) (last_name b)) /\
     (by_ext isdir fold a b = 0 <-> same_ci fold (last_name a) (last_name b))).
Proof.
  intros Ha Hb. rewrite <- (alpha_key_last a), <- (alpha_key_last b). unfold by_ext, compare_extensions. rewrite Ha, Hb. split; [|split].
  - intros ea eb Hea Heb. apply has_parts_split in Hea. apply has_parts_split in Heb.
    destruct Hea as [La Ea], Heb as [Lb Eb]. apply Nat.eqb_neq in La, Lb. rewrite La, Lb, Ea, Eb.
    cbn [andb]. split; [apply ext_parts_neg|apply ext_parts_zero].
  - intros eb Hna Heb. apply has_parts_split in Heb. destruct Heb as [Lb _]. apply Nat.eqb_neq in Lb.
    rewrite (no_extension_split _ Hna), Lb. cbn. lia.
  - intros Hna Hnb. rewrite (no_extension_split _ Hna), (no_extension_split _ Hnb). cbn [Nat.eqb andb].
    split; [apply jcompare_ci_neg|apply jcompare_ci_zero].
Qed.

Theorem C34_contracts_lemma : forall w dk c, steady w dk ->
  In c [ALPHABETICAL; DIRECTORY_FIRST; DIRECTORY_LAST; BY_FILE_SIZE; BY_EXTENSION] ->
  exists g, contract g /\ forall a, answers w (c a) (g a).
Proof.
  intros w dk c Hw [<-|[<-|[<-|[<-|[<-|[]]]]]]; eexists; (split; [|]).
  2: exact (answers_alphabetical w). 3: exact (directory_first_answers w dk Hw). 4: exact (directory_last_answers w dk Hw).
  5: exact (by_file_size_answers w dk Hw). 6: exact (by_extension_answers w dk Hw).
  - apply contract_alphabetical.
  - apply contract_dirs_first.
  - apply contract_flipped, contract_dirs_first.
  - apply contract_by_size.
  - apply contract_by_ext.
Qed.

Theorem C34_extension_lemma : forall w dk a b h, steady w dk -> is_dirb dk a = false -> is_dirb dk b = false ->
  let fold := jv_fold (w_jvm w) in
  exists z h', BY_EXTENSION a b w h = (Ok z, h') /\
    (forall ea eb, has_parts (last_name a) ea -> has_parts (last_name b) eb ->
       (z < 0 <-> parts_before fold (rev ea) (rev eb)) /\ (z = 0 <-> Forall2 (same_ci fold) (rev ea) (rev eb))) /\
    (forall eb, no_extension (last_name a) -> has_parts (last_name b) eb -> z < 0) /\
    (forall ea, has_parts (last_name a) ea -> no_extension (last_name b) -> z > 0) /\
    (no_extension (last_name a) -> no_extension (last_name b) ->
       (z < 0 <-> before_ci fold (last_name a) (last_name b)) /\ (z = 0 <-> same_ci fold (last_name a) (last_name b))).
Proof.
  intros w dk a b h Hw Ha Hb fold. destruct (by_extension_answers w dk Hw a b h) as [h' E]. fold fold in E.
  exists (by_ext (is_dirb dk) fold a b), h'. split; [exact E|].
  destruct (by_ext_order (is_dirb dk) fold a b Ha Hb) as (H1 & H2 & H3).
  destruct (by_ext_order (is_dirb dk) fold b a Hb Ha) as (_ & H2' & _).
  split; [exact H1|]. split; [exact H2|]. split; [|exact H3]. intros ea Hea Hnb. specialize (H2' ea Hnb Hea).
  pose proof (proj1 (contract_by_ext (is_dirb dk) fold) a b). lia.
Qed.

Theorem C34_directories_lemma : forall w dk a b h, steady w dk -> is_dirb dk a = true -> is_dirb dk b = false ->
  (exists z h', BY_EXTENSION a b w h = (Ok z, h') /\ z < 0) /\
  (exists z h', DIRECTORY_FIRST a b w h = (Ok z, h') /\ z < 0) /\
  (exists z h', DIRECTORY_LAST a b w h = (Ok z, h') /\ z > 0) /\
  (exists z h', BY_FILE_SIZE a b w h = (Ok z, h') /\ (0 < d_length dk b -> z < 0)).
Proof.
  intros w dk a b h Hw Ha Hb.
  destruct (by_extension_answers w dk Hw a b h) as [h1 E1]. destruct (directory_first_answers w dk Hw a b h) as [h2 E2].
  destruct (directory_last_answers w dk Hw a b h) as [h3 E3]. destruct (by_file_size_answers w dk Hw a b h) as [h4 E4].
  split; [|split; [|split]]; eexists _, _; (split; [eassumption|]); unfold by_ext, dirs_first, flipped, dirs_first, by_size, zcompare;
    rewrite ?Ha, ?Hb; cbn; try lia. intro H. destruct (Z.ltb_spec 0 (d_length dk b)); lia.
Qed.

Close Scope Z_scope.

(** ** What is displayed with [sort(BY_FILE_SIZE)] *)

Lemma by_size_refined isdir len a b : refined (by_size isdir len) a b ->
  ((if isdir a then 0 else len a) < (if isdir b then 0 else len b))%Z \/
  ((if isdir a then 0 else len a) = (if isdir b then 0 else len b))%Z /\ name_lt (last_name a) (last_name b).
Proof.
  unfold refined, by_size, zcompare.
  destruct (Z.ltb_spec (if isdir a then 0 else len a) (if isdir b then 0 else len b))%Z;
    destruct (Z.ltb_spec (if isdir b then 0 else len b) (if isdir a then 0 else len a))%Z; intros [H1|[H1 H2]]; try lia; auto.
  right. split; [lia|exact H2].
Qed.

Lemma StronglySorted_impl {A} (R R' : A -> A -> Prop) l :
  (forall a b, R a b -> R' a b) -> StronglySorted R l -> StronglySorted R' l.
Proof.
  intros HR H. induction H as [|a l H IH F]; constructor; [exact IH|]. eapply Forall_impl; [|exact F]. auto.
Qed.

Theorem C68_lemma : forall o p w h out h' v dk st,
  steady w dk -> distinct_names dk -> uses w o st -> sees w o v -> sorts_by BY_FILE_SIZE o ->
  pretty_print o p w h = (Ok out, h') ->
  let size q := if is_dirb dk q then 0%Z else d_length dk q in
  exists e s, tree_at st dk 0 (location w p) e /\ shows v true e s /\ out = text (o_tree_format o) (labelled v s) /\
    forall k q es, at_depth k e (EDir q es) ->
      StronglySorted (fun a b => (size a < size b)%Z \/ (size a = size b /\ name_lt (last_name a) (last_name b))) (child_paths es).
Proof.
  intros o p w h out h' v dk st Hw Hd Hu Hs Hso H size.
  destruct (C06_sort_lemma _ _ _ _ _ _ _ _ _ _ _ Hw Hd Hu Hs Hso (by_file_size_answers w dk Hw) (contract_by_size _ _) H) as (e & s & A & B & C & D).
  exists e, s. split; [exact A|]. split; [exact B|]. split; [exact C|]. intros k q es Hk.
  eapply StronglySorted_impl; [|exact (D k q es Hk)]. apply by_size_refined.
Qed.
