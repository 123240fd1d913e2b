(** * Proofs about the path matchers *)

From Verif Require Import SpecMatch SpecSeen SortFacts PathFacts TraceFacts RunFacts SeenFacts PointFacts.
Close Scope Z_scope.

(** ** Combinations *)

Lemma check_non_null_spec ms : check_non_null (map Some ms) = Some ms.
Proof. induction ms as [|m ms IH]; [reflexivity|]. cbn. now rewrite IH. Qed.

Lemma check_non_null_none ms : In None ms -> check_non_null ms = None.
Proof.
  induction ms as [|[m|] ms IH]; intros H; [destruct H| |reflexivity].
  destruct H as [H|H]; [discriminate|]. cbn. now rewrite IH.
Qed.

Lemma pm_all_asked w p ms : forall h, exists r h', asked w p false ms h r h' /\
  pm_all ms p w h = (match r with Ok b => Ok (negb b) | Throw e => Throw e end, h').
Proof.
  induction ms as [|m ms IH]; intro h; [eexists _, _; split; [constructor|reflexivity]|].
  cbn [pm_all]. unfold bind. destruct (m p w h) as [[[|]|e] h'] eqn:E.
  - destruct (IH h') as (r & h'' & Ha & Er). exists r, h''. split; [eapply asked_next; eassumption|exact Er].
  - eexists _, _. split; [apply asked_stop; exact E|reflexivity].
  - eexists _, _. split; [apply asked_throw; exact E|reflexivity].
Qed.

Lemma pm_any_asked w p ms : forall h, exists r h', asked w p true ms h r h' /\ pm_any ms p w h = (r, h').
Proof.
  induction ms as [|m ms IH]; intro h; [eexists _, _; split; [constructor|reflexivity]|].
  cbn [pm_any]. unfold bind. destruct (m p w h) as [[[|]|e] h'] eqn:E.
  - eexists _, _. split; [apply asked_stop; exact E|reflexivity].
  - destruct (IH h') as (r & h'' & Ha & Er). exists r, h''. split; [eapply asked_next; eassumption|exact Er].
  - eexists _, _. split; [apply asked_throw; exact E|reflexivity].
Qed.

Lemma pm_none_asked w p ms : forall h, exists r h', asked w p true ms h r h' /\
  pm_none ms p w h = (match r with Ok b => Ok (negb b) | Throw e => Throw e end, h').
Proof.
  induction ms as [|m ms IH]; intro h; [eexists _, _; split; [constructor|reflexivity]|].
  cbn [pm_none]. unfold bind. destruct (m p w h) as [[[|]|e] h'] eqn:E.
  - eexists _, _. split; [apply asked_stop; exact E|reflexivity].
  - destruct (IH h') as (r & h'' & Ha & Er). exists r, h''. split; [eapply asked_next; eassumption|exact Er].
  - eexists _, _. split; [apply asked_throw; exact E|reflexivity].
Qed.

Theorem combine_asked : forall md m ms, exists c, combine_matchers (map Some (m :: ms)) md = Ok c /\
  forall w p h, exists r h', asked w p (decisive md) (m :: ms) h r h' /\
    c p w h = (match r with Ok met => Ok (verdict md met) | Throw e => Throw e end, h').
Proof.
  intros md m ms. unfold combine_matchers. rewrite check_non_null_spec.
  destruct md; eexists; (split; [reflexivity|]); intros w p h; cbn [decisive verdict].
  - apply (pm_all_asked w p (m :: ms)).
  - destruct (pm_any_asked w p (m :: ms) h) as (r & h' & Ha & E). exists r, h'. split; [exact Ha|]. rewrite E. now destruct r.
  - apply (pm_none_asked w p (m :: ms)).
Qed.

Theorem combine_errors : forall md ms,
  combine_matchers [] md = Throw ExIllegalArgument /\ (In None ms -> combine_matchers ms md = Throw ExNullPointer).
Proof.
  intros md ms. split; [reflexivity|]. intro H. unfold combine_matchers. now rewrite check_non_null_none.
Qed.

Theorem asked_det : forall w p d ms h r1 h1 r2 h2,
  asked w p d ms h r1 h1 -> asked w p d ms h r2 h2 -> r1 = r2 /\ h1 = h2.
Proof.
  intros w p d ms h r1 h1 r2 h2 H. revert r2 h2.
  induction H as [h|m ms h h' E|m ms h e h' E|m ms h h' r h'' E Hn IH]; intros r2 h2 H2; inversion H2; subst; auto;
    match goal with A : _ = (_, _), B : _ = (_, _) |- _ => rewrite A in B; injection B; intros; subst end; auto;
    try (destruct d; discriminate); try discriminate.
Qed.

(** The boolean meaning. *)
Theorem combine_boolean : forall md m ms c w p g,
  combine_matchers (map Some (m :: ms)) md = Ok c ->
  Forall (fun x => forall h, exists h', x p w h = (Ok (g x), h')) (m :: ms) ->
  forall h, exists h', c p w h =
    (Ok (match md with ALL => forallb g (m :: ms) | ANY => existsb g (m :: ms) | NONE => negb (existsb g (m :: ms)) end), h').
Proof.
  intros md m ms c w p g Hc F h. destruct (combine_asked md m ms) as (c' & Hc' & H). rewrite Hc in Hc'. injection Hc' as <-.
  destruct (H w p h) as (r & h' & Ha & E). exists h'. rewrite E. clear E H Hc. f_equal.
  induction Ha as [h|x xs h h' E|x xs h e h' E|x xs h h' r h'' E Hn IH].
  - destruct md; reflexivity.
  - apply Forall_inv in F. destruct (F h) as [h1 E1]. rewrite E in E1. injection E1 as E1 _. cbn [forallb existsb]. rewrite <- E1.
    destruct md; reflexivity.
  - apply Forall_inv in F. destruct (F h) as [h1 E1]. congruence.
  - pose proof (Forall_inv F) as F1. apply Forall_inv_tail in F. specialize (IH F).
    destruct (F1 h) as [h1 E1]. rewrite E in E1. injection E1 as E1 _. rewrite IH. cbn [forallb existsb]. rewrite <- E1.
    destruct md; reflexivity.
Qed.

Lemma coll_run_made cmds : forall s, exists more, cs_made (coll_run s cmds) = cs_made s ++ more /\ length more = combines cmds.
Proof.
  induction cmds as [|c cmds IH]; intro s; simpl; [exists []; now rewrite app_nil_r|].
  destruct (IH (coll_exec s c)) as (more & E & L). rewrite E. destruct c as [l|md]; simpl.
  - now exists more.
  - eexists (_ :: more). rewrite <- app_assoc. simpl. split; [reflexivity|auto].
Qed.

Lemma coll_run_contents cmds : forall s, cs_coll (coll_run s cmds) = contents (cs_coll s) cmds.
Proof. induction cmds as [|c cmds IH]; intro s; simpl; [reflexivity|]. rewrite IH. destruct c; reflexivity. Qed.

Theorem combined_frozen : forall l cmds md later,
  nth_error (cs_made (coll_run (mkCollSession l []) (cmds ++ CCombine md :: later))) (combines cmds) =
  Some (combine_matchers (contents l cmds) md).
Proof.
  intros l cmds md later. unfold coll_run. rewrite fold_left_app. cbn [fold_left].
  fold (coll_run (mkCollSession l []) cmds).
  fold (coll_run (coll_exec (coll_run (mkCollSession l []) cmds) (CCombine md)) later).
  destruct (coll_run_made later (coll_exec (coll_run (mkCollSession l []) cmds) (CCombine md))) as (more & E & _).
  rewrite E. cbn [coll_exec cs_made]. destruct (coll_run_made cmds (mkCollSession l [])) as (more' & E' & L').
  rewrite E'. cbn [cs_made app]. rewrite <- app_assoc, nth_error_app2 by lia. rewrite L', Nat.sub_diag.
  cbn [app nth_error]. now rewrite coll_run_contents.
Qed.

(** The same for the methods a client calls. *)
Lemma combination_is md ms : combination md ms = combine_matchers ms md.
Proof. destruct md; reflexivity. Qed.

Theorem combine_asked_called : forall md m ms, exists c, combination md (map Some (m :: ms)) = Ok c /\
  forall w p h, exists r h', asked w p (decisive md) (m :: ms) h r h' /\
    c p w h = (match r with Ok met => Ok (verdict md met) | Throw e => Throw e end, h').
Proof. intros md m ms. rewrite combination_is. apply combine_asked. Qed.

Theorem combine_boolean_called : forall md m ms c w p g,
  combination md (map Some (m :: ms)) = Ok c ->
  Forall (fun x => forall h, exists h', x p w h = (Ok (g x), h')) (m :: ms) ->
  forall h, exists h', c p w h =
    (Ok (match md with ALL => forallb g (m :: ms) | ANY => existsb g (m :: ms) | NONE => negb (existsb g (m :: ms)) end), h').
Proof. intros md m ms c w p g. rewrite combination_is. apply combine_boolean. Qed.

Theorem combine_errors_called : forall md ms,
  combination md [] = Throw ExIllegalArgument /\ (In None ms -> combination md ms = Throw ExNullPointer).
Proof. intros md ms. rewrite !combination_is. apply combine_errors. Qed.

Theorem combined_frozen_called : forall l cmds md later,
  nth_error (cs_made (coll_run (mkCollSession l []) (cmds ++ CCombine md :: later))) (combines cmds) =
  Some (combination md (contents l cmds)).
Proof. intros l cmds md later. rewrite combination_is. apply combined_frozen. Qed.

Theorem not_and_conditional : forall w p m i t e h,
  (forall b h', m p w h = (Ok b, h') -> pm_not m p w h = (Ok (negb b), h')) /\
  (forall x h', m p w h = (Throw x, h') -> pm_not m p w h = (Throw x, h')) /\
  (forall h', i p w h = (Ok true, h') -> pm_if_then_else i t e p w h = t p w h') /\
  (forall h', i p w h = (Ok false, h') -> pm_if_then_else i t e p w h = e p w h') /\
  (forall x h', i p w h = (Throw x, h') -> pm_if_then_else i t e p w h = (Throw x, h')).
Proof.
  intros w p m i t e h. unfold pm_not, pm_if_then_else, bind, ret.
  repeat split; intros; match goal with E : _ = (_, _) |- _ => rewrite E end; reflexivity.
Qed.

(** ** Absolute and relative paths *)

(** Normalising first and prefixing the current directory afterwards names the same location. *)
Definition plain_or_up (n : jstring) : Prop := n <> n_dot.

Lemma stack_false_no_dot l : Forall plain_or_up (fold_left (norm_step false) l []).
Proof.
  induction l as [|n l IH] using rev_ind; [constructor|]. rewrite fold_left_app. cbn [fold_left]. unfold norm_step at 1.
  destruct (jeqb_spec n n_dot) as [->|Hd]; [exact IH|].
  destruct (jeqb_spec n n_dotdot) as [->|Hdd].
  - destruct (fold_left (norm_step false) l []) as [|t T'].
    + constructor; [|constructor]. exact Hd.
    + destruct (jeqb t n_dotdot); [constructor; assumption|now apply Forall_inv_tail in IH].
  - constructor; assumption.
Qed.

Lemma fold_norm_false l : forall S,
  fold_left (norm_step true) (rev (fold_left (norm_step false) l [])) S = fold_left (norm_step true) l S.
Proof.
  induction l as [|n l IH] using rev_ind; intro S; [reflexivity|].
  pose proof (stack_false_no_dot l) as Hnd.
  rewrite !fold_left_app. cbn [fold_left]. rewrite <- IH. set (T := fold_left (norm_step false) l []) in *.
  destruct (jeqb_spec n n_dot) as [->|Hd]; [reflexivity|].
  destruct (jeqb_spec n n_dotdot) as [->|Hdd].
  - destruct T as [|t T']; [reflexivity|].
    destruct (jeqb_spec t n_dotdot) as [->|Ht].
    + change (norm_step false (n_dotdot :: T') n_dotdot) with (n_dotdot :: n_dotdot :: T').
      change (rev (n_dotdot :: n_dotdot :: T')) with (rev (n_dotdot :: T') ++ [n_dotdot]). now rewrite fold_left_app.
    + assert (Hp : plain t) by (split; [exact (Forall_inv Hnd)|exact Ht]).
      rewrite (norm_step_up false T' t Hp). cbn [rev]. rewrite fold_left_app. cbn [fold_left].
      now rewrite (norm_step_plain true _ t Hp), (norm_step_up true _ t Hp).
  - assert (Hp : plain n) by (split; assumption). rewrite (norm_step_plain false _ n Hp). cbn [rev]. now rewrite fold_left_app.
Qed.

Lemma loc_normalize cwd p : loc cwd (normalize p) = loc cwd p.
Proof.
  unfold loc, normalize, to_absolute. destruct p as [[] l]; cbn [p_abs p_names].
  - apply norm_names_idem.
  - rewrite !norm_names_stack. f_equal. rewrite !nstack_app. unfold norm_names. apply fold_norm_false.
Qed.

Lemma normalize_clean cwd p : normalize (to_absolute cwd (normalize p)) = mkPath true (loc cwd p).
Proof. rewrite normalize_to_absolute. now rewrite loc_normalize. Qed.

Lemma loc_real cwd p l : Forall real_name l -> same_location cwd p (mkPath true l) -> loc cwd p = l.
Proof.
  intros F H. apply same_location_loc in H. rewrite H. unfold loc, to_absolute. cbn [p_abs p_names].
  apply norm_names_plain. eapply Forall_impl; [|exact F]. intros n (_ & H1 & H2). now split.
Qed.

Lemma relative_matcher w ref m h : exists c, pm_relative_path ref m w h = (Ok c, h) /\
  forall p h', c p w h' = m (mkPath false (relativize_names (loc (jv_cwd (w_jvm w)) ref) (loc (jv_cwd (w_jvm w)) p))) w h'.
Proof.
  unfold pm_relative_path, clean_path, bind, get_jvm, ret. eexists. split; [reflexivity|].
  intros p h'. cbn. unfold relativize. now rewrite !normalize_clean.
Qed.

Theorem C37_lemma : forall w h ref m R,
  same_location (jv_cwd (w_jvm w)) ref (mkPath true R) ->
  exists c, pm_relative_path ref m w h = (Ok c, h) /\
    (forall p rest h', Forall real_name (R ++ rest) ->
       same_location (jv_cwd (w_jvm w)) p (mkPath true (R ++ rest)) -> c p w h' = m (mkPath false rest) w h') /\
    (forall p common x b y h', R = common ++ x :: b -> Forall real_name (common ++ x :: b ++ y) -> hd_error y <> Some x ->
       same_location (jv_cwd (w_jvm w)) p (mkPath true (common ++ y)) ->
       c p w h' = m (mkPath false (repeat n_dotdot (length (x :: b)) ++ y)) w h').
Proof.
  intros w h ref m R Href. destruct (relative_matcher w ref m h) as (c & E & Hc). exists c. split; [exact E|]. split.
  - intros p rest h' F Hp. rewrite Hc, (loc_real _ _ _ F Hp).
    rewrite (loc_real _ _ R); [|apply Forall_app in F; apply F|exact Href]. now rewrite relativize_names_under.
  - intros p common x b y h' -> F Hne Hp.
    assert (F1 : Forall real_name (common ++ x :: b)).
    { rewrite app_comm_cons, app_assoc in F. apply Forall_app in F. apply F. }
    assert (F2 : Forall real_name (common ++ y)).
    { apply Forall_app in F. destruct F as [Fa Fb]. apply Forall_app. split; [exact Fa|].
      change (x :: b ++ y) with ((x :: b) ++ y) in Fb. apply Forall_app in Fb. apply Fb. }
    rewrite Hc, (loc_real _ _ _ F2 Hp), (loc_real _ _ _ F1 Href), relativize_names_spec.
    + do 3 f_equal. clear. induction (x :: b); [reflexivity|]. cbn. now f_equal.
    + destruct y as [|y0 y]; [exact I|]. intro H. apply Hne. cbn. now rewrite H.
Qed.

Theorem C69_lemma : forall w m p,
  exists q, (forall h, pm_absolute_path m p w h = m q w h) /\
    p_abs q = true /\ same_location (jv_cwd (w_jvm w)) p q /\
    (p_abs p = true -> q = normalize p) /\
    (p_abs p = false -> exists l, p_names q = jv_cwd (w_jvm w) ++ l /\ mkPath false l = normalize p) /\
    (Forall real_name (jv_cwd (w_jvm w)) -> (p_abs p = true \/ ~ In n_dotdot (p_names (normalize p))) ->
       q = normalize (to_absolute (jv_cwd (w_jvm w)) p)).
Proof.
  intros w m p. set (cwd := jv_cwd (w_jvm w)).
  exists (to_absolute cwd (normalize p)). split; [reflexivity|].
  split; [destruct p as [[] l]; reflexivity|].
  split.
  { apply same_location_complete. rewrite <- (loc_normalize cwd p). unfold loc, to_absolute.
    destruct p as [[] l]; reflexivity. }
  split; [intro H; destruct p as [[] l]; [reflexivity|discriminate]|].
  split.
  { intro H. destruct p as [[] l]; [discriminate|]. exists (norm_names false l). split; reflexivity. }
  intros Hcwd H. rewrite normalize_to_absolute. destruct p as [[] l]; [reflexivity|].
  destruct H as [H|H]; [discriminate|]. rewrite <- (loc_normalize cwd). unfold loc, to_absolute, normalize. cbn [p_abs p_names] in *.
  rewrite (norm_names_plain true); [reflexivity|]. apply Forall_app. split.
  - eapply Forall_impl; [|exact Hcwd]. intros n (_ & A & B). now split.
  - apply Forall_forall. intros n Hn. split.
    + unfold norm_names in Hn. apply in_rev in Hn. pose proof (stack_false_no_dot l) as F. rewrite Forall_forall in F. now apply F.
    + intros ->. now apply H.
Qed.

(** ** Parents and ancestors *)

Lemma get_parent_spec p : get_parent p =
  match rev (p_names p) with
  | [] => None
  | _ :: r => if p_abs p || negb (length r =? 0)%nat then Some (mkPath (p_abs p) (rev r)) else None
  end.
Proof.
  unfold get_parent. destruct (rev (p_names p)) as [|n [|n' r]]; [reflexivity| |].
  - destruct (p_abs p); reflexivity.
  - cbn. now rewrite orb_true_r.
Qed.

Lemma rev_cons_app {A} (l : list A) x r : rev l = x :: r -> l = rev r ++ [x].
Proof. intro H. rewrite <- (rev_involutive l), H. reflexivity. Qed.

Lemma get_parent_some p q : get_parent p = Some q <-> p_abs q = p_abs p /\ (exists n, p_names p = p_names q ++ [n]) /\
  (p_abs q = true \/ p_names q <> []).
Proof.
  rewrite get_parent_spec. destruct p as [a l]. cbn [p_abs p_names]. destruct (rev l) as [|n r] eqn:E.
  - apply (f_equal (@rev _)) in E. rewrite rev_involutive in E. cbn in E. subst l. split; [discriminate|].
    intros (_ & (n & H) & _). now destruct (p_names q).
  - apply rev_cons_app in E. subst l. split.
    + destruct (a || negb (length r =? 0)%nat) eqn:C; [|discriminate]. intro H. injection H as <-. cbn [p_abs p_names].
      split; [reflexivity|]. split; [eauto|]. destruct a; [now left|right]. cbn in C.
      intro H. apply (f_equal (@length _)) in H. rewrite rev_length in H. cbn in H. rewrite H in C. discriminate.
    + intros (Ha & (n' & Hn) & Hne). apply app_inj_tail in Hn. destruct Hn as [Hn ->]. destruct q as [aq lq]. cbn in *. subst.
      destruct a; [reflexivity|]. destruct Hne as [Hne|Hne]; [discriminate|]. destruct r; [cbn in Hne; congruence|reflexivity].
Qed.

Lemma get_parent_none p : get_parent p = None <-> p_names p = [] \/ (p_abs p = false /\ length (p_names p) = 1).
Proof.
  rewrite get_parent_spec. destruct p as [a l]. cbn [p_abs p_names]. destruct (rev l) as [|n r] eqn:E.
  - apply (f_equal (@rev _)) in E. rewrite rev_involutive in E. subst. cbn. tauto.
  - apply rev_cons_app in E. subst l. rewrite app_length, rev_length. cbn [length]. split.
    + destruct a; cbn; [discriminate|]. destruct r; cbn; [auto|discriminate].
    + intros [H|[-> H]]; [now destruct (rev r)|]. destruct r; [reflexivity|cbn in H; lia].
Qed.

Lemma is_ancestor_parent p q : is_ancestor q p <-> exists r, get_parent p = Some r /\ (q = r \/ is_ancestor q r).
Proof.
  split.
  - intros (Ha & (rest & Hne & Hr) & Hq). destruct (exists_last Hne) as (rest' & n & ->).
    exists (mkPath (p_abs p) (p_names q ++ rest')). split.
    + apply get_parent_some. cbn [p_abs p_names]. split; [reflexivity|]. split; [exists n; now rewrite Hr, app_assoc|].
      rewrite <- Ha. destruct Hq as [Hq|Hq]; [now left|right]. destruct (p_names q); [congruence|discriminate].
    + destruct rest' as [|x rest'].
      * left. rewrite app_nil_r. destruct q; cbn in *. now subst.
      * right. split; [exact Ha|]. split; [|exact Hq]. exists (x :: rest'). split; [discriminate|reflexivity].
  - intros (r & Hp & H). apply get_parent_some in Hp. destruct Hp as (Ha & (n & Hn) & Hr). destruct H as [->|(Ha' & (rest & Hne & Hrest) & Hq)].
    + split; [exact Ha|]. split; [|exact Hr]. exists [n]. split; [discriminate|exact Hn].
    + split; [congruence|]. split; [|exact Hq]. exists (rest ++ [n]). split; [destruct rest; discriminate|].
      now rewrite Hn, Hrest, app_assoc.
Qed.

Lemma get_parent_length p q : get_parent p = Some q -> length (p_names p) = S (length (p_names q)).
Proof. intro H. apply get_parent_some in H. destruct H as (_ & (n & ->) & _). rewrite app_length. cbn. lia. Qed.

Lemma ancestor_loop_value w m g : forall fuel p h, length (p_names p) <= fuel ->
  answers_on w (fun q => is_ancestor q p) m g ->
  exists b h', ancestor_loop fuel m (get_parent p) w h = (Ok b, h') /\ (b = true <-> exists q, is_ancestor q p /\ g q = true).
Proof.
  induction fuel as [|fuel IH]; intros p h Hl Hm.
  - replace (get_parent p) with (@None path).
    + eexists _, _. split; [reflexivity|]. split; [discriminate|]. intros (q & (_ & (rest & Hne & Hr) & _) & _).
      rewrite Hr, app_length in Hl. destruct rest; [congruence|cbn in Hl; lia].
    + symmetry. apply get_parent_none. left. destruct (p_names p); [reflexivity|cbn in Hl; lia].
  - destruct (get_parent p) as [r|] eqn:Ep.
    + cbn [ancestor_loop]. unfold bind. assert (Hr : is_ancestor r p) by (apply is_ancestor_parent; eauto).
      destruct (Hm r h Hr) as (h1 & E1). rewrite E1. destruct (g r) eqn:Eg.
      * eexists _, _. split; [reflexivity|]. split; [eauto|reflexivity].
      * destruct (IH r h1) as (b & h' & E & Hb).
        -- apply get_parent_length in Ep. lia.
        -- intros q h0 Hq. apply Hm. apply is_ancestor_parent. eauto.
        -- exists b, h'. split; [exact E|]. rewrite Hb. split; intros (q & Hq & Hg); exists q; (split; [|exact Hg]).
           ++ apply is_ancestor_parent. eauto.
           ++ apply is_ancestor_parent in Hq. destruct Hq as (r' & Er & [->|Hq]); [|congruence].
              rewrite Er in Ep. injection Ep as ->. congruence.
    + eexists _, _. split; [reflexivity|]. split; [discriminate|]. intros (q & Hq & _).
      apply is_ancestor_parent in Hq. destruct Hq as (r & E & _). congruence.
Qed.

Theorem C39_ancestor_lemma : forall w m g p h, answers_on w (fun q => is_ancestor q p) m g ->
  exists b h', pm_any_ancestor m p w h = (Ok b, h') /\ (b = true <-> exists q, is_ancestor q p /\ g q = true).
Proof. intros w m g p h Hm. apply ancestor_loop_value; auto. Qed.

(** The nearest ancestor accepted decides; what [m] does on those above it does not matter. *)
Lemma ancestor_loop_stops w m g q : g q = true -> forall fuel p h, length (p_names p) <= fuel -> is_ancestor q p ->
  answers_on w (fun a => is_ancestor a p /\ (a = q \/ is_ancestor q a)) m g ->
  exists h', ancestor_loop fuel m (get_parent p) w h = (Ok true, h').
Proof.
  intro Hg. induction fuel as [|fuel IH]; intros p h Hl Hq Hm.
  - exfalso. destruct Hq as (_ & (rest & Hne & Hr) & _). rewrite Hr, app_length in Hl. destruct rest; [congruence|cbn in Hl; lia].
  - pose proof Hq as Hq0. apply is_ancestor_parent in Hq. destruct Hq as (r & Ep & Hq). rewrite Ep. cbn [ancestor_loop]. unfold bind.
    assert (Hr : is_ancestor r p) by (apply is_ancestor_parent; eauto).
    destruct (Hm r h) as (h1 & E1); [split; [exact Hr|]; destruct Hq as [<-|Hq]; auto|]. rewrite E1.
    destruct (g r) eqn:Eg; [eexists; reflexivity|]. destruct Hq as [->|Hq]; [congruence|]. apply IH.
    + apply get_parent_length in Ep. lia.
    + exact Hq.
    + intros a h0 [Ha Ha']. apply Hm. split; [apply is_ancestor_parent; eauto|exact Ha'].
Qed.

Theorem C39_nearest_lemma : forall w m g p q h, is_ancestor q p -> g q = true ->
  answers_on w (fun a => is_ancestor a p /\ (a = q \/ is_ancestor q a)) m g ->
  exists h', pm_any_ancestor m p w h = (Ok true, h').
Proof. intros w m g p q h Hq Hg Hm. eapply ancestor_loop_stops; eauto. Qed.

Theorem C39_parent_lemma : forall w m p h,
  (forall q n, (p_abs q = true \/ p_names q <> []) -> p = child q n -> pm_direct_parent m p w h = m q w h) /\
  (p_names p = [] \/ (p_abs p = false /\ length (p_names p) = 1) ->
     pm_direct_parent m p w h = (Ok false, h) /\ pm_any_ancestor m p w h = (Ok false, h)).
Proof.
  intros w m p h. split.
  - intros q n Hq ->. unfold pm_direct_parent. replace (get_parent (child q n)) with (Some q); [reflexivity|].
    symmetry. apply get_parent_some. cbn. split; [reflexivity|]. split; [eauto|exact Hq].
  - intro H. apply get_parent_none in H. unfold pm_direct_parent, pm_any_ancestor. rewrite H. split; [reflexivity|].
    destruct (length (p_names p)); reflexivity.
Qed.

(** ** Descendants *)

Lemma descends_pos dk p k q : descends dk p k q -> 1 <= k.
Proof. induction 1; lia. Qed.

Lemma descends_step dk p n names k q : is_dir dk p -> d_list dk p = Some names -> In n names ->
  descends dk (child p n) k q -> descends dk p (S k) q.
Proof.
  intros Hd Hl Hn H. induction H as [ns m Hd' Hl' Hm|k q ns m H IH Hd' Hl' Hm].
  - eapply desc_deeper; eauto. eapply desc_child; eauto.
  - eapply desc_deeper; eauto.
Qed.

Lemma descends_inv dk p k q : descends dk p k q -> is_dir dk p /\ exists names n, d_list dk p = Some names /\ In n names /\
  ((k = 1 /\ q = child p n) \/ exists k', k = S k' /\ descends dk (child p n) k' q).
Proof.
  induction 1 as [ns m Hd' Hl' Hm|k q ns m H IH Hd' Hl' Hm].
  - split; [assumption|]. exists ns, m. auto.
  - destruct IH as (Hd & names & n & Hl & Hn & [(-> & ->)|(k' & -> & H')]); (split; [assumption|]); exists names, n; repeat split; auto; right.
    + exists 1. split; [reflexivity|]. eapply desc_child; eauto.
    + exists (S k'). split; [reflexivity|]. eapply desc_deeper; eauto.
Qed.

(** What a walk visits. *)
Definition seen (dk : disk) (n : nat) (skip : bool) (p q : path) : Prop :=
  (skip = false /\ q = p) \/ exists k, k <= n /\ descends dk p k q.

Definition readable_n (dk : disk) (n : nat) (p : path) : Prop :=
  d_kind dk p <> None /\ (is_dir dk p -> 0 < n -> exists l, d_list dk p = Some l) /\
  forall k q, descends dk p k q -> k <= n -> d_kind dk q <> None /\ (is_dir dk q -> k < n -> exists l, d_list dk q = Some l).

Lemma walk_value w dk visit g : steady w dk ->
  forall n skip p, readable_n dk n p -> answers_on w (seen dk n skip p) visit g ->
  forall h, exists b h', walk n skip visit p w h = (Ok b, h') /\ (b = true <-> exists q, seen dk n skip p q /\ g q = true).
Proof.
  intros (Hk & _ & Ho & Hc & _). induction n as [|n IH]; intros skip p (Hp & Hlist & Hr) Hv h; cbn [walk].
  - unfold bind, lstat. rewrite Hk. destruct (d_kind dk p) as [k|] eqn:Ek; [|congruence].
    assert (Hseen : forall q, seen dk 0 skip p q <-> skip = false /\ q = p).
    { intro q. split; [|intro; now left]. intros [H|(k' & Hk' & H)]; [exact H|]. apply descends_pos in H. lia. }
    destruct skip.
    + eexists _, _. split; [reflexivity|]. split; [discriminate|]. intros (q & Hq & _). apply Hseen in Hq. destruct Hq. discriminate.
    + destruct (Hv p (EvLstat p (Some k) :: h)) as (h' & E); [apply Hseen; auto|]. rewrite E. eexists _, _. split; [reflexivity|].
      split; [intro; exists p; split; [apply Hseen; auto|assumption]|]. intros (q & Hq & Hg). apply Hseen in Hq. destruct Hq as [_ ->]. exact Hg.
  - unfold bind at 1, lstat. rewrite Hk. destruct (d_kind dk p) as [k|] eqn:Ek; [|congruence].
    (* visiting [p] itself *)
    assert (Hvp : forall h, exists b h', (if skip then ret false else visit p) w h = (Ok b, h') /\ (b = true <-> skip = false /\ g p = true)).
    { intro h0. destruct skip; [eexists _, _; split; [reflexivity|]; split; [discriminate|intros [? _]; discriminate]|].
      destruct (Hv p h0) as (h' & E); [left; auto|]. eexists _, _. split; [exact E|]. tauto. }
    destruct (kind_eqb k KDir) eqn:Ekd.
    + assert (k = KDir) as -> by (destruct k; cbn in Ekd; congruence || reflexivity).
      assert (Hd : is_dir dk p) by exact Ek. destruct (Hlist Hd) as (names & El); [lia|].
      unfold bind at 1, open_dir. rewrite Ho, El. cbn [opt_bind].
      set (each := fix each (l : list jstring) : M bool := match l with [] => ret false
         | x :: l' => s <- walk n false visit (resolve_name p x); if s then ret true else each l' end).
      assert (Hchild : forall x, In x names -> forall h, exists b h', walk n false visit (resolve_name p x) w h = (Ok b, h') /\
         (b = true <-> exists q, seen dk n false (child p x) q /\ g q = true)).
      { intros x Hx h0. change (resolve_name p x) with (child p x). apply IH.
        - assert (Hc1 : descends dk p 1 (child p x)) by (eapply desc_child; eauto).
          destruct (Hr 1 _ Hc1) as [Hk1 Hl1]; [lia|]. split; [exact Hk1|]. split; [intros A B; apply Hl1; [exact A|lia]|].
          intros k q Hq Hle. destruct (Hr (S k) q) as [A B]; [eapply descends_step; eauto|lia|].
          split; [exact A|]. intros C D. apply B; [exact C|lia].
        - intros q h1 Hq. apply Hv. right. destruct Hq as [[_ ->]|(k & Hle & Hq)].
          + exists 1. split; [lia|]. eapply desc_child; eauto.
          + exists (S k). split; [lia|]. eapply descends_step; eauto. }
      assert (Heach : forall l, incl l names -> forall h, exists b h', each l w h = (Ok b, h') /\
         (b = true <-> exists x q, In x l /\ seen dk n false (child p x) q /\ g q = true)).
      { induction l as [|x l IHl]; intros Hi h0; [eexists _, _; split; [reflexivity|]; split; [discriminate|intros (? & ? & [] & _)]|].
        cbn [each]. unfold bind. destruct (Hchild x (Hi x (or_introl eq_refl)) h0) as (b & h1 & E & Hb). rewrite E. destruct b.
        - eexists _, _. split; [reflexivity|]. split; [|reflexivity]. intros _. destruct (proj1 Hb eq_refl) as (q & Hq & Hg). exists x, q. split; [now left|auto].
        - destruct (IHl (fun y Hy => Hi y (or_intror Hy)) h1) as (b & h2 & E2 & Hb2). exists b, h2. split; [exact E2|]. rewrite Hb2. split.
          + intros (y & q & Hy & Hq & Hg). exists y, q. split; [now right|auto].
          + intros (y & q & [<-|Hy] & Hq & Hg); [|exists y, q; auto]. assert (false = true) by (apply Hb; eauto). discriminate. }
      cbn [dl_names dl_fail]. unfold bind at 1. destruct (Hvp (EvOpen p :: EvLstat p (Some KDir) :: h)) as (b & h1 & E & Hb). rewrite E.
      assert (Hsplit : (exists q, seen dk (S n) skip p q /\ g q = true) <->
        (skip = false /\ g p = true) \/ exists x q, In x names /\ seen dk n false (child p x) q /\ g q = true).
      { split.
        - intros (q & [[-> ->]|(k & Hle & Hq)] & Hg); [left; auto|right]. apply descends_inv in Hq.
          destruct Hq as (_ & ns & x & El' & Hx & Hor). rewrite El in El'. injection El' as <-. exists x, q. split; [exact Hx|]. split; [|exact Hg].
          destruct Hor as [(-> & ->)|(k' & -> & Hq)]; [left; auto|right]. exists k'. split; [lia|exact Hq].
        - intros [[Hs Hg]|(x & q & Hx & Hq & Hg)]; [exists p; split; [left; auto|exact Hg]|]. exists q. split; [|exact Hg]. right.
          destruct Hq as [[_ ->]|(k & Hle & Hq)].
          + exists 1. split; [lia|]. eapply desc_child; eauto.
          + exists (S k). split; [lia|]. eapply descends_step; eauto. }
      destruct b.
      * cbn [ret]. eexists _, _. split; [reflexivity|]. split; [|reflexivity]. intros _. apply Hsplit. left. now apply Hb.
      * destruct (Heach names (incl_refl _) h1) as (b & h2 & E2 & Hb2). rewrite E2. destruct b.
        -- eexists _, _. split; [reflexivity|]. split; [|reflexivity]. intros _. apply Hsplit. right. now apply Hb2.
        -- unfold close_dir. rewrite Hc. eexists _, _. split; [reflexivity|]. split; [discriminate|]. intro H. apply Hsplit in H.
           destruct H as [H|H]; [apply Hb in H|apply Hb2 in H]; discriminate.
    + destruct (Hvp (EvLstat p (Some k) :: h)) as (b & h' & E & Hb). exists b, h'. split; [exact E|]. rewrite Hb. split.
      * intros [-> Hg]. exists p. split; [left; auto|exact Hg].
      * intros (q & [[-> ->]|(k' & _ & Hq)] & Hg); [auto|]. apply descends_inv in Hq. destruct Hq as (Hd & _). unfold is_dir in Hd.
        rewrite Ek in Hd. injection Hd as ->. discriminate.
Qed.

Lemma test_descendants_value w dk m g incl z p : steady w dk -> (1 <= z)%Z -> readable_below dk z p ->
  answers_on w (fun q => (exists k, (Z.of_nat k <= z)%Z /\ descends dk p k q) /\ incl q = true) m g ->
  forall h, exists b h', test_descendants p z m incl w h = (Ok b, h') /\
    (b = true <-> exists k q, (Z.of_nat k <= z)%Z /\ descends dk p k q /\ incl q = true /\ g q = true).
Proof.
  intros Hs Hz (Hl & Hr) Hm h. unfold test_descendants, bind, pm_is_directory, has_kind, lstat, bind.
  pose proof Hs as (Hk & _). rewrite Hk. destruct (match d_kind dk p with Some k' => kind_eqb k' KDir | None => false end) eqn:Ed; cbn.
  - assert (Hd : is_dir dk p). { unfold is_dir. destruct (d_kind dk p) as [[]|]; try discriminate. reflexivity. }
    destruct (walk_value w dk (fun q => if incl q then m q else ret false) (fun q => incl q && g q) Hs (Z.to_nat z) true p) with (h := EvLstat p (d_kind dk p) :: h)
      as (b & h' & E & Hb).
    + split; [unfold is_dir in Hd; congruence|]. split; [auto|]. intros k q Hq Hle. destruct (Hr k q Hq) as [A B]; [lia|]. split; [exact A|].
      intros C D. apply B; [exact C|lia].
    + intros q h0 [[H _]|(k & Hle & Hq)]; [discriminate|]. destruct (incl q) eqn:Ei; [|eexists; reflexivity].
      cbn. apply Hm. split; [exists k; split; [lia|exact Hq]|exact Ei].
    + exists b, h'. split; [exact E|]. rewrite Hb. split.
      * intros (q & [[H _]|(k & Hle & Hq)] & Hg); [discriminate|]. apply andb_prop in Hg. exists k, q. repeat split; [lia|exact Hq| |]; apply Hg.
      * intros (k & q & Hle & Hq & Hi & Hg). exists q. split; [right; exists k; split; [lia|exact Hq]|now rewrite Hi, Hg].
  - eexists _, _. split; [reflexivity|]. split; [discriminate|]. intros (k & q & _ & Hq & _). apply descends_inv in Hq. destruct Hq as (Hd & _).
    unfold is_dir in Hd. rewrite Hd in Ed. discriminate.
Qed.

Theorem C40_descendant_lemma : forall w dk m g p h, steady w dk -> readable_below dk 2147483647 p ->
  answers_on w (fun q => exists k, (Z.of_nat k <= 2147483647)%Z /\ descends dk p k q) m g ->
  exists b h', pm_any_descendant m p w h = (Ok b, h') /\
    (b = true <-> exists k q, (Z.of_nat k <= 2147483647)%Z /\ descends dk p k q /\ g q = true).
Proof.
  intros w dk m g p h Hs Hr Hm. unfold pm_any_descendant. change int_max_value with 2147483647%Z.
  destruct (test_descendants_value w dk m g (fun _ => true) 2147483647%Z p Hs) with (h := h) as (b & h' & E & Hb).
  - lia.
  - exact Hr.
  - intros q h0 [Hq _]. now apply Hm.
  - exists b, h'. split; [exact E|]. rewrite Hb. split; intros (k & q & H); exists k, q; tauto.
Qed.

Lemma descends_1 dk p k q : descends dk p k q -> (Z.of_nat k <= 1)%Z -> is_dir dk p /\ exists names n, d_list dk p = Some names /\ In n names /\ q = child p n.
Proof.
  intros H Hk. pose proof (descends_pos _ _ _ _ H). apply descends_inv in H. destruct H as (Hd & ns & n & El & Hn & [(_ & ->)|(k' & -> & H)]).
  - split; [exact Hd|]. eauto.
  - apply descends_pos in H. lia.
Qed.

Lemma readable_children_below dk p : readable_children dk p -> readable_below dk 1 p.
Proof.
  intro H. split.
  - intro Hd. destruct (H Hd) as (l & E & _). eauto.
  - intros k q Hq Hk. pose proof (descends_pos _ _ _ _ Hq). apply descends_1 in Hq; [|exact Hk]. destruct Hq as (Hd & ns & n & El & Hn & ->).
    destruct (H Hd) as (l & E & Hl). rewrite E in El. injection El as <-. split; [now apply Hl|]. lia.
Qed.

Theorem C40_child_lemma : forall w dk m g p h, steady w dk -> readable_children dk p ->
  answers_on w (fun q => exists names n, d_list dk p = Some names /\ In n names /\ q = child p n) m g ->
  exists b h', pm_any_direct_child m p w h = (Ok b, h') /\
    (b = true <-> is_dir dk p /\ exists names n, d_list dk p = Some names /\ In n names /\ g (child p n) = true).
Proof.
  intros w dk m g p h Hs Hr Hm. destruct (test_descendants_value w dk m g (fun _ => true) 1 p Hs) with (h := h) as (b & h' & E & Hb).
  - lia.
  - now apply readable_children_below.
  - intros q h0 [(k & Hk & Hq) _]. apply Hm. now apply descends_1 in Hq.
  - exists b, h'. split; [exact E|]. rewrite Hb. split.
    + intros (k & q & Hk & Hq & _ & Hg). apply descends_1 in Hq; [|exact Hk]. destruct Hq as (Hd & ns & n & El & Hn & ->). eauto 6.
    + intros (Hd & ns & n & El & Hn & Hg). exists 1, (child p n). split; [lia|]. split; [eapply desc_child; eauto|auto].
Qed.

Lemma child_inj p n n' : child p n = child p n' -> n = n'.
Proof. intro H. injection H as H. now apply app_inj_tail in H. Qed.

Theorem C41_lemma : forall w dk m g q n h, steady w dk -> (p_abs q = true \/ p_names q <> []) -> readable_children dk q ->
  answers_on w (fun s => exists names n', d_list dk q = Some names /\ In n' names /\ n' <> n /\ s = child q n') m g ->
  exists b h', pm_sibling m (child q n) w h = (Ok b, h') /\
    (b = true <-> is_dir dk q /\ exists names n', d_list dk q = Some names /\ In n' names /\ n' <> n /\ g (child q n') = true).
Proof.
  intros w dk m g q n h Hs Hq Hr Hm. unfold pm_sibling.
  replace (get_parent (child q n)) with (Some q) by (symmetry; apply get_parent_some; cbn; split; [reflexivity|]; split; [eauto|exact Hq]).
  assert (Hi : forall n', negb (path_eqb (child q n') (child q n)) = true <-> n' <> n).
  { intro n'. rewrite negb_true_iff, <- not_true_iff_false, path_eqb_eq. split; intros H E; apply H; [now subst|]. now apply child_inj in E. }
  destruct (test_descendants_value w dk m g (fun s => negb (path_eqb s (child q n))) 1 q Hs) with (h := h) as (b & h' & E & Hb).
  - lia.
  - now apply readable_children_below.
  - intros s h0 [(k & Hk & Hd) Hne]. apply Hm. apply descends_1 in Hd; [|exact Hk]. destruct Hd as (Hd & ns & n' & El & Hn & ->).
    exists ns, n'. rewrite Hi in Hne. auto.
  - exists b, h'. split; [exact E|]. rewrite Hb. split.
    + intros (k & s & Hk & Hd & Hne & Hg). apply descends_1 in Hd; [|exact Hk]. destruct Hd as (Hd & ns & n' & El & Hn & ->).
      rewrite Hi in Hne. split; [exact Hd|]. exists ns, n'. auto.
    + intros (Hd & ns & n' & El & Hn & Hne & Hg). exists 1, (child q n'). split; [lia|]. split; [eapply desc_child; eauto|]. split; [now apply Hi|exact Hg].
Qed.

Theorem C41_no_parent_lemma : forall w m p h, p_names p = [] \/ (p_abs p = false /\ length (p_names p) = 1) ->
  pm_sibling m p w h = (Ok false, h).
Proof. intros w m p h H. apply get_parent_none in H. unfold pm_sibling. now rewrite H. Qed.

(** ** Names *)

Lemma file_name_spec p n : ends_with_name p n -> exists f, get_file_name p = Some f /\ path_str f = n /\
  f = mkPath false (match p_names p with [] => [] | _ => [n] end).
Proof.
  intro H. destruct H as [a l n|].
  - exists (mkPath false [n]). unfold get_file_name. cbn [p_names p_abs]. rewrite rev_app_distr. cbn. split; [reflexivity|]. split; [reflexivity|].
    now destruct l.
  - exists (mkPath false []). auto.
Qed.

Lemma pm_name_test_spec f p n w h : ends_with_name p n -> pm_name_test f p w h = (Ok (f n), h).
Proof. intro H. destruct (file_name_spec p n H) as (q & E & Es & _). unfold pm_name_test. rewrite E, Es. reflexivity. Qed.

Lemma jprefixb_spec a : forall s, jprefixb a s = true <-> exists t, s = a ++ t.
Proof.
  induction a as [|x a IH]; intro s; cbn.
  - split; [eauto|reflexivity].
  - destruct s as [|y s]; [split; [discriminate|intros (t & H); discriminate]|]. rewrite andb_true_iff, N.eqb_eq, IH. split.
    + intros [-> (t & ->)]. eauto.
    + intros (t & H). injection H as -> ->. eauto.
Qed.

Lemma jsuffixb_spec a s : jsuffixb a s = true <-> exists t, s = t ++ a.
Proof.
  unfold jsuffixb. rewrite jprefixb_spec. split; intros (t & H).
  - exists (rev t). rewrite <- (rev_involutive s), H, rev_app_distr, rev_involutive. reflexivity.
  - exists (rev t). now rewrite H, rev_app_distr.
Qed.

Lemma decided (f : jstring -> bool) (P : jstring -> Prop) p n w h : (forall s, f s = true <-> P s) -> ends_with_name p n ->
  exists b, pm_name_test f p w h = (Ok b, h) /\ (b = true <-> P n).
Proof. intros Hf H. exists (f n). split; [now apply pm_name_test_spec|apply Hf]. Qed.

Theorem C42_named_lemma : forall w p n x h, ends_with_name p n ->
  (exists b, pm_name x p w h = (Ok b, h) /\ (b = true <-> n = x)) /\
  (exists b, pm_name_ignore_case x p w h = (Ok b, h) /\ (b = true <-> same_ci (jv_fold (w_jvm w)) n x)) /\
  (exists b, pm_name_starting_with x p w h = (Ok b, h) /\ (b = true <-> exists t, n = x ++ t)) /\
  (exists b, pm_name_ending_with x p w h = (Ok b, h) /\ (b = true <-> exists t, n = t ++ x)) /\
  (exists b, pm_extension x p w h = (Ok b, h) /\ (b = true <-> exists t, n = t ++ c_dot :: x)) /\
  (forall pat, pm_name_matching pat p w h = (Ok (pat n), h)).
Proof.
  intros w p n x h H. split; [|split; [|split; [|split; [|split]]]].
  - apply decided with (P := fun s => s = x); [|exact H]. intro s. apply (SortFacts.jeqb_eq).
  - unfold pm_name_ignore_case, bind, get_jvm. apply decided with (P := fun s => same_ci (jv_fold (w_jvm w)) s x); [|exact H].
    intro s. rewrite same_points. apply (SortFacts.jeqb_eq).
  - apply decided with (P := fun s => exists t, s = x ++ t); [|exact H]. intro s. apply jprefixb_spec.
  - apply decided with (P := fun s => exists t, s = t ++ x); [|exact H]. intro s. apply jsuffixb_spec.
  - apply decided with (P := fun s => exists t, s = t ++ c_dot :: x); [|exact H]. intro s. apply jsuffixb_spec.
  - intro pat. now apply pm_name_test_spec.
Qed.

Theorem C42_no_name_lemma : forall w x h pat,
  let root := mkPath true [] in
  pm_name x root w h = (Ok false, h) /\ pm_name_ignore_case x root w h = (Ok false, h) /\
  pm_name_starting_with x root w h = (Ok false, h) /\ pm_name_ending_with x root w h = (Ok false, h) /\
  pm_extension x root w h = (Ok false, h) /\ pm_name_matching pat root w h = (Ok false, h).
Proof. intros. repeat split. Qed.

Theorem C42_glob_lemma : forall w g h,
  (g = s_star -> exists c, pm_name_glob g w h = (Ok c, h) /\ forall p h', c p w h' = (Ok true, h')) /\
  (g <> s_star -> jv_glob (w_jvm w) g = None -> pm_name_glob g w h = (Throw (ExPatternSyntax g), h)) /\
  (forall f, g <> s_star -> jv_glob (w_jvm w) g = Some f -> exists c, pm_name_glob g w h = (Ok c, h) /\
     (forall a l n h', c (mkPath a (l ++ [n])) w h' = (Ok (f (mkPath false [n])), h')) /\
     (forall h', c (mkPath true []) w h' = (Ok false, h'))).
Proof.
  intros w g h. unfold pm_name_glob. split; [|split].
  - intros ->. eexists. split; [reflexivity|]. reflexivity.
  - intros Hg E. destruct (jeqb_spec g s_star); [contradiction|]. unfold bind, glob_matcher, bind, get_jvm. now rewrite E.
  - intros f Hg E. destruct (jeqb_spec g s_star); [contradiction|]. unfold bind, glob_matcher, bind, get_jvm. rewrite E.
    eexists. split; [reflexivity|]. split; [|reflexivity]. intros a l nm h'. unfold get_file_name. cbn [p_names]. now rewrite rev_app_distr.
Qed.

Theorem C97_malformed_lemma : forall w ref g h,
  jv_glob (w_jvm w) g = None -> g <> js "*" ->
  pm_absolute_path_glob g w h = (Throw (ExPatternSyntax g), h) /\ pm_relative_path_glob ref g w h = (Throw (ExPatternSyntax g), h).
Proof.
  intros w ref g h E Hg. unfold pm_absolute_path_glob, pm_relative_path_glob. destruct (jeqb_spec g s_star) as [->|_]; [now contradict Hg|].
  unfold bind, glob_matcher, bind, get_jvm. rewrite E. now split.
Qed.

Theorem C97_star_lemma : forall w ref h,
  (exists c, pm_absolute_path_glob (js "*") w h = (Ok c, h) /\ forall p h', c p w h' = (Ok true, h')) /\
  (exists c, pm_relative_path_glob ref (js "*") w h = (Ok c, h) /\ forall p h', c p w h' = (Ok true, h')).
Proof. intros w ref h. split; eexists; (split; [reflexivity|reflexivity]). Qed.

Theorem C97_absolute_lemma : forall w g f h, jv_glob (w_jvm w) g = Some f -> g <> js "*" ->
  exists c, pm_absolute_path_glob g w h = (Ok c, h) /\
    forall p, exists q, (forall h', c p w h' = (Ok (f q), h')) /\ p_abs q = true /\ same_location (jv_cwd (w_jvm w)) p q /\
      (Forall real_name (jv_cwd (w_jvm w)) -> (p_abs p = true \/ ~ In n_dotdot (p_names (normalize p))) ->
         Forall (fun n => n <> n_dot /\ n <> n_dotdot) (p_names q)).
Proof.
  intros w g f h E Hg. unfold pm_absolute_path_glob. destruct (jeqb_spec g s_star) as [->|_]; [now contradict Hg|].
  unfold bind, glob_matcher, bind, get_jvm. rewrite E. eexists. split; [reflexivity|]. intro p.
  destruct (C69_lemma w (fun p => ret (f p)) p) as (q & H & A & L & _ & _ & N). exists q. split; [intro h'; exact (H h')|].
  split; [exact A|]. split; [exact L|]. intros R H1. rewrite (N R H1).
  destruct p as [[] l]; exact (norm_names_abs_plain _).
Qed.

Theorem C97_relative_lemma : forall w ref g f h R, jv_glob (w_jvm w) g = Some f -> g <> js "*" ->
  same_location (jv_cwd (w_jvm w)) ref (mkPath true R) ->
  exists c, pm_relative_path_glob ref g w h = (Ok c, h) /\
    (forall p rest h', Forall real_name (R ++ rest) ->
       same_location (jv_cwd (w_jvm w)) p (mkPath true (R ++ rest)) -> c p w h' = (Ok (f (mkPath false rest)), h')) /\
    (forall p common x b y h', R = common ++ x :: b -> Forall real_name (common ++ x :: b ++ y) -> hd_error y <> Some x ->
       same_location (jv_cwd (w_jvm w)) p (mkPath true (common ++ y)) ->
       c p w h' = (Ok (f (mkPath false (repeat n_dotdot (length (x :: b)) ++ y))), h')).
Proof.
  intros w ref g f h R E Hg L. unfold pm_relative_path_glob. destruct (jeqb_spec g s_star) as [->|_]; [now contradict Hg|].
  unfold bind at 1. unfold glob_matcher, bind at 1, get_jvm. rewrite E. exact (C37_lemma w h ref (fun p => ret (f p)) R L).
Qed.

(** ** What matchers do to the file system *)
Lemma walk_failure_next p : walk_failure (ExUncheckedIO WalkNext p).
Proof. exists p. now right. Qed.

Lemma walk_failure_at (skip : bool) p : walk_failure (ExUncheckedIO (if skip then WalkStart else WalkNext) p).
Proof. exists p. destruct skip; [now left|now right]. Qed.

Ltac walk_failure_now := first [apply walk_failure_next|apply walk_failure_at].

Section Traces.
  Context (w : world) (walks : bool) (K : hist -> trace -> Prop) (E : exn -> Prop).
  Hypothesis Knil : forall h, K h [].
  Hypothesis Kapp : forall h t t', K h t -> K (rev t ++ h) t' -> K h (t ++ t').
  Hypothesis Klstat : forall h p, K h [EvLstat p (w_lstat w h p)].
  Hypothesis Kfail : walks = true -> forall h p, w_open w h p = None -> K h [EvOpenFail p].
  Hypothesis Kiter : walks = true -> forall h p, K h [EvIterFail p].
  Hypothesis Kwrap : walks = true -> forall h p t, w_open w h p <> None -> K (EvOpen p :: h) t ->
    K h (EvOpen p :: t ++ [EvClose p (w_close_ok w (rev t ++ EvOpen p :: h) p)]).
  Hypothesis EIO : walks = true -> forall x, walk_failure x -> E x.

  Definition calm {A} (m : M A) : Prop := forall h, exists r t, runs w m h r t /\ K h t /\ (forall x, r = Throw x -> E x).

  Lemma calm_ret {A} (a : A) : calm (ret a).
  Proof. intro h. exists (Ok a), []. split; [reflexivity|]. split; [apply Knil|discriminate]. Qed.

  Lemma calm_throw {A} x : E x -> calm (@throw A x).
  Proof. intros Hx h. exists (Throw x), []. split; [reflexivity|]. split; [apply Knil|]. intros y Ey. now injection Ey as <-. Qed.

  Lemma calm_bind {A B} (m : M A) (f : A -> M B) : calm m -> (forall a, calm (f a)) -> calm (bind m f).
  Proof.
    intros Hm Hf h. destruct (Hm h) as (r & t & Hr & HK & HE). destruct r as [a|x].
    - destruct (Hf a (rev t ++ h)) as (r' & t' & Hr' & HK' & HE'). exists r', (t ++ t').
      split; [eapply runs_bind_ok; eauto|]. auto.
    - exists (Throw x), t. split; [now apply runs_bind_throw|]. split; [exact HK|]. intros y Ey. injection Ey as ->. now apply HE.
  Qed.

  Lemma calm_lstat p : calm (lstat p).
  Proof.
    intro h. exists (Ok (w_lstat w h p)), [EvLstat p (w_lstat w h p)]. split; [reflexivity|]. split; [apply Klstat|discriminate].
  Qed.

  Lemma calm_jvm : calm get_jvm.
  Proof. intro h. exists (Ok (w_jvm w)), []. split; [reflexivity|]. split; [apply Knil|discriminate]. Qed.

  Lemma calm_walk visit : walks = true -> (forall p, calm (visit p)) -> forall n skip p, calm (walk n skip visit p).
  Proof.
    intros W Hv. induction n as [|n IH]; intros skip p; cbn [walk]; (apply calm_bind; [apply calm_lstat|]); intros [k|]; try (apply calm_throw, EIO; [exact W|walk_failure_now]).
    - destruct skip; [apply calm_ret|apply Hv].
    - destruct (kind_eqb k KDir); [|destruct skip; [apply calm_ret|apply Hv]].
      assert (Hvp : calm (if skip then ret false else visit p)) by (destruct skip; [apply calm_ret|apply Hv]).
      set (each := fix each (l : list jstring) : M bool := match l with [] => ret false
         | x :: l' => s <- walk n false visit (resolve_name p x); if s then ret true else each l' end).
      assert (Heach : forall l, calm (each l)).
      { induction l as [|x l IHl]; cbn [each]; [apply calm_ret|]. apply calm_bind; [apply IH|]. intros []; [apply calm_ret|exact IHl]. }
      assert (Hbody : forall l, calm (b <- (if skip then ret false else visit p); if b then ret true else each l)).
      { intro l. apply calm_bind; [exact Hvp|]. intros []; [apply calm_ret|apply Heach]. }
      intro h. unfold runs, bind at 1, open_dir. destruct (w_open w h p) as [dl|] eqn:Eo.
      + assert (Hno : w_open w h p <> None) by (rewrite Eo; discriminate).
        destruct (Hbody (dl_names dl) (EvOpen p :: h)) as (r & t & Hr & HK & HE). unfold runs in Hr.
        fold each. cbv zeta. rewrite Hr. destruct r as [[|]|x].
        * unfold close_dir. exists (Ok true), (EvOpen p :: t ++ [EvClose p (w_close_ok w (rev t ++ EvOpen p :: h) p)]).
          split; [|split; [now apply Kwrap|discriminate]]. cbn [rev]. rewrite rev_app_distr. cbn. now rewrite <- app_assoc.
        * unfold close_dir. destruct (dl_fail dl).
          -- eexists (Throw _), (EvOpen p :: (t ++ [EvIterFail p]) ++ [EvClose p (w_close_ok w (rev (t ++ [EvIterFail p]) ++ EvOpen p :: h) p)]).
             split; [|split; [apply Kwrap; auto|]].
             ++ cbn [rev]. rewrite !rev_app_distr. cbn. rewrite <- app_assoc. cbn. reflexivity.
             ++ intros y Ey. injection Ey as <-. apply EIO; [exact W|walk_failure_now].
          -- pose proof (Kwrap W h p t Hno HK) as Hw. destruct (w_close_ok w (rev t ++ EvOpen p :: h) p) eqn:Ec.
             ++ exists (Ok false), (EvOpen p :: t ++ [EvClose p true]). split; [|split; [exact Hw|discriminate]].
                cbn [rev]. rewrite rev_app_distr. cbn. now rewrite <- app_assoc.
             ++ exists (Throw (ExUncheckedIO WalkNext p)), (EvOpen p :: t ++ [EvClose p false]). split; [|split; [exact Hw|]].
                ** cbn [rev]. rewrite rev_app_distr. cbn. now rewrite <- app_assoc.
                ** intros y Ey. injection Ey as <-. apply EIO; [exact W|walk_failure_now].
        * unfold close_dir. eexists (Throw x), (EvOpen p :: t ++ [EvClose p _]). split; [|split; [now apply Kwrap|exact HE]].
          cbn [rev]. rewrite rev_app_distr. cbn. rewrite <- app_assoc. reflexivity.
      + exists (Throw (ExUncheckedIO (if skip then WalkStart else WalkNext) p)), [EvOpenFail p]. split; [reflexivity|]. split; [now apply Kfail|].
        intros y Ey. injection Ey as <-. apply EIO; [exact W|walk_failure_now].
  Qed.

  Lemma calm_kind k p : calm (has_kind k p).
  Proof. unfold has_kind. apply calm_bind; [apply calm_lstat|intro; apply calm_ret]. Qed.

  Lemma calm_test_descendants z m incl p : walks = true -> (forall q, calm (m q)) -> calm (test_descendants p z m incl).
  Proof.
    intros W Hm. unfold test_descendants. apply calm_bind; [apply calm_kind|]. intros []; cbn [negb]; [|apply calm_ret].
    apply calm_walk; [exact W|]. intro q. destruct (incl q); [apply Hm|apply calm_ret].
  Qed.

  Lemma calm_ancestors m : (forall q, calm (m q)) -> forall fuel p, length (p_names p) <= fuel -> calm (ancestor_loop fuel m (get_parent p)).
  Proof.
    intro Hm. induction fuel as [|fuel IH]; intros p Hl; destruct (get_parent p) as [r|] eqn:Ep; cbn [ancestor_loop]; try apply calm_ret.
    - apply get_parent_length in Ep. lia.
    - apply calm_bind; [apply Hm|]. intros []; [apply calm_ret|]. apply IH. apply get_parent_length in Ep. lia.
  Qed.

  Lemma calm_clean p : calm (clean_path p).
  Proof. apply calm_bind; [apply calm_jvm|intro; apply calm_ret]. Qed.

  Lemma check_non_null_in ms : forall l, check_non_null ms = Some l -> forall m, In m l -> In (Some m) ms.
  Proof.
    induction ms as [|[m|] ms IH]; intros l; cbn [check_non_null]; [intro H; injection H as <-; intros ? []| |discriminate].
    destruct (check_non_null ms) as [l'|]; [|discriminate]. intro H. injection H as <-. intros x [->|Hx]; [now left|right]. eauto.
  Qed.

  Lemma calm_combine ms md c : combine_matchers ms md = Ok c -> (forall m, In (Some m) ms -> forall p, calm (m p)) -> forall p, calm (c p).
  Proof.
    unfold combine_matchers. destruct (check_non_null ms) as [l|] eqn:El; [|discriminate].
    destruct l as [|m0 l0]; [discriminate|]. intros Hc H p. injection Hc as <-.
    assert (Hl : forall m, In m (m0 :: l0) -> calm (m p)) by (intros m Hm; apply H; eapply check_non_null_in; eauto).
    clear El.
    assert (Hc : forall l, (forall m, In m l -> calm (m p)) -> calm (pm_all l p) /\ calm (pm_any l p) /\ calm (pm_none l p)).
    { clear -Knil Kapp. induction l as [|m l IH]; intro Hl; [repeat split; apply calm_ret|].
      destruct (IH (fun x Hx => Hl x (or_intror Hx))) as (H1 & H2 & H3).
      split; [|split]; (apply calm_bind; [apply Hl; now left|]); intros []; cbn [negb]; solve [apply calm_ret|assumption]. }
    destruct (Hc _ Hl) as (H1 & H2 & H3). destruct md; assumption.
  Qed.

  Lemma calm_glob g h c h' : glob_matcher g w h = (Ok c, h') -> forall p, calm (c p).
  Proof.
    unfold glob_matcher, bind, get_jvm. destruct (jv_glob (w_jvm w) g); [|discriminate]. intro H. injection H as <- _. intro p. apply calm_ret.
  Qed.

  Lemma calm_relative ref m h c h' : pm_relative_path ref m w h = (Ok c, h') -> (forall p, calm (m p)) -> forall p, calm (c p).
  Proof.
    intros H Hm p h0. unfold pm_relative_path, clean_path, bind, get_jvm in H. cbn in H.
    injection H as <- _. unfold runs. apply (Hm (relativize (to_absolute (jv_cwd (w_jvm w)) (normalize ref)) (to_absolute (jv_cwd (w_jvm w)) (normalize p))) h0).
  Qed.

  Lemma calm_assembled (base : matcher -> Prop) m : (forall b, base b -> forall p, calm (b p)) -> assembled w walks base m -> forall p, calm (m p).
  Proof.
    intros Hb H. induction H; intro p.
    - now apply Hb.
    - apply calm_bind; [apply IHassembled|intro; apply calm_ret].
    - eapply calm_combine; eauto.
    - apply calm_bind; [apply IHassembled1|]. intros []; [apply IHassembled2|apply IHassembled3].
    - apply calm_bind; [apply calm_clean|intro; apply IHassembled].
    - eapply calm_relative; eauto.
    - unfold pm_absolute_path_glob in H. destruct (jeqb g s_star); [injection H as <- _; apply calm_ret|].
      unfold bind in H. destruct (glob_matcher g w h) as [[m|] h1] eqn:Eg; [|discriminate]. injection H as <- _.
      apply calm_bind; [apply calm_clean|]. eapply calm_glob; eauto.
    - unfold pm_relative_path_glob in H. destruct (jeqb g s_star); [injection H as <- _; apply calm_ret|].
      unfold bind in H at 1. destruct (glob_matcher g w h) as [[m|] h1] eqn:Eg; [|discriminate].
      eapply calm_relative; eauto. eapply calm_glob; eauto.
    - apply calm_ret.
    - apply calm_bind; [apply calm_jvm|intro; apply calm_ret].
    - apply calm_ret.
    - unfold pm_name_glob in H. destruct (jeqb g s_star); [injection H as <- _; apply calm_ret|].
      unfold bind in H. destruct (glob_matcher g w h) as [[m|] h1] eqn:Eg; [|discriminate]. injection H as <- _.
      destruct (get_file_name p); [|apply calm_ret]. eapply calm_glob; eauto.
    - apply calm_ret.
    - apply calm_ret.
    - apply calm_ret.
    - apply calm_kind.
    - apply calm_bind; [apply calm_kind|intro; apply calm_ret].
    - apply calm_kind.
    - apply calm_kind.
    - unfold pm_direct_parent. destruct (get_parent p); [apply IHassembled|apply calm_ret].
    - apply calm_ancestors; auto.
    - now apply calm_test_descendants.
    - now apply calm_test_descendants.
    - unfold pm_sibling. destruct (get_parent p); [now apply calm_test_descendants|apply calm_ret].
  Qed.
End Traces.

Theorem C70_lemma : forall w (base : matcher -> Prop) (E : exn -> Prop) m,
  (forall b, base b -> callback w b balanced E) -> assembled w true base m ->
  callback w m balanced (fun x => E x \/ walk_failure x).
Proof.
  intros w base E m Hb Hm p h.
  refine (calm_assembled w true (fun _ t => balanced t) _ _ _ _ _ _ _ _ base m _ Hm p h).
  - intros _. constructor.
  - intros _. apply balanced_app.
  - intros. constructor; try constructor; discriminate.
  - intros. constructor; try constructor; discriminate.
  - intros. constructor; try constructor; discriminate.
  - intros. now apply balanced_wrap.
  - eauto.
  - intros b Hbb q h0. destruct (Hb b Hbb q h0) as (r & t & Er & HK & HE). exists r, t. split; [exact Er|]. split; [exact HK|].
    intros x Hx. left. now apply HE.
Qed.

Theorem C96_modest_lemma : forall w (base : matcher -> Prop) (E : exn -> Prop) m,
  (forall b, base b -> callback w b (modest w) E) -> assembled w false base m -> callback w m (modest w) E.
Proof.
  intros w base E m Hb Hm p h.
  refine (calm_assembled w false (fun _ t => modest w t) _ _ _ _ _ _ _ _ base m _ Hm p h); try discriminate.
  - intros _. constructor.
  - intros _. apply modest_app.
  - intros. repeat constructor. cbn. eauto.
  - intros b Hbb q h0. exact (Hb b Hbb q h0).
Qed.

Theorem C96_honest_lemma : forall w (base : matcher -> Prop) m,
  (forall b, base b -> honest w b) -> assembled w true base m -> honest w m.
Proof.
  intros w base m Hb Hm p h.
  destruct (calm_assembled w true (fun h t => truthful_from w h t) (fun _ => True)) with (base := base) (m := m) (p := p) (h := h)
    as (r & t & Hr & HK & _); auto; [..|exists r, t; auto].
  - intros. apply SeenFacts.truthful_nil.
  - intros. now apply SeenFacts.truthful_app.
  - intros. now apply truthful_one.
  - intros. now apply truthful_one.
  - intros. now apply truthful_one.
  - intros _ h0 q t Ho Ht. change (EvOpen q :: t ++ ?x) with ([EvOpen q] ++ t ++ x). apply SeenFacts.truthful_app; [now apply truthful_one|].
    apply SeenFacts.truthful_app; [exact Ht|]. now apply truthful_one.
  - intros b Hbb q h0. destruct (Hb b Hbb q h0) as (r & t & Hr & Ht). exists r, t. auto.
Qed.

Lemma descends_inv_names dk p k q : descends dk p k q -> exists l n, q = mkPath (p_abs q) (l ++ [n]).
Proof. destruct 1; eexists _, _; reflexivity. Qed.

Theorem C79_lemma : forall w h p, let k := w_lstat w h p in let h' := EvLstat p k :: h in
  (exists b, pm_is_directory p w h = (Ok b, h') /\ (b = true <-> k = Some KDir)) /\
  (exists b, pm_is_regular_file p w h = (Ok b, h') /\ (b = true <-> k = Some KReg)) /\
  (exists b, pm_is_symbolic_link p w h = (Ok b, h') /\ (b = true <-> k = Some KLink)) /\
  (exists b, pm_is_file p w h = (Ok b, h') /\ (b = true <-> k <> Some KDir)).
Proof.
  intros w h p k h'. unfold pm_is_directory, pm_is_regular_file, pm_is_symbolic_link, pm_is_file, pm_not, has_kind, lstat, bind, ret.
  cbn. fold k. fold h'. split; [|split; [|split]]; (eexists; split; [reflexivity|]); destruct k as [[]|]; cbn; split; congruence.
Qed.
