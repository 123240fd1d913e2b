(** * Facts about the emoji mappings *)

From Verif Require Import SpecBuild SpecEmoji SortFacts PathFacts BuilderFacts MatcherFacts.
Close Scope Z_scope.

(** ** Extensions of a name *)

Fixpoint tails (l : list jstring) : list (list jstring) :=
  match l with [] => [] | x :: l' => l :: tails l' end.

Lemma extensions_loop_tails l : forall s, extensions_loop (rev l) (map (join [c_dot]) (tails s)) = map (join [c_dot]) (tails (l ++ s)).
Proof.
  induction l as [|x l IH] using rev_ind; intro s; [reflexivity|].
  rewrite rev_app_distr. cbn [rev app extensions_loop]. rewrite <- app_assoc. cbn [app]. destruct s as [|y s]; cbn [tails map].
  - exact (IH [x]).
  - exact (IH (x :: y :: s)).
Qed.

Fixpoint after_dots (s : jstring) : list jstring :=
  match s with [] => [] | c :: s' => if N.eqb c c_dot then s' :: after_dots s' else after_dots s' end.

Lemma after_dots_free x s : ~ In c_dot x -> after_dots (x ++ s) = after_dots s.
Proof.
  induction x as [|a x IH]; intro H; [reflexivity|]. cbn [app after_dots]. destruct (N.eqb_spec a c_dot) as [->|_]; [exfalso; apply H; now left|].
  apply IH. intro. apply H. now right.
Qed.

Lemma after_dots_join stem l : Forall (fun x => ~ In c_dot x) (stem :: l) -> after_dots (join [c_dot] (stem :: l)) = map (join [c_dot]) (tails l).
Proof.
  revert stem. induction l as [|x l IH]; intros stem F.
  - cbn [join tails map]. rewrite <- (app_nil_r stem). apply after_dots_free. exact (Forall_inv F).
  - change (join [c_dot] (stem :: x :: l)) with (stem ++ [c_dot] ++ join [c_dot] (x :: l)). rewrite after_dots_free by exact (Forall_inv F).
    cbn [app after_dots]. rewrite N.eqb_refl, IH by exact (Forall_inv_tail F). reflexivity.
Qed.

Lemma after_dots_in s x : In x (after_dots s) <-> exists a, s = a ++ c_dot :: x.
Proof.
  induction s as [|c s IH]; cbn [after_dots].
  - split; [intros []|]. intros (a & H). destruct a; discriminate.
  - destruct (N.eqb_spec c c_dot) as [->|Hc].
    + cbn [In]. rewrite IH. split.
      * intros [->|(a & ->)]; [now exists []|now exists (c_dot :: a)].
      * intros ([|b a] & H); injection H as H; [now left|right]. eauto.
    + rewrite IH. split.
      * intros (a & ->). now exists (c :: a).
      * intros ([|b a] & H); injection H as H; [congruence|]. eauto.
Qed.

Lemma after_dots_sorted s : StronglySorted (fun a b => length b < length a) (after_dots s).
Proof.
  induction s as [|c s IH]; cbn [after_dots]; [constructor|]. destruct (N.eqb c c_dot); [|exact IH]. constructor; [exact IH|].
  apply Forall_forall. intros x Hx. apply after_dots_in in Hx. destruct Hx as (a & ->). rewrite app_length. cbn. lia.
Qed.

Lemma last_app_nonempty {A} (a b : list A) d : b <> [] -> last (a ++ b) d = last b d.
Proof.
  intro H. induction a as [|x a IH]; [reflexivity|]. cbn [app last]. rewrite IH. destruct (a ++ b) eqn:E; [|reflexivity].
  apply app_eq_nil in E. destruct E. contradiction.
Qed.

Lemma get_extensions_eq core k : core = [] \/ last core 0%N <> c_dot -> get_extensions (core ++ repeat c_dot k) = after_dots core.
Proof.
  intro Hc. unfold get_extensions. destruct (pieces_split_on core) as (Hne & Hj & F).
  destruct (split_on c_dot core) as [|stem exts] eqn:Es; [congruence|].
  destruct exts as [|x exts].
  - (* no dot *)
    cbn in Hj. assert (Hnd : ~ In c_dot core) by (rewrite Hj; exact (Forall_inv F)).
    pose proof (after_dots_free core [] Hnd) as H0. rewrite app_nil_r in H0. rewrite H0. cbn [after_dots]. clear H0. destruct core as [|c core].
    + destruct k as [|k]; [reflexivity|]. rewrite (jsplit_dots [] (S k)) by now left. reflexivity.
    + rewrite (no_extension_split _); [reflexivity|]. exists (c :: core), k. split; [reflexivity|]. split; [exact Hnd|left; discriminate].
  - assert (Hp : has_parts (core ++ repeat c_dot k) (x :: exts)).
    { exists core, k. split; [reflexivity|left]. split; [discriminate|]. split.
      - intro Hl. destruct Hc as [Hc|Hc]; [subst core; discriminate|]. apply Hc. rewrite Hj. clear -Hl.
        revert stem x Hl. induction exts as [|y exts IH]; intros stem x Hl; cbn [join last] in *.
        + subst x. rewrite app_nil_r. apply last_last.
        + specialize (IH x y Hl). change (x ++ [c_dot] ++ join [c_dot] (y :: exts)) with (join [c_dot] (x :: y :: exts)) in *.
          rewrite app_assoc. rewrite last_app_nonempty; [exact IH|]. destruct x; discriminate.
      - exists stem. split; [discriminate|]. split; [exact Hj|exact F]. }
    apply has_parts_split in Hp. destruct Hp as [Hlen Ht]. apply Nat.eqb_neq in Hlen. rewrite Hlen, Ht, Hj.
    rewrite after_dots_join by exact F. pose proof (extensions_loop_tails (x :: exts) []) as H. rewrite app_nil_r in H. exact H.
Qed.

Lemma strip_dots (n : jstring) : exists core k, n = core ++ repeat c_dot k /\ (core = [] \/ last core 0%N <> c_dot).
Proof.
  induction n as [|c n IH] using rev_ind; [exists [], 0; auto|]. destruct (N.eq_dec c c_dot) as [->|Hc].
  - destruct IH as (core & k & -> & Hcore). exists core, (S k). split; [|exact Hcore].
    rewrite <- app_assoc. f_equal. clear. induction k; [reflexivity|]. cbn [repeat app]. now rewrite IHk.
  - exists (n ++ [c]), 0. split; [now rewrite app_nil_r|right]. now rewrite last_last.
Qed.

Lemma strip_dots_unique core k core' k' : core ++ repeat c_dot k = core' ++ repeat c_dot k' ->
  (core = [] \/ last core 0%N <> c_dot) -> (core' = [] \/ last core' 0%N <> c_dot) -> core = core'.
Proof.
  revert core core' k'. induction k as [|k IH]; intros core core' k' H Hc Hc'.
  - destruct k' as [|k']; [now rewrite !app_nil_r in H|]. rewrite app_nil_r, repeat_snoc, app_assoc in H. subst core.
    destruct Hc as [Hc|Hc]; [now destruct core', (repeat c_dot k')|]. rewrite last_last in Hc. congruence.
  - destruct k' as [|k'].
    + rewrite app_nil_r, repeat_snoc, app_assoc in H. subst core'.
      destruct Hc' as [Hc'|Hc']; [now destruct core, (repeat c_dot k)|]. rewrite last_last in Hc'. congruence.
    + rewrite !repeat_snoc, !app_assoc in H. apply app_inj_tail in H. destruct H as [H _]. eapply IH; eauto.
Qed.

Theorem C46_lemma : forall name,
  StronglySorted (fun a b => length b < length a) (get_extensions name) /\
  (forall x, In x (get_extensions name) <-> extension_of name x).
Proof.
  intro name. destruct (strip_dots name) as (core & k & -> & Hc). rewrite (get_extensions_eq core k Hc). split; [apply after_dots_sorted|].
  intro x. rewrite after_dots_in. split.
  - intros (a & H). exists core, k, a. auto.
  - intros (core' & k' & a & E & Hc' & H). exists a. rewrite (strip_dots_unique _ _ _ _ E Hc Hc'). exact H.
Qed.

(** ** Maps *)

Lemma smap_get_in k m : forall v, smap_get k m = Some v -> In (k, v) m.
Proof.
  induction m as [|[k' v'] m IH]; intros v H; cbn in H; [discriminate|]. destruct (jeqb_spec k k') as [->|_]; [injection H as ->; now left|right; auto].
Qed.

Lemma smap_in_get k v m : NoDup (map fst m) -> In (k, v) m -> smap_get k m = Some v.
Proof.
  induction m as [|[k' v'] m IH]; intros Hn Hin; [destruct Hin|]. cbn in *. inversion Hn as [|? ? Hk Hm]; subst.
  destruct Hin as [H|H].
  - injection H as -> ->. destruct (jeqb_spec k k); [reflexivity|congruence].
  - destruct (jeqb_spec k k') as [->|_]; [|auto]. exfalso. apply Hk. apply in_map_iff. now exists (k', v).
Qed.

Lemma smap_get_put k v m k' : smap_get k' (smap_put k v m) = if jeqb k' k then Some v else smap_get k' m.
Proof.
  induction m as [|[k0 v0] m IH]; cbn [smap_put smap_get]; [reflexivity|]. destruct (jeqb_spec k k0) as [->|Hk]; cbn [smap_get].
  - destruct (jeqb k' k0); reflexivity.
  - rewrite IH. destruct (jeqb_spec k' k0) as [->|_]; [|reflexivity]. destruct (jeqb_spec k0 k); [congruence|reflexivity].
Qed.

Lemma smap_put_fst k v m x : In x (map fst (smap_put k v m)) <-> x = k \/ In x (map fst m).
Proof.
  induction m as [|[k0 v0] m IH]; cbn [smap_put map fst In]; [intuition congruence|]. destruct (jeqb_spec k k0) as [->|Hk]; cbn [map fst In].
  - intuition congruence.
  - rewrite IH. intuition congruence.
Qed.

Lemma smap_put_nodup k v m : NoDup (map fst m) -> NoDup (map fst (smap_put k v m)).
Proof.
  induction m as [|[k0 v0] m IH]; cbn [smap_put map fst]; intro H; [repeat constructor; intros []|]. inversion H as [|? ? Hn Hd]; subst.
  destruct (jeqb_spec k k0) as [->|Hk]; cbn [map fst]; constructor; auto. rewrite smap_put_fst. intros [E|E]; [congruence|contradiction].
Qed.

(** The map obtained from [init] by the calls. *)
Definition puts (sets : emoji_op -> option (jstring * jstring)) (init : smap) (ops : list emoji_op) : smap :=
  fold_left (fun m op => match sets op with Some (k, v) => smap_put k v m | None => m end) ops init.

Lemma puts_nodup sets init ops : NoDup (map fst init) -> NoDup (map fst (puts sets init ops)).
Proof.
  revert init. induction ops as [|op ops IH]; intros init H; [exact H|]. cbn. apply IH. destruct (sets op) as [[k v]|]; [now apply smap_put_nodup|exact H].
Qed.

Lemma puts_entry sets init : NoDup (map fst init) -> forall ops k v, smap_get k (puts sets init ops) = Some v <-> entry_of sets init ops k v.
Proof.
  intro Hi. induction ops as [|op ops IH] using rev_ind; intros k v.
  - cbn. split.
    + intro H. apply entry_init; [intros ? ? []|now apply smap_get_in].
    + intros [pre op post E|_ H]; [destruct pre; discriminate|now apply smap_in_get].
  - unfold puts. rewrite fold_left_app. cbn [fold_left]. fold (puts sets init ops).
    assert (Hsame : (forall v', sets op <> Some (k, v')) -> smap_get k (puts sets init ops) = Some v <-> entry_of sets init (ops ++ [op]) k v).
    { intro Hop. rewrite IH. split.
      - intros [pre o post -> Ho Hp|Hn Hin].
        + apply entry_set with pre o (post ++ [op]); [now rewrite <- app_assoc|exact Ho|]. intros o' v' Ho'. apply in_app_or in Ho'.
          destruct Ho' as [Ho'|[<-|[]]]; auto.
        + apply entry_init; [|exact Hin]. intros o' v' Ho'. apply in_app_or in Ho'. destruct Ho' as [Ho'|[<-|[]]]; auto.
      - intros [pre o post E Ho Hp|Hn Hin].
        + destruct post as [|x post _] using rev_ind.
          * apply app_inj_tail in E. destruct E as [_ ->]. now apply Hop in Ho.
          * rewrite app_comm_cons, app_assoc in E. apply app_inj_tail in E. destruct E as [-> ->].
            apply entry_set with pre o post; [reflexivity|exact Ho|]. intros o' v' Ho'. apply Hp. apply in_or_app. now left.
        + apply entry_init; [|exact Hin]. intros o' v' Ho'. apply Hn. apply in_or_app. now left. }
    destruct (sets op) as [[k0 v0]|] eqn:Eop; [|apply Hsame; discriminate]. rewrite smap_get_put. destruct (jeqb_spec k k0) as [->|Hk].
    + split.
      * intro H. injection H as ->. apply entry_set with ops op []; [reflexivity|exact Eop|intros ? ? []].
      * intros [pre o post E Ho Hp|Hn Hin].
        -- destruct post as [|x post _] using rev_ind.
           ++ apply app_inj_tail in E. destruct E as [_ ->]. rewrite Ho in Eop. now injection Eop as ->.
           ++ rewrite app_comm_cons, app_assoc in E. apply app_inj_tail in E. destruct E as [_ ->].
              exfalso. eapply Hp; [apply in_or_app; right; now left|exact Eop].
        -- exfalso. eapply Hn; [apply in_or_app; right; now left|exact Eop].
    + apply Hsame. intros v' E. injection E as E _. congruence.
Qed.

Lemma entry_fun sets init ops k v v' : NoDup (map fst init) -> entry_of sets init ops k v -> entry_of sets init ops k v' -> v = v'.
Proof. intros Hi H H'. apply puts_entry in H; [|exact Hi]. apply puts_entry in H'; [|exact Hi]. congruence. Qed.

(** ** Lower-casing the keys *)

Lemma lower_keys_ok lower m : NoDup (map fst m) ->
  (forall k v k' v', In (k, v) m -> In (k', v') m -> lower k = lower k' -> k = k') ->
  exists m', to_lower_case_keys lower m = Ok m' /\ forall x v, smap_get x m' = Some v <-> exists k, In (k, v) m /\ lower k = x.
Proof.
  induction m as [|[k v] m IH]; intros Hn Hd.
  - exists []. split; [reflexivity|]. intros x v. cbn. split; [discriminate|intros (k & [] & _)].
  - cbn in Hn. inversion Hn as [|? ? Hk Hm]; subst. destruct IH as (m' & E & Hm'); [exact Hm|intros a b a' b' Ha Hb; apply (Hd a b a' b'); now right|].
    cbn [to_lower_case_keys]. rewrite E.
    assert (En : smap_get (lower k) m' = None).
    { destruct (smap_get (lower k) m') as [v'|] eqn:E'; [|reflexivity]. apply Hm' in E'. destruct E' as (k' & Hin & Hl).
      exfalso. apply Hk. apply in_map_iff. exists (k', v'). split; [|exact Hin]. cbn.
      eapply Hd; [right; exact Hin|left; reflexivity|exact Hl]. }
    rewrite En. eexists. split; [reflexivity|]. intros x v'. cbn [smap_get]. destruct (jeqb_spec x (lower k)) as [->|Hx].
    + split.
      * intro H. injection H as ->. exists k. split; [now left|reflexivity].
      * intros (k' & [H|H] & Hl); [injection H as _ ->; reflexivity|]. rewrite <- Hl in En. assert (smap_get (lower k') m' = Some v') by (apply Hm'; eauto). congruence.
    + rewrite Hm'. split; intros (k' & H & Hl); exists k'.
      * split; [now right|exact Hl].
      * destruct H as [H|H]; [injection H as -> ->; congruence|]. auto.
Qed.

Lemma lower_keys_throw lower m k v k' v' : NoDup (map fst m) -> In (k, v) m -> In (k', v') m -> lower k = lower k' -> k <> k' ->
  to_lower_case_keys lower m = Throw ExIllegalState.
Proof.
  induction m as [|[k0 v0] m IH]; intros Hn Hi Hi' Hl Hk; [destruct Hi|]. cbn in Hn. inversion Hn as [|? ? Hk0 Hm]; subst.
  cbn [to_lower_case_keys]. destruct (to_lower_case_keys lower m) as [m'|x] eqn:E.
  - assert (Hkeys : forall k v, In (k, v) m -> smap_get (lower k) m' <> None).
    { clear -E. revert m' E. induction m as [|[k1 v1] m IH]; intros m' E k v Hin; [destruct Hin|]. cbn [to_lower_case_keys] in E.
      destruct (to_lower_case_keys lower m) as [m1|] eqn:E1; [|discriminate]. destruct (smap_get (lower k1) m1) eqn:Eg; [discriminate|].
      injection E as <-. cbn. destruct (jeqb_spec (lower k) (lower k1)); [discriminate|]. destruct Hin as [H|H]; [injection H as -> ->; congruence|].
      eapply IH; eauto. }
    destruct Hi as [Hi|Hi], Hi' as [Hi'|Hi'].
    + congruence.
    + injection Hi as -> ->. rewrite Hl. specialize (Hkeys _ _ Hi'). destruct (smap_get (lower k') m'); [reflexivity|congruence].
    + injection Hi' as -> ->. rewrite <- Hl. specialize (Hkeys _ _ Hi). destruct (smap_get (lower k) m'); [reflexivity|congruence].
    + specialize (IH Hm Hi Hi' Hl Hk). discriminate.
  - f_equal. clear -E. revert x E. induction m as [|[k1 v1] m IH]; intros x E; cbn in E; [discriminate|].
    destruct (to_lower_case_keys lower m) as [m1|y] eqn:E1; [|injection E as <-; now apply IH].
    destruct (smap_get (lower k1) m1); [now injection E as <-|discriminate].
Qed.

(** ** The state of a builder *)

Definition to_match (r : matcher * jstring) : emoji_match := mkEmojiMatch (fst r) (snd r).

Lemma steps_state ops : forall dd dm dn df fm fn fe,
  fold_left emoji_step ops (mkEmojiBuilder dd dm dn df fm fn fe) =
  mkEmojiBuilder (dir_default dd ops) (dm ++ map to_match (dir_rules ops)) (puts sets_dir_name dn ops)
                 (file_default df ops) (fm ++ map to_match (file_rules ops)) (puts sets_file_name fn ops) (puts sets_file_ext fe ops).
Proof.
  induction ops as [|op ops IH]; intros; cbn [fold_left dir_rules file_rules map]; [now rewrite !app_nil_r|].
  destruct op; cbn [emoji_step]; rewrite IH; cbn [dir_default file_default dir_rules file_rules map]; try rewrite <- !app_assoc; reflexivity.
Qed.

Definition state_of (o : emoji_origin) (ops : list emoji_op) : emoji_builder :=
  mkEmojiBuilder (dir_default DEFAULT_DIR_EMOJI ops) (map to_match (dir_rules ops)) (puts sets_dir_name [] ops)
    (file_default DEFAULT_FILE_EMOJI ops) (map to_match (file_rules ops)) (puts sets_file_name (init_file_names o) ops)
    (puts sets_file_ext (init_file_exts o) ops).

Lemma start_state o ops : fold_left emoji_step ops (es_builder (emoji_start o)) = state_of o ops.
Proof. destruct o; apply (steps_state ops). Qed.

Lemma run_builder lower cmds : forall s, es_builder (emoji_run lower s cmds) = fold_left emoji_step (emoji_ops cmds) (es_builder s).
Proof.
  induction cmds as [|[op|] cmds IH]; intro s; [reflexivity| |].
  - exact (IH (emoji_exec lower s (EOp op))).
  - exact (IH (emoji_exec lower s EBuild)).
Qed.

Lemma run_built lower cmds : forall s, exists more, es_built (emoji_run lower s cmds) = es_built s ++ more /\ length more = emoji_builds cmds.
Proof.
  induction cmds as [|[op|] cmds IH]; intro s; cbn [emoji_run fold_left emoji_builds].
  - exists []. now rewrite app_nil_r.
  - exact (IH (emoji_exec lower s (EOp op))).
  - destruct (IH (emoji_exec lower s EBuild)) as (more & E & L). unfold emoji_run in E. rewrite E. cbn [emoji_exec es_built].
    eexists (_ :: more). rewrite <- app_assoc. cbn. split; [reflexivity|auto].
Qed.

Lemma ops_app a b : emoji_ops (a ++ b) = emoji_ops a ++ emoji_ops b.
Proof. induction a as [|[op|] a IH]; cbn; congruence. Qed.

Lemma session_at lower o cmds later :
  let s := emoji_run lower (emoji_start o) (cmds ++ EBuild :: later) in
  es_builder s = state_of o (emoji_ops (cmds ++ later)) /\
  nth_error (es_built s) (emoji_builds cmds) = Some (emoji_build lower (state_of o (emoji_ops cmds))).
Proof.
  cbv zeta. split.
  - rewrite run_builder, ops_app. cbn [emoji_ops]. rewrite <- ops_app. apply start_state.
  - unfold emoji_run. rewrite fold_left_app. cbn [fold_left]. fold (emoji_run lower (emoji_start o) cmds).
    fold (emoji_run lower (emoji_exec lower (emoji_run lower (emoji_start o) cmds) EBuild) later).
    destruct (run_built lower later (emoji_exec lower (emoji_run lower (emoji_start o) cmds) EBuild)) as (more & E & _). rewrite E.
    cbn [emoji_exec es_built]. destruct (run_built lower cmds (emoji_start o)) as (more' & E' & L'). rewrite E'. cbn [es_built emoji_start app].
    rewrite <- app_assoc, nth_error_app2 by lia. rewrite L', Nat.sub_diag. cbn [app nth_error]. now rewrite run_builder, start_state.
Qed.

(** ** Initial tables have unique keys *)

Fixpoint nodup_keys (l : list jstring) : bool := match l with [] => true | x :: l' => negb (existsb (jeqb x) l') && nodup_keys l' end.

Lemma nodup_keys_ok l : nodup_keys l = true -> NoDup l.
Proof.
  induction l as [|x l IH]; intro H; constructor; cbn in H; apply andb_prop in H; destruct H as [H1 H2]; [|auto].
  intro Hin. apply negb_true_iff in H1. rewrite <- not_true_iff_false in H1. apply H1. apply existsb_exists. exists x. split; [exact Hin|now apply jeqb_eq].
Qed.

Lemma init_names_nodup o : NoDup (map fst (init_file_names o)).
Proof. destruct o; [constructor|]. apply nodup_keys_ok. vm_compute. reflexivity. Qed.
Lemma init_exts_nodup o : NoDup (map fst (init_file_exts o)).
Proof. destruct o; [constructor|]. apply nodup_keys_ok. vm_compute. reflexivity. Qed.

(** ** [build] *)

Definition stands_for (lower : jstring -> jstring) (K : keys) (m : smap) : Prop :=
  forall x v, smap_get x m = Some v <-> exists k, K k v /\ lower k = x.

Lemma puts_in sets init ops k v : NoDup (map fst init) -> In (k, v) (puts sets init ops) <-> entry_of sets init ops k v.
Proof.
  intro Hi. rewrite <- puts_entry by exact Hi. split; [apply smap_in_get; now apply puts_nodup|apply smap_get_in].
Qed.

Lemma lower_puts lower sets init ops : NoDup (map fst init) -> distinct_ci lower (entry_of sets init ops) ->
  exists m, to_lower_case_keys lower (puts sets init ops) = Ok m /\ stands_for lower (entry_of sets init ops) m.
Proof.
  intros Hi Hd. destruct (lower_keys_ok lower (puts sets init ops)) as (m & E & Hm).
  - now apply puts_nodup.
  - intros k v k' v' H H'. rewrite puts_in in H, H' by exact Hi. eapply Hd; eauto.
  - exists m. split; [exact E|]. intros x v. rewrite Hm. split; intros (k & H & Hl); exists k; (split; [|exact Hl]).
    + rewrite puts_in in H by exact Hi. exact H.
    + rewrite puts_in by exact Hi. exact H.
Qed.

Lemma build_ok lower o ops : all_distinct_ci lower o ops -> exists dn fn fe,
  emoji_build lower (state_of o ops) = Ok (mkBuiltEmoji (dir_default DEFAULT_DIR_EMOJI ops) dn (file_default DEFAULT_FILE_EMOJI ops) fn fe) /\
  stands_for lower (dir_name ops) dn /\ stands_for lower (file_name o ops) fn /\ stands_for lower (file_ext o ops) fe.
Proof.
  intros (H1 & H2 & H3).
  destruct (lower_puts lower sets_dir_name [] ops (NoDup_nil _) H1) as (dn & E1 & S1).
  destruct (lower_puts lower sets_file_name _ ops (init_names_nodup o) H2) as (fn & E2 & S2).
  destruct (lower_puts lower sets_file_ext _ ops (init_exts_nodup o) H3) as (fe & E3 & S3).
  exists dn, fn, fe. split; [|auto]. unfold emoji_build, state_of. cbn [eb_dir_names eb_file_names eb_file_exts eb_default_dir eb_default_file].
  now rewrite E1, E2, E3.
Qed.

(** Two keys of one kind that differ in case only. *)
Definition clash (lower : jstring -> jstring) (K : keys) : Prop := exists k v k' v', K k v /\ K k' v' /\ lower k = lower k' /\ k <> k'.

Lemma lower_puts_throw lower sets init ops : NoDup (map fst init) -> clash lower (entry_of sets init ops) ->
  to_lower_case_keys lower (puts sets init ops) = Throw ExIllegalState.
Proof.
  intros Hi (k & v & k' & v' & H & H' & Hl & Hk). eapply lower_keys_throw; [now apply puts_nodup| | |exact Hl|exact Hk]; apply puts_in; eauto.
Qed.

Lemma lower_keys_only lower m : match to_lower_case_keys lower m with Ok _ => True | Throw x => x = ExIllegalState end.
Proof.
  induction m as [|[k v] m IH]; cbn; [exact I|]. destruct (to_lower_case_keys lower m) as [m'|]; [|exact IH]. now destruct (smap_get (lower k) m').
Qed.

Lemma build_throws lower o ops : clash lower (dir_name ops) \/ clash lower (file_name o ops) \/ clash lower (file_ext o ops) ->
  emoji_build lower (state_of o ops) = Throw ExIllegalState.
Proof.
  intro H. unfold emoji_build, state_of. cbn [eb_dir_names eb_file_names eb_file_exts].
  pose proof (lower_keys_only lower (puts sets_dir_name [] ops)) as O1.
  pose proof (lower_keys_only lower (puts sets_file_name (init_file_names o) ops)) as O2.
  destruct H as [H|[H|H]].
  - now rewrite (lower_puts_throw lower sets_dir_name [] ops (NoDup_nil _) H).
  - rewrite (lower_puts_throw lower sets_file_name _ ops (init_names_nodup o) H).
    destruct (to_lower_case_keys lower (puts sets_dir_name [] ops)); [reflexivity|now subst].
  - rewrite (lower_puts_throw lower sets_file_ext _ ops (init_exts_nodup o) H).
    destruct (to_lower_case_keys lower (puts sets_dir_name [] ops)); [|now subst].
    destruct (to_lower_case_keys lower (puts sets_file_name (init_file_names o) ops)); [reflexivity|now subst].
Qed.

Lemma distinct_or_clash lower sets init ops : NoDup (map fst init) ->
  distinct_ci lower (entry_of sets init ops) \/ clash lower (entry_of sets init ops).
Proof.
  intro Hi. set (m := puts sets init ops).
  assert (D : forall l, incl l m -> (forall k v k' v', In (k, v) l -> In (k', v') m -> lower k = lower k' -> k = k') \/ clash lower (entry_of sets init ops)).
  { assert (D1 : forall k v, In (k, v) m -> forall l, incl l m -> (forall k' v', In (k', v') l -> lower k = lower k' -> k = k') \/ clash lower (entry_of sets init ops)).
    { intros k v Hkv. induction l as [|[k' v'] l IH]; intro Hl; [left; intros ? ? []|].
      destruct IH as [IH|IH]; [intros x Hx; apply Hl; now right| |now right].
      destruct (jeqb_spec (lower k) (lower k')) as [E|E].
      - destruct (jeqb_spec k k') as [->|Hk].
        + left. intros k'' v'' [H|H] Hl'; [congruence|eauto].
        + right. exists k, v, k', v'. repeat split; auto; apply puts_in; auto. apply Hl. now left.
      - left. intros k'' v'' [H|H] Hl'; [congruence|eauto]. }
    induction l as [|[k v] l IH]; intro Hl; [left; intros ? ? ? ? []|].
    destruct IH as [IH|IH]; [intros x Hx; apply Hl; now right| |now right].
    destruct (D1 k v (Hl _ (or_introl eq_refl)) m (incl_refl _)) as [H|H]; [|now right]. left.
    intros k0 v0 k' v' [E|E] H' Hl'; [injection E as -> ->; eauto|eauto]. }
  destruct (D m (incl_refl _)) as [H|H]; [left|now right]. intros k v k' v' Hk Hk' Hl. eapply H; [apply puts_in; eauto|apply puts_in; eauto|exact Hl].
Qed.

Theorem C71_lemma : forall lower o cmds later,
  let s := emoji_run lower (emoji_start o) (cmds ++ EBuild :: later) in
  let ops := emoji_ops cmds in
  exists r, nth_error (es_built s) (emoji_builds cmds) = Some r /\
    ((exists be, r = Ok be) <-> all_distinct_ci lower o ops) /\
    (r = Throw ExIllegalState <-> ~ all_distinct_ci lower o ops).
Proof.
  intros lower o cmds later s ops. destruct (session_at lower o cmds later) as [_ E]. fold s in E. fold ops in E. eexists. split; [exact E|].
  assert (D : all_distinct_ci lower o ops \/ emoji_build lower (state_of o ops) = Throw ExIllegalState /\ ~ all_distinct_ci lower o ops).
  { assert (Hc : forall K, clash lower K -> ~ distinct_ci lower K).
    { intros K (k & v & k' & v' & H & H' & Hl & Hk) Hd. apply Hk. eapply Hd; eauto. }
    destruct (distinct_or_clash lower sets_dir_name [] ops (NoDup_nil _)) as [H1|H1].
    2: { right. split; [apply build_throws; now left|]. intros (A & _). eapply Hc; eauto. }
    destruct (distinct_or_clash lower sets_file_name _ ops (init_names_nodup o)) as [H2|H2].
    2: { right. split; [apply build_throws; right; now left|]. intros (_ & A & _). eapply Hc; eauto. }
    destruct (distinct_or_clash lower sets_file_ext _ ops (init_exts_nodup o)) as [H3|H3].
    2: { right. split; [apply build_throws; right; now right|]. intros (_ & _ & A). eapply Hc; eauto. }
    left. split; [|split]; assumption. }
  destruct D as [D|[Et D]].
  - destruct (build_ok lower o ops D) as (dn & fn & fe & Eb & _). rewrite Eb. split; split; intros; eauto; try discriminate. contradiction.
  - rewrite Et. split; split; intros; eauto; try contradiction. destruct H. discriminate.
Qed.

(** ** [getPathEmoji] *)

Lemma path_matcher_first w p l : forall h, exists r h', first_match w p l h r h' /\ path_matcher_emoji (map to_match l) p w h = (r, h').
Proof.
  induction l as [|[m e] l IH]; intro h; cbn [map path_matcher_emoji]; [eexists _, _; split; [constructor|reflexivity]|].
  unfold bind. cbn [to_match em_matcher em_emoji fst snd]. destruct (m p w h) as [[[|]|x] h'] eqn:E.
  - eexists _, _. split; [apply fm_here; exact E|reflexivity].
  - destruct (IH h') as (r & h'' & Hf & Er). exists r, h''. split; [eapply fm_next; eauto|exact Er].
  - eexists _, _. split; [apply fm_throw; exact E|reflexivity].
Qed.

Theorem first_match_det : forall w p l h r1 h1 r2 h2, first_match w p l h r1 h1 -> first_match w p l h r2 h2 -> r1 = r2 /\ h1 = h2.
Proof.
  intros w p l h r1 h1 r2 h2 H. revert r2 h2. induction H as [h|m e l h h' E|m e l h x h' E|m e l h h' r h'' E Hn IH]; intros r2 h2 H2; inversion H2; subst; auto;
    match goal with A : _ = (_, _), B : _ = (_, _) |- _ => rewrite A in B; injection B; intros; subst end; auto; discriminate.
Qed.

Lemma ends_inv p n : ends_with_name p n -> (exists l, p_names p = l ++ [n]) \/ (p_names p = [] /\ p_abs p = false /\ n = []).
Proof. destruct 1; cbn; eauto. Qed.

Lemma name_cases p : (exists n f, ends_with_name p n /\ get_file_name p = Some f /\ path_str f = n /\
    forall n', ends_with_name p n' -> n' = n) \/ (get_file_name p = None /\ forall n, ~ ends_with_name p n).
Proof.
  destruct p as [a l]. destruct l as [|n l _] using rev_ind.
  - destruct a.
    + right. split; [reflexivity|]. intros n H. apply ends_inv in H. destruct H as [(l & H)|(_ & H & _)]; [now destruct l|discriminate].
    + left. exists [], (mkPath false []). split; [constructor|]. split; [reflexivity|]. split; [reflexivity|]. intros n' H. apply ends_inv in H.
      destruct H as [(l & H)|(_ & _ & H)]; [now destruct l|exact H].
  - left. exists n, (mkPath false [n]). split; [constructor|]. split.
    + unfold get_file_name. cbn [p_names]. rewrite rev_app_distr. reflexivity.
    + split; [reflexivity|]. intros n' H. apply ends_inv in H. destruct H as [(l' & H)|(H & _)]; cbn in H.
      * now apply app_inj_tail in H.
      * now destruct l.
Qed.

Lemma first_mapped_spec m l : match first_mapped m l with
  | Some v => exists a x b, l = a ++ x :: b /\ smap_get x m = Some v /\ forall y, In y a -> smap_get y m = None
  | None => forall y, In y l -> smap_get y m = None end.
Proof.
  induction l as [|x l IH]; cbn [first_mapped]; [intros y []|]. destruct (smap_get x m) as [v|] eqn:E.
  - exists [], x, l. split; [reflexivity|]. split; [exact E|intros y []].
  - destruct (first_mapped m l) as [v|].
    + destruct IH as (a & y & b & -> & Hy & Ha). exists (x :: a), y, b. split; [reflexivity|]. split; [exact Hy|]. intros z [<-|Hz]; auto.
    + intros y [<-|Hy]; auto.
Qed.

Lemma sorted_app_before {A} (R : A -> A -> Prop) a x b : StronglySorted R (a ++ x :: b) -> forall y, In y b -> R x y.
Proof.
  induction a as [|z a IH]; cbn; intro H; inversion H as [|? ? Hs Hf]; subst.
  - intros y Hy. rewrite Forall_forall in Hf. now apply Hf.
  - now apply IH.
Qed.

Lemma by_extension_spec lower K m n : stands_for lower K m ->
  match first_mapped m (get_extensions (lower n)) with
  | Some v => by_extension lower K n v
  | None => forall e, ~ by_extension lower K n e end.
Proof.
  intro Hs. pose proof (first_mapped_spec m (get_extensions (lower n))) as H. destruct (C46_lemma (lower n)) as [Hsort Hin].
  destruct (first_mapped m (get_extensions (lower n))) as [v|].
  - destruct H as (a & x & b & E & Hx & Ha). apply Hs in Hx. destruct Hx as (k & Hk & Hl). exists k. split; [exact Hk|]. split.
    + apply Hin. rewrite E, Hl. apply in_or_app. right. now left.
    + intros k' e' Hk' Hext. apply Hin in Hext. rewrite E in Hext. apply in_app_or in Hext. destruct Hext as [Hext|[<-|Hext]].
      * specialize (Ha _ Hext). assert (smap_get (lower k') m = Some e') by (apply Hs; eauto). congruence.
      * now rewrite Hl.
      * rewrite E in Hsort. pose proof (sorted_app_before _ _ _ _ Hsort _ Hext). rewrite Hl. cbv beta in *. lia.
  - intros e (k & Hk & Hext & _). apply Hin in Hext. specialize (H _ Hext). assert (smap_get (lower k) m = Some e) by (apply Hs; eauto). congruence.
Qed.

Lemma by_name_spec lower K m n : stands_for lower K m ->
  match smap_get (lower n) m with Some v => by_name lower K n v | None => forall e, ~ by_name lower K n e end.
Proof.
  intro Hs. destruct (smap_get (lower n) m) as [v|] eqn:E.
  - apply Hs in E. exact E.
  - intros e (k & Hk & Hl). assert (smap_get (lower n) m = Some e) by (apply Hs; eauto). congruence.
Qed.

Lemma own_dir w lower K m default p : lower = jv_lower (w_jvm w) -> stands_for lower K m -> forall h, exists r,
  path_name_emoji m p w h = (Ok r, h) /\ own_emoji lower K no_keys default p (match r with Some e => e | None => default end).
Proof.
  intros -> Hs h. unfold path_name_emoji. destruct (name_cases p) as [(n & f & Hn & Ef & En & Hu)|[Ef Hno]]; rewrite Ef.
  - unfold bind, get_jvm. rewrite En. eexists. split; [reflexivity|]. pose proof (by_name_spec _ K m n Hs) as H.
    destruct (smap_get (jv_lower (w_jvm w) n) m) as [v|]; [now apply own_name with n|]. apply own_default; [|reflexivity].
    intros n' e' Hn'. apply Hu in Hn'. subst n'. split; [apply H|]. intros (k & [] & _).
  - eexists. split; [reflexivity|]. apply own_default; [|reflexivity]. intros n' e' Hn'. now apply Hno in Hn'.
Qed.

Lemma own_file w lower K X m mx default p : lower = jv_lower (w_jvm w) -> stands_for lower K m -> stands_for lower X mx -> forall h, exists r,
  sequential_emoji [path_name_emoji m; path_extension_emoji mx] p w h = (Ok r, h) /\
  own_emoji lower K X default p (match r with Some e => e | None => default end).
Proof.
  intros -> Hs Hx h. cbn [sequential_emoji]. unfold path_name_emoji, path_extension_emoji.
  destruct (name_cases p) as [(n & f & Hn & Ef & En & Hu)|[Ef Hno]]; rewrite Ef.
  - unfold bind, get_jvm, ret. rewrite En. pose proof (by_name_spec _ K m n Hs) as H. pose proof (by_extension_spec _ X mx n Hx) as H'.
    destruct (smap_get (jv_lower (w_jvm w) n) m) as [v|]; cbn [is_some].
    + eexists. split; [reflexivity|]. now apply own_name with n.
    + destruct (first_mapped mx (get_extensions (jv_lower (w_jvm w) n))) as [v|]; cbn [is_some]; (eexists; split; [reflexivity|]).
      * now apply own_ext with n.
      * apply own_default; [|reflexivity]. intros n' e' Hn'. apply Hu in Hn'. subst n'. split; [apply H|apply H'].
  - unfold bind, ret. cbn [is_some]. eexists. split; [reflexivity|]. apply own_default; [|reflexivity]. intros n' e' Hn'. now apply Hno in Hn'.
Qed.

(** Keys as at [build], rules with a matcher as at the call. *)
Theorem C72_lemma : forall w o cmds later p h,
  let lower := jv_lower (w_jvm w) in
  let built := emoji_ops cmds in
  let now := emoji_ops (cmds ++ later) in
  all_distinct_ci lower o built ->
  exists r0 r h', emoji_call (emoji_run lower (emoji_start o) (cmds ++ EBuild :: later)) (emoji_builds cmds) p w h = (r, h') /\
    match w_lstat w h p with
    | Some KDir => first_match w p (dir_rules now) (EvLstat p (Some KDir) :: h) r0 h' /\
        chosen r0 (own_emoji lower (dir_name built) no_keys (dir_default DEFAULT_DIR_EMOJI built) p) r
    | k => first_match w p (file_rules now) (EvLstat p k :: h) r0 h' /\
        chosen r0 (own_emoji lower (file_name o built) (file_ext o built) (file_default DEFAULT_FILE_EMOJI built) p) r
    end.
Proof.
  intros w o cmds later p h lower built now Hd. destruct (session_at lower o cmds later) as [Eb En].
  unfold emoji_call. rewrite En, Eb. destruct (build_ok lower o built Hd) as (dn & fn & fe & E & S1 & S2 & S3). fold built now. rewrite E.
  unfold built_emoji_apply, default_emoji_mapping, state_of.
  cbn [be_default_dir be_dir_names be_default_file be_file_names be_file_exts eb_dir_matchers eb_file_matchers].
  unfold bind at 1, pm_is_directory, has_kind, bind at 1, lstat, ret at 1. set (k := w_lstat w h p).
  assert (Hdir : forall h, exists r0 r h', (e <- sequential_emoji [path_matcher_emoji (map to_match (dir_rules now)); path_name_emoji dn] p;
       ret (Some (match e with Some e => e | None => dir_default DEFAULT_DIR_EMOJI built end))) w h = (r, h') /\
     first_match w p (dir_rules now) h r0 h' /\ chosen r0 (own_emoji lower (dir_name built) no_keys (dir_default DEFAULT_DIR_EMOJI built) p) r).
  { intro h0. destruct (path_matcher_first w p (dir_rules now) h0) as (r0 & h1 & Hf & E0). exists r0. cbn [sequential_emoji]. unfold bind. rewrite E0.
    destruct r0 as [[e|]|x]; cbn [is_some].
    - eexists _, _. split; [reflexivity|]. split; [exact Hf|reflexivity].
    - destruct (own_dir w lower _ dn (dir_default DEFAULT_DIR_EMOJI built) p eq_refl S1 h1) as (r & Er & Ho). rewrite Er.
      destruct r as [e|]; cbn [is_some]; (eexists _, _; split; [reflexivity|]; split; [exact Hf|]; eexists; split; [exact Ho|reflexivity]).
    - eexists _, _. split; [reflexivity|]. split; [exact Hf|reflexivity]. }
  assert (Hfile : forall h, exists r0 r h', (e <- sequential_emoji [path_matcher_emoji (map to_match (file_rules now)); path_name_emoji fn; path_extension_emoji fe] p;
       ret (Some (match e with Some e => e | None => file_default DEFAULT_FILE_EMOJI built end))) w h = (r, h') /\
     first_match w p (file_rules now) h r0 h' /\
     chosen r0 (own_emoji lower (file_name o built) (file_ext o built) (file_default DEFAULT_FILE_EMOJI built) p) r).
  { intro h0. destruct (path_matcher_first w p (file_rules now) h0) as (r0 & h1 & Hf & E0). exists r0.
    change (sequential_emoji (path_matcher_emoji (map to_match (file_rules now)) :: [path_name_emoji fn; path_extension_emoji fe]) p)
      with (e <- path_matcher_emoji (map to_match (file_rules now)) p; if is_some e then ret e else sequential_emoji [path_name_emoji fn; path_extension_emoji fe] p).
    unfold bind. rewrite E0. destruct r0 as [[e|]|x]; cbn [is_some].
    - eexists _, _. split; [reflexivity|]. split; [exact Hf|reflexivity].
    - destruct (own_file w lower _ _ fn fe (file_default DEFAULT_FILE_EMOJI built) p eq_refl S2 S3 h1) as (r & Er & Ho). rewrite Er.
      eexists _, _. split; [reflexivity|]. split; [exact Hf|]. eexists. split; [exact Ho|reflexivity].
    - eexists _, _. split; [reflexivity|]. split; [exact Hf|reflexivity]. }
  destruct k as [[]|]; cbn [kind_eqb];
    first [destruct (Hdir (EvLstat p (Some KDir) :: h)) as (r0 & r & h' & A & B); now exists r0, r, h'
          |match goal with |- context[EvLstat p ?k :: h] => destruct (Hfile (EvLstat p k :: h)) as (r0 & r & h' & A & B); now exists r0, r, h' end].
Qed.

Lemma no_rules later : Forall (fun c => ~ adds_rule c) later -> dir_rules (emoji_ops later) = [] /\ file_rules (emoji_ops later) = [].
Proof.
  induction 1 as [|c later Hc F IH]; [split; reflexivity|]. destruct c as [[]|]; cbn in *; tauto || (exfalso; apply Hc; exact I).
Qed.

Lemma dir_rules_app a b : dir_rules (a ++ b) = dir_rules a ++ dir_rules b.
Proof. induction a as [|[] a IH]; cbn; congruence. Qed.
Lemma file_rules_app a b : file_rules (a ++ b) = file_rules a ++ file_rules b.
Proof. induction a as [|[] a IH]; cbn; congruence. Qed.

Theorem C43_lemma : forall w o cmds later p h,
  let lower := jv_lower (w_jvm w) in
  let ops := emoji_ops cmds in
  all_distinct_ci lower o ops -> Forall (fun c => ~ adds_rule c) later ->
  exists r0 r h', emoji_call (emoji_run lower (emoji_start o) (cmds ++ EBuild :: later)) (emoji_builds cmds) p w h = (r, h') /\
    match w_lstat w h p with
    | Some KDir => first_match w p (dir_rules ops) (EvLstat p (Some KDir) :: h) r0 h' /\
        chosen r0 (own_emoji lower (dir_name ops) no_keys (dir_default DEFAULT_DIR_EMOJI ops) p) r
    | k => first_match w p (file_rules ops) (EvLstat p k :: h) r0 h' /\
        chosen r0 (own_emoji lower (file_name o ops) (file_ext o ops) (file_default DEFAULT_FILE_EMOJI ops) p) r
    end.
Proof.
  intros w o cmds later p h lower ops Hd Hl. destruct (no_rules later Hl) as [H1 H2].
  pose proof (C72_lemma w o cmds later p h Hd) as H. cbv zeta in H.
  rewrite ops_app, dir_rules_app, file_rules_app, H1, H2, !app_nil_r in H. exact H.
Qed.

(** The emoji described is unique. *)
Theorem own_emoji_det : forall lower o ops default p e1 e2, all_distinct_ci lower o ops ->
  (own_emoji lower (file_name o ops) (file_ext o ops) default p e1 -> own_emoji lower (file_name o ops) (file_ext o ops) default p e2 -> e1 = e2) /\
  (own_emoji lower (dir_name ops) no_keys default p e1 -> own_emoji lower (dir_name ops) no_keys default p e2 -> e1 = e2).
Proof.
  intros lower o ops default p e1 e2 (D1 & D2 & D3).
  assert (U : forall n n', ends_with_name p n -> ends_with_name p n' -> n = n').
  { intros n n' H H'. destruct (name_cases p) as [(m & _ & _ & _ & _ & Hu)|[_ Hn]]; [rewrite (Hu n H); symmetry; now apply Hu|now apply Hn in H]. }
  assert (G : forall K X : keys, distinct_ci lower K -> distinct_ci lower X -> (forall k v v', K k v -> K k v' -> v = v') -> (forall k v v', X k v -> X k v' -> v = v') ->
     own_emoji lower K X default p e1 -> own_emoji lower K X default p e2 -> e1 = e2).
  { intros K X DK DX FK FX H H'.
    destruct H as [n Hn (k & Hk & Hl)|n Hn Hno (k & Hk & He & Hm)|Hno ->], H' as [n' Hn' (k' & Hk' & Hl')|n' Hn' Hno' (k' & Hk' & He' & Hm')|Hno' ->];
      try (specialize (U _ _ Hn Hn'); subst n').
    - assert (k = k') by (eapply DK; eauto; congruence). subst. eauto.
    - exfalso. apply (Hno' e1). now exists k.
    - exfalso. apply (proj1 (Hno' n e1 Hn)). now exists k.
    - exfalso. apply (Hno e2). now exists k'.
    - assert (k = k'); [|subst; eauto]. eapply DX; eauto.
      specialize (Hm _ _ Hk' He'). specialize (Hm' _ _ Hk He). assert (El : length (lower k) = length (lower k')) by lia.
      destruct He as (c1 & k1 & b1 & E1 & C1 & S1), He' as (c2 & k2 & b2 & E2 & C2 & S2). rewrite E1 in E2.
      apply strip_dots_unique in E2; [|exact C1|exact C2]. subst c2. rewrite S1 in S2. clear -S2 El.
      apply (f_equal (@rev N)) in S2. rewrite !rev_app_distr in S2. cbn [rev] in S2. rewrite <- !app_assoc in S2.
      assert (rev (lower k) = rev (lower k')); [|rewrite <- (rev_involutive (lower k)), H, rev_involutive; reflexivity].
      assert (L : length (rev (lower k)) = length (rev (lower k'))) by now rewrite !rev_length.
      revert S2 L. generalize (rev (lower k)) (rev (lower k')). generalize ([c_dot] ++ rev b1) ([c_dot] ++ rev b2). clear.
      intros x y a. induction a as [|c a IH]; intros [|d b] E L; cbn in L; try lia; [reflexivity|]. cbn in E. injection E as -> E. f_equal. apply IH; [exact E|lia].
    - exfalso. apply (proj2 (Hno' n e1 Hn)). exists k. auto.
    - exfalso. apply (proj1 (Hno n' e2 Hn')). now exists k'.
    - exfalso. apply (proj2 (Hno n' e2 Hn')). exists k'. auto.
    - reflexivity. }
  split.
  - apply G; auto; intros k v v'; apply entry_fun; [apply init_names_nodup|apply init_exts_nodup].
  - apply G; auto; [intros ? ? ? ? []|intros k v v'; apply entry_fun; constructor|intros ? ? ? []].
Qed.

Theorem C72_independent : forall w o cmds later p h, Forall (fun c => ~ adds_rule c) later ->
  let lower := jv_lower (w_jvm w) in
  emoji_call (emoji_run lower (emoji_start o) (cmds ++ EBuild :: later)) (emoji_builds cmds) p w h =
  emoji_call (emoji_run lower (emoji_start o) (cmds ++ [EBuild])) (emoji_builds cmds) p w h.
Proof.
  intros w o cmds later p h F lower. destruct (session_at lower o cmds later) as [Eb En]. destruct (session_at lower o cmds []) as [Eb' En'].
  unfold emoji_call. rewrite En, En', Eb, Eb'. destruct (emoji_build lower (state_of o (emoji_ops cmds))); [|reflexivity].
  destruct (no_rules later F) as [H1 H2]. rewrite app_nil_r, ops_app. unfold built_emoji_apply, state_of. cbn [eb_dir_matchers eb_file_matchers].
  rewrite dir_rules_app, file_rules_app, H1, H2, !app_nil_r. reflexivity.
Qed.

(** ** The default mapping *)

Lemma entry_start sets init k v : entry_of sets init [] k v <-> In (k, v) init.
Proof.
  split; [intros [pre op post E|_ H]; [now destruct pre|exact H]|]. intro H. apply entry_init; [intros ? ? []|exact H].
Qed.

Lemma own_emoji_ext lower (K K' X X' : keys) default p e : (forall k v, K k v <-> K' k v) -> (forall k v, X k v <-> X' k v) ->
  own_emoji lower K X default p e -> own_emoji lower K' X' default p e.
Proof.
  intros HK HX.
  assert (N : forall n e, by_name lower K n e <-> by_name lower K' n e) by (intros n e0; split; intros (k & A & B); exists k; (split; [now apply HK|exact B])).
  assert (Y : forall n e, by_extension lower X n e <-> by_extension lower X' n e).
  { intros n e0. split; intros (k & A & B & C); exists k; (split; [now apply HX|split; [exact B|]]); intros k' e' Hk'; apply (C k' e'); now apply HX. }
  intros [n Hn H|n Hn Hno H|Hno ->].
  - apply own_name with n; [exact Hn|now apply N].
  - apply own_ext with n; [exact Hn| |now apply Y]. intros e' H'. now apply (Hno e'), N.
  - apply own_default; [|reflexivity]. intros n e' Hn. split; intro H; [apply (proj1 (Hno n e' Hn)), N|apply (proj2 (Hno n e' Hn)), Y]; exact H.
Qed.

Theorem C73_lemma : forall w,
  let lower := jv_lower (w_jvm w) in
  (forall k v, default_names k v \/ default_exts k v -> lower k = k) ->
  exists f, emoji_create_default lower = Ok f /\ forall p h,
    exists e, f p w h = (Ok (Some e), EvLstat p (w_lstat w h p) :: h) /\
      (w_lstat w h p = Some KDir -> e = DEFAULT_DIR_EMOJI) /\
      (w_lstat w h p <> Some KDir -> own_emoji lower default_names default_exts DEFAULT_FILE_EMOJI p e).
Proof.
  intros w lower Hl.
  assert (Hd : all_distinct_ci lower FromDefault (emoji_ops [])).
  { split; [|split]; intros k v k' v' H H' E; apply entry_start in H, H'; [destruct H| |].
    - rewrite (Hl k v), (Hl k' v') in E; auto.
    - rewrite (Hl k v), (Hl k' v') in E; auto. }
  destruct (session_at lower FromDefault [] []) as [Eb En]. cbn [emoji_builds app emoji_ops] in *.
  unfold emoji_create_default. change emoji_builder_default with (state_of FromDefault []).
  destruct (build_ok lower FromDefault [] Hd) as (dn & fn & fe & E & _). rewrite E. eexists. split; [reflexivity|]. intros p h.
  destruct (C43_lemma w FromDefault [] [] p h Hd (Forall_nil _)) as (r0 & r & h' & Er & Hm). cbn [app emoji_builds emoji_ops] in *.
  fold lower in Er, Hm. unfold emoji_call in Er. rewrite En, Eb, E in Er. cbn [dir_rules file_rules dir_default file_default] in Hm.
  rewrite Er. clear Er.
  assert (Hk : w_lstat w h p = Some KDir \/ w_lstat w h p <> Some KDir) by (destruct (w_lstat w h p) as [[]|]; auto; right; discriminate).
  destruct Hk as [Hk|Hk].
  - rewrite Hk in *. destruct Hm as [Hf Hc]. inversion Hf; subst. destruct Hc as (e & Ho & ->). exists e. split; [reflexivity|]. split; [|congruence].
    intros _. destruct Ho as [n Hn (k & Hkk & _)|n _ _ (k & [] & _)|_ ->]; [|reflexivity]. apply entry_start in Hkk. destruct Hkk.
  - assert (Hm' : first_match w p [] (EvLstat p (w_lstat w h p) :: h) r0 h' /\
      chosen r0 (own_emoji lower (file_name FromDefault []) (file_ext FromDefault []) DEFAULT_FILE_EMOJI p) r)
      by (destruct (w_lstat w h p) as [[]|]; try congruence; exact Hm).
    destruct Hm' as [Hf Hc]. inversion Hf; subst. destruct Hc as (e & Ho & ->). exists e. split; [reflexivity|]. split; [congruence|]. intros _.
    eapply own_emoji_ext; [| |exact Ho]; intros k v; apply entry_start.
Qed.
