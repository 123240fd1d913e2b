(** * The options an options document is mapped to, and the tree they show *)

From Verif Require Import SpecDoc SpecFormat FormatFacts DocFacts RenderFacts PathFacts MatcherFacts EmojiFacts BuilderFacts MapFacts SortFacts OrderFacts ScanPrintFacts CliFacts SpecMeta MetaFacts TreeFacts.
From Coq Require Import Lia.
Close Scope Z_scope.

Section Total.
  Context (w : world) (T : path).

  (** The callback answers the same every time and records nothing. *)
  Definition pure {A B} (f : A -> M B) : Prop := exists g, forall a h, f a w h = (Ok (g a), h).

  Definition gives {A} (m : M A) (Q : A -> Prop) : Prop := forall h a h', m w h = (Ok a, h') -> Q a.

  Lemma gives_ret {A} (a : A) (Q : A -> Prop) : Q a -> gives (ret a) Q.
  Proof. intros H h b h' E. injection E as <- _. exact H. Qed.
  Lemma gives_throw {A} e (Q : A -> Prop) : gives (throw e) Q.
  Proof. intros h b h' E. discriminate. Qed.
  Lemma gives_bind {A B} (m : M A) (f : A -> M B) (Q : A -> Prop) (Q' : B -> Prop) :
    gives m Q -> (forall a, Q a -> gives (f a) Q') -> gives (bind m f) Q'.
  Proof.
    intros Hm Hf h b h' E. unfold bind in E. destruct (m w h) as [[a|e] h1] eqn:E1; [|discriminate]. exact (Hf a (Hm _ _ _ E1) _ _ _ E).
  Qed.
  Lemma gives_any {A} (m : M A) : gives m (fun _ => True).
  Proof. intros h a h' _. exact I. Qed.
  Lemma gives_impl {A} (m : M A) (Q Q' : A -> Prop) : (forall a, Q a -> Q' a) -> gives m Q -> gives m Q'.
  Proof. intros Hi Hm h a h' E. eapply Hi, Hm, E. Qed.

  Lemma pure_ret {A B} (g : A -> B) : pure (fun a => ret (g a)).
  Proof. exists g. reflexivity. Qed.

  Lemma pure_all ms : Forall pure ms -> pure (pm_all ms).
  Proof.
    induction 1 as [|m ms (g & Hg) _ (g' & Hg')]; [now exists (fun _ => true)|]. exists (fun p => g p && g' p). intros p h. cbn [pm_all]. unfold bind.
    rewrite Hg. destruct (g p); [apply Hg'|reflexivity].
  Qed.
  Lemma pure_any ms : Forall pure ms -> pure (pm_any ms).
  Proof.
    induction 1 as [|m ms (g & Hg) _ (g' & Hg')]; [now exists (fun _ => false)|]. exists (fun p => g p || g' p). intros p h. cbn [pm_any]. unfold bind.
    rewrite Hg. destruct (g p); [reflexivity|apply Hg'].
  Qed.
  Lemma pure_none ms : Forall pure ms -> pure (pm_none ms).
  Proof.
    induction 1 as [|m ms (g & Hg) _ (g' & Hg')]; [now exists (fun _ => true)|]. exists (fun p => negb (g p) && g' p). intros p h. cbn [pm_none]. unfold bind.
    rewrite Hg. destruct (g p); [reflexivity|apply Hg'].
  Qed.

  Lemma map_all_gives l : Forall (fun m => gives (map_matcher T m) pure) l -> gives (map_all T l) (fun r => exists ms, r = map Some ms /\ Forall pure ms).
  Proof.
    induction 1 as [|x l Hx Hl IH]; cbn [map_all].
    - apply gives_ret. now exists [].
    - eapply gives_bind; [exact Hx|]. intros c Hc. eapply gives_bind; [exact IH|]. intros r (ms & -> & Hms). apply gives_ret. exists (c :: ms).
      split; [reflexivity|]. now constructor.
  Qed.

  Lemma combined_gives ms md : Forall pure ms -> gives (lift_res (combine_matchers (map Some ms) md)) pure.
  Proof.
    intros H h c h' E. unfold lift_res, combine_matchers in E. rewrite check_non_null_spec in E. destruct ms as [|m ms]; [discriminate|].
    injection E as <- _. destruct md; [apply (pure_all _ H)|apply (pure_any _ H)|apply (pure_none _ H)].
  Qed.

  Lemma glob_gives g : gives (glob_matcher g) pure.
  Proof.
    unfold glob_matcher. intros h c h' E. unfold bind, get_jvm in E. destruct (jv_glob (w_jvm w) g) as [f|]; [|discriminate]. injection E as <- _. now exists f.
  Qed.

  Lemma map_matcher_gives m : gives (map_matcher T m) pure.
  Proof.
    apply (xmatcher_ind' (fun m => gives (map_matcher T m) pure)); clear m; try (apply gives_throw); try (apply gives_ret; apply pure_ret).
    - intros l H. pose proof (map_all_gives l H) as K.
      repeat split; (eapply gives_bind; [exact K|]; intros r (ms & -> & Hms); now apply combined_gives).
    - intro g. cbn [map_matcher]. eapply gives_bind; [apply gives_any|]. intros g' _. unfold pm_name_glob.
      destruct (jeqb g' s_star); [apply gives_ret, pure_ret|]. eapply gives_bind; [apply glob_gives|]. intros c (f & Hc). apply gives_ret.
      exists (fun p => match get_file_name p with None => false | Some n => f n end). intros p h. destruct (get_file_name p); [apply Hc|reflexivity].
    - intro g. cbn [map_matcher]. eapply gives_bind; [apply gives_any|]. intros g' _. unfold pm_relative_path_glob.
      destruct (jeqb g' s_star); [apply gives_ret, pure_ret|]. eapply gives_bind; [apply glob_gives|]. intros c (f & Hc).
      unfold pm_relative_path. eapply gives_bind; [apply gives_any|]. intros r _. apply gives_ret.
      exists (fun p => f (relativize r (to_absolute (jv_cwd (w_jvm w)) (normalize p)))). intros p h. unfold bind, clean_path, bind, get_jvm, ret. apply Hc.
  Qed.

  Lemma pure_limit_rule m n : pure m -> pure (limit_rule m n).
  Proof.
    intros (g & Hg). exists (fun p => if g p then n else (-1)%Z). intros p h. unfold limit_rule, bind. rewrite Hg. now destruct (g p).
  Qed.
  Lemma pure_limit_loop rs : Forall pure rs -> forall d, pure (limit_loop d rs).
  Proof.
    induction 1 as [|r rs (g & Hg) _ IH]; intro d; [now exists (fun _ => d)|].
    exists (fun p => if (0 <=? g p)%Z then g p else match fst (limit_loop (g p) rs p w []) with Ok z => z | Throw _ => 0%Z end).
    intros p h. cbn [limit_loop]. unfold bind. rewrite Hg. destruct (0 <=? g p)%Z; [reflexivity|]. destruct (IH (g p)) as (g' & Hg'). now rewrite !Hg'.
  Qed.
  Lemma map_items_gives l : forall b, Forall pure (lb_limits b) -> gives (map_items T b l) (fun b' => Forall pure (lb_limits b')).
  Proof.
    induction l as [|i l IH]; intros b Hb; cbn [map_items]; [now apply gives_ret|].
    eapply gives_bind; [apply gives_any|]. intros i' _. eapply gives_bind; [apply map_matcher_gives|]. intros m Hm.
    eapply gives_bind; [apply gives_any|]. intros n _. apply IH. cbn [limit_step limit_add lb_limits]. apply Forall_app. split; [exact Hb|].
    constructor; [|constructor]. now apply pure_limit_rule.
  Qed.

  Lemma pure_ext_loop rs : Forall pure rs -> forall d, pure (ext_loop d rs).
  Proof.
    induction 1 as [|r rs (g & Hg) _ IH]; intro d; [now exists (fun _ => d)|].
    exists (fun p => if is_some (g p) then g p else match fst (ext_loop (g p) rs p w []) with Ok z => z | Throw _ => None end).
    intros p h. cbn [ext_loop]. unfold bind. rewrite Hg. destruct (is_some (g p)); [reflexivity|]. destruct (IH (g p)) as (g' & Hg'). now rewrite !Hg'.
  Qed.
  Lemma map_extensions_gives l : forall b, Forall pure b -> gives (map_extensions T b l) (Forall pure).
  Proof.
    induction l as [|i l IH]; intros b Hb; cbn [map_extensions]; [now apply gives_ret|].
    eapply gives_bind; [apply gives_any|]. intros i' _. eapply gives_bind; [apply map_matcher_gives|]. intros m (g & Hm).
    apply IH. cbn [ext_step]. apply Forall_app. split; [exact Hb|].
    constructor; [|constructor]. exists (fun p => if g p then xe_extension i' else None). intros p h. unfold ext_rule, bind. rewrite Hm. now destruct (g p).
  Qed.

  Record total (o : options) : Prop := mkTotal {
    to_dir : pure (o_dir_matcher o);
    to_file : pure (o_file_matcher o);
    to_limit : pure (o_child_limit o);
    to_ext : match o_line_extension o with None => True | Some f => pure f end
  }.

  Lemma map_to_options_total x : gives (map_to_options T x) total.
  Proof.
    unfold map_to_options.
    eapply gives_bind with (Q := total).
    { unfold map_emojis. assert (total default_options) as H by (constructor; try apply pure_ret; exact I).
      destruct (x_emojis x) as [[]|]; [|now apply gives_ret..].
      eapply gives_bind; [apply gives_any|]. intros j _. eapply gives_bind; [apply gives_any|]. intros e _. apply gives_ret.
      destruct H; constructor; assumption. }
    intros o0 H0. eapply gives_bind with (Q := total).
    { unfold map_compact. destruct (x_compact x) as [[]|]; apply gives_ret; destruct H0; constructor; assumption. }
    intros o1 H1. eapply gives_bind with (Q := total).
    { unfold map_max_depth. destruct (x_max_depth x); apply gives_ret; destruct H1; constructor; assumption. }
    intros o2 H2. eapply gives_bind with (Q := total).
    { unfold map_child_limit. destruct (x_child_limit x) as [[n|l]|]; [| |now apply gives_ret].
      - eapply gives_bind; [apply gives_any|]. intros n' _. apply gives_ret. destruct H2; constructor; try assumption. apply pure_ret.
      - eapply gives_bind; [apply gives_any|]. intros l' _. eapply gives_bind; [apply map_items_gives; constructor|]. intros b Hb. apply gives_ret.
        destruct H2; constructor; try assumption. apply (pure_limit_loop _ Hb). }
    intros o3 H3. eapply gives_bind with (Q := total).
    { unfold ExtOptions.map_filter. destruct (x_filter x) as [[d f]|]; [|now apply gives_ret]. cbn [xf_dir xf_file].
      eapply gives_bind with (Q := total).
      - assert (gives (m' <- map_matcher T d; ret (filter_directories m' o3)) total) as K.
        { eapply gives_bind; [apply map_matcher_gives|]. intros c Hc. apply gives_ret. destruct H3; constructor; assumption. }
        destruct d; try exact K. now apply gives_ret.
      - intros o4 H4.
        assert (gives (m' <- map_matcher T f; ret (filter_files m' o4)) total) as K.
        { eapply gives_bind; [apply map_matcher_gives|]. intros c Hc. apply gives_ret. destruct H4; constructor; assumption. }
        destruct f; try exact K. now apply gives_ret. }
    intros o4 H4. unfold map_line_extensions. destruct (x_line_extensions x) as [l|]; [|now apply gives_ret].
    eapply gives_bind; [apply map_extensions_gives; constructor|]. intros b Hb. apply gives_ret. destruct H4; constructor; try assumption.
    apply (pure_ext_loop _ Hb None).
  Qed.

  Lemma pure_answers {A B} (f : A -> M B) g : (forall a h, f a w h = (Ok (g a), h)) -> answers w f g.
  Proof. intros H a h. exists h. apply H. Qed.

  (** ** Emojis *)
  Lemma no_matchers_emoji be now dk : steady w dk -> eb_dir_matchers now = [] -> eb_file_matchers now = [] ->
    exists g, answers w (built_emoji_apply be now) g.
  Proof.
    intros Hw H1 H2. exists (fun p => match fst (built_emoji_apply be now p w []) with Ok r => r | Throw _ => None end). intros p h.
    assert (K : forall h, exists r, built_emoji_apply be now p w h = (Ok r, EvLstat p (d_kind dk p) :: h) /\ r = match fst (built_emoji_apply be now p w []) with Ok r => r | Throw _ => None end).
    { intro h0. unfold built_emoji_apply, default_emoji_mapping. rewrite H1, H2. cbn [sequential_emoji path_matcher_emoji].
      unfold pm_is_directory, has_kind, lstat, path_name_emoji, path_extension_emoji, bind, get_jvm, ret. destruct Hw as (L & _). rewrite !L.
      destruct (match d_kind dk p with Some k' => kind_eqb k' KDir | None => false end); destruct (get_file_name p) as [n|].
      - cbn [is_some]. destruct (smap_get _ _); eexists; split; reflexivity.
      - eexists; split; reflexivity.
      - cbn [is_some]. destruct (smap_get _ _); cbn [is_some]; [eexists; split; reflexivity|]. destruct (first_mapped _ _); eexists; split; reflexivity.
      - eexists; split; reflexivity. }
    destruct (K h) as (r & E & Er). rewrite E, <- Er. eexists. reflexivity.
  Qed.
End Total.

Section Document.
  Context (w : world) (dk : disk) (T : list jstring) (x : xoptions).
  Hypothesis Hw : steady w dk.
  Hypothesis HT : Forall real_name T.
  Hypothesis Hx : acceptable x.
  Hypothesis Hl : x_emojis x = Some true -> forall k v, default_names k v \/ default_exts k v -> jv_lower (w_jvm w) k = k.

  Lemma document_settings h o h' : map_to_options (mkPath true T) x w h = (Ok o, h') ->
    h' = h /\ exists st v, uses w o st /\ sees w o v /\ o_tree_format o = o_tree_format default_options /\ follows (w_jvm w) dk T x st v.
  Proof.
    intro E. destruct (C77_lemma w (mkPath true T) x h o h' eq_refl Hx Hl E) as (-> & D). split; [reflexivity|].
    destruct (map_to_options_total w (mkPath true T) x _ _ _ E) as [(gd & Gd) (gf & Gf) (gl & Gl) Ge].
    destruct D as (D1 & D2 & D3 & D4 & D5 & D6 & D7 & D8). cbn [p_names] in D8.
    assert (exists ge, extension_is w o ge /\ forall rest, Forall real_name rest ->
      ge (mkPath true (T ++ rest)) = match x_line_extensions x with Some l => first_extension (meaning (w_jvm w) T rest) l | None => None end) as (ge & E1 & E2).
    { unfold extension_is. destruct (o_line_extension o) as [f|] eqn:Ef.
      - destruct Ge as (g & Hg). exists g. split; [now apply pure_answers|]. intros rest Hr. destruct (x_line_extensions x) as [l|] eqn:El; [|now specialize (D7 eq_refl)].
        destruct (D8 rest h) as (_ & _ & _ & H); [now apply Forall_app|]. destruct (H l eq_refl) as (f' & Ef' & H'). injection Ef' as <-. rewrite Hg in H'. congruence.
      - exists (fun _ => None). split; [reflexivity|]. intros rest Hr. destruct (x_line_extensions x) as [l|] eqn:El; [|reflexivity].
        destruct (D8 rest h) as (_ & _ & _ & H); [now apply Forall_app|]. destruct (H l eq_refl) as (f' & Ef' & _). discriminate. }
    assert (exists gm, answers w (o_emoji o) gm /\ (forall p, x_emojis x <> Some true -> gm p = None) /\
      (forall p, x_emojis x = Some true -> is_dir dk p -> gm p = Some DEFAULT_DIR_EMOJI) /\
      (forall p, x_emojis x = Some true -> ~ is_dir dk p ->
        exists e, gm p = Some e /\ own_emoji (jv_lower (w_jvm w)) default_names default_exts DEFAULT_FILE_EMOJI p e)) as (gm & M1 & M2 & M3 & M4).
    { destruct (x_emojis x) as [[]|] eqn:Em.
      - specialize (Hl eq_refl). destruct (C73_lemma w Hl) as (f & Ef & Hf). specialize (D5 eq_refl). rewrite Ef in D5. injection D5 as <-.
        unfold emoji_create_default in Ef. destruct (emoji_build _ _) as [be|]; [|discriminate].
        destruct (no_matchers_emoji w be emoji_builder_default dk Hw eq_refl eq_refl) as (g & Hg). assert (f = built_emoji_apply be emoji_builder_default) as -> by congruence.
        clear Ef. destruct Hw as (L & _).
        exists g. split; [exact Hg|]. split; [intros p []; reflexivity|]. split; intros p _ Hp; destruct (Hf p []) as (e & E' & He1 & He2); destruct (Hg p []) as (h1 & Eg); rewrite E' in Eg;
          injection Eg as Eg _; rewrite L in *; [rewrite <- Eg; f_equal; now apply He1|]. exists e. split; [now symmetry|]. now apply He2.
      - exists (fun _ => None). rewrite D6 by discriminate. split; [intros p h1; now exists h1|]. split; [reflexivity|]. split; discriminate.
      - exists (fun _ => None). rewrite D6 by discriminate. split; [intros p h1; now exists h1|]. split; [reflexivity|]. split; discriminate. }
    exists (mkSettings gd gf gl alphabetical (o_max_depth o)), (mkView ge gm (o_compact o)). split; [|split; [|split]].
    - split; [now apply pure_answers|]. split; [now apply pure_answers|]. split; [now apply pure_answers|]. split; [|reflexivity].
      intro a. rewrite D2. apply answers_alphabetical.
    - split; [exact E1|]. split; [exact M1|reflexivity].
    - exact D1.
    - constructor; cbn [s_depth s_cmp s_dirs s_files s_limit v_compact v_emoji v_ext]; try assumption.
      + apply contract_alphabetical.
      + apply TreeFacts.alphabetical_lt.
      + intros rest Hr. destruct (D8 rest h) as (H & _); [now apply Forall_app|]. rewrite Gd in H. congruence.
      + intros rest Hr. destruct (D8 rest h) as (_ & H & _); [now apply Forall_app|]. rewrite Gf in H. congruence.
      + intros rest Hr. destruct (D8 rest h) as (_ & _ & (z & H & Hz) & _); [now apply Forall_app|]. rewrite Gl in H. assert (gl (mkPath true (T ++ rest)) = z) as -> by congruence. exact Hz.
  Qed.

  Lemma location_real : location w (mkPath true T) = mkPath true T.
  Proof.
    unfold location, to_absolute, normalize. cbn [p_abs p_names]. f_equal. apply norm_names_plain. eapply Forall_impl; [|exact HT]. intros n (_ & H1 & H2). now split.
  Qed.

  Theorem document_tree h o h1 out h2 : map_to_options (mkPath true T) x w h = (Ok o, h1) -> pretty_print o (mkPath true T) w h1 = (Ok out, h2) ->
    shows_document (w_jvm w) dk T x out.
  Proof.
    intros E P. destruct (document_settings h o h1 E) as (-> & st & v & Hu & Hs & Hf & F).
    destruct (print_tree _ _ _ _ _ _ _ _ _ Hw Hu Hs P) as (e & s & Ht & Hsh & Ho). rewrite location_real in Ht. rewrite Hf in Ho.
    exists st, v, e, s. auto.
  Qed.
End Document.

(** ** The document and the disk determine the text *)

Lemma table_fun (l : list (jstring * jstring)) k v v' : NoDup (map fst l) -> In (k, v) l -> In (k, v') l -> v = v'.
Proof. intros Hn H H'. apply (smap_in_get k v l Hn) in H. apply (smap_in_get k v' l Hn) in H'. congruence. Qed.

Lemma by_name_fun lower (K : keys) n e e' : (forall k v v', K k v -> K k v' -> v = v') -> (forall k v, K k v -> lower k = k) ->
  by_name lower K n e -> by_name lower K n e' -> e = e'.
Proof.
  intros Kf Kl (k & H1 & H2) (k' & H1' & H2'). assert (k = k') as <- by (rewrite <- (Kl k e), <- (Kl k' e') by assumption; congruence). eapply Kf; eassumption.
Qed.

Lemma by_extension_fun lower (K : keys) n e e' : (forall k v v', K k v -> K k v' -> v = v') -> (forall k v, K k v -> lower k = k) ->
  by_extension lower K n e -> by_extension lower K n e' -> e = e'.
Proof.
  intros Kf Kl (k & H1 & H2 & H3) (k' & H1' & H2' & H3').
  assert (lower k = lower k') as E.
  { pose proof (H3 k' e' H1' H2') as L1. pose proof (H3' k e H1 H2) as L2. destruct H2 as (c & i & b & E1 & E2 & E3), H2' as (c' & i' & b' & E1' & E2' & E3').
    assert (c = c') as <- by (eapply strip_dots_unique; [rewrite <- E1; exact E1'|exact E2|exact E2']).
    rewrite E3 in E3'. apply (f_equal (skipn (length b + 1))) in E3' as E4. assert (length b = length b') as Lb.
    { apply (f_equal (@length _)) in E3'. rewrite !app_length in E3'. cbn [length] in E3'. lia. }
    rewrite Lb in E4 at 2. rewrite !skipn_app, !skipn_all2 in E4 by lia. rewrite Nat.add_comm, Nat.add_sub in E4. rewrite (Nat.add_comm (length b')), Nat.add_sub in E4.
    rewrite (skipn_all2 b') in E4 by lia. exact E4. }
  rewrite (Kl k e), (Kl k' e') in E by assumption. subst k'. eapply Kf; eassumption.
Qed.

Lemma ends_fun p n n' : ends_with_name p n -> ends_with_name p n' -> n = n'.
Proof.
  intros H H'. remember p as q eqn:Eq in H'. destruct H as [a l m|], H' as [a' l' m'|].
  - injection Eq as _ E. apply app_inj_tail in E. symmetry. apply E.
  - destruct l; discriminate.
  - destruct l'; discriminate.
  - reflexivity.
Qed.

Lemma own_emoji_fun lower (names exts : keys) d p e e' :
  (forall k v v', names k v -> names k v' -> v = v') -> (forall k v v', exts k v -> exts k v' -> v = v') ->
  (forall k v, names k v \/ exts k v -> lower k = k) ->
  own_emoji lower names exts d p e -> own_emoji lower names exts d p e' -> e = e'.
Proof.
  intros N1 X1 Hl H H'. destruct H as [n A B|n A B C|A ->], H' as [n' A' B'|n' A' B' C'|A' ->]; try reflexivity.
  - rewrite (ends_fun _ _ _ A' A) in B'. eapply by_name_fun; [exact N1| |exact B|exact B']. intros; eapply Hl; left; eassumption.
  - rewrite (ends_fun _ _ _ A' A) in B'. now apply B' in B.
  - now apply (A' n e A) in B.
  - rewrite (ends_fun _ _ _ A' A) in B'. now apply B in B'.
  - rewrite (ends_fun _ _ _ A' A) in C'. eapply by_extension_fun; [exact X1| |exact C|exact C']. intros; eapply Hl; right; eassumption.
  - now apply (A' n e A) in C.
  - now apply (A n' e' A') in B'.
  - now apply (A n' e' A') in C'.
Qed.

(** Negative limits are all the same. *)
Definition plain_limits (st : settings) : settings :=
  mkSettings (s_dirs st) (s_files st) (fun p => if (s_limit st p <? 0)%Z then (-1)%Z else s_limit st p) (s_cmp st) (s_depth st).

Lemma same_limited z (l : list path) : limited (if (z <? 0)%Z then (-1)%Z else z) l = limited z l.
Proof. unfold limited. destruct (Z.ltb_spec z 0); [reflexivity|]. now destruct (Z.ltb_spec z 0); [lia|]. Qed.
Lemma same_marker z (l : list path) p : marker (if (z <? 0)%Z then (-1)%Z else z) l p = marker z l p.
Proof. unfold marker. destruct (Z.ltb_spec z 0); [|reflexivity]. now destruct (Z.leb_spec 0 z); [lia|]. Qed.

Lemma tree_plain_limits st dk e : forall d p, tree_at (plain_limits st) dk d p e <-> tree_at st dk d p e.
Proof.
  induction e as [r es IH|f k|r|n] using RenderFacts.entry_ind'; intros d p; split; intro H;
    inversion H as [? ? ? Hnd Hk|? ? Hd Hm|? ? names order es0 Hd Hm Hl Hord HF]; subst.
  - now apply tree_cut.
  - cbn [s_limit plain_limits] in *. rewrite same_marker in *. eapply tree_dir; [exact Hd|exact Hm|exact Hl|exact Hord|]. rewrite same_limited in HF.
    apply Forall_app in IH. destruct IH as [IH _]. clear -HF IH. induction HF as [|c e cs es Hce HF IHF]; constructor; inversion IH; subst; [now apply H1|now apply IHF].
  - now apply tree_cut.
  - rewrite <- same_marker. eapply (tree_dir (plain_limits st)); [exact Hd|exact Hm|exact Hl|exact Hord|]. cbn [s_limit plain_limits]. rewrite same_limited.
    apply Forall_app in IH. destruct IH as [IH _]. clear -HF IH. induction HF as [|c e cs es Hce HF IHF]; constructor; inversion IH; subst; [now apply H1|now apply IHF].
  - now apply tree_file.
  - now apply tree_file.
Qed.

Lemma same_limits z z' e : same_limit z e -> same_limit z' e -> (if (z <? 0)%Z then (-1)%Z else z) = (if (z' <? 0)%Z then (-1)%Z else z').
Proof.
  unfold same_limit. intros [H1 H2] [H1' H2']. destruct e as [n|].
  - destruct (Z.le_gt_cases 0 n) as [Hn|Hn]; [now rewrite (H1 Hn), (H1' Hn)|]. specialize (H2 Hn). specialize (H2' Hn).
    destruct (Z.ltb_spec z 0), (Z.ltb_spec z' 0); lia.
  - specialize (H2 I). specialize (H2' I). destruct (Z.ltb_spec z 0), (Z.ltb_spec z' 0); lia.
Qed.

Lemma named_order (c : ordering) : contract c -> (forall a b, (c a b < 0)%Z <-> name_lt (last_name a) (last_name b)) -> configured_order c.
Proof.
  intros Hc Hn. exists (fun _ _ => 0%Z). split; [repeat split; intros; lia|]. intros a b. destruct Hc as (Ha & _). specialize (Ha a b).
  unfold refined. rewrite <- !Hn. lia.
Qed.

Lemma listed_real dk r ns : real_listings dk -> listed dk r ns -> Forall real_name ns.
Proof.
  intros Hr H. induction H as [|ns l n H IH _ Hl Hin]; [constructor|]. apply Forall_app. split; [exact IH|]. constructor; [|constructor].
  apply Hr in Hl. rewrite Forall_forall in Hl. auto.
Qed.

Section Unique.
  Context (j : jvm) (dk : disk) (T : list jstring) (x : xoptions).
  Hypothesis Hr : real_listings dk.
  Hypothesis Hl : x_emojis x = Some true -> forall k v, default_names k v \/ default_exts k v -> jv_lower j k = k.

  Lemma follows_settings st v st' v' : follows j dk T x st v -> follows j dk T x st' v' ->
    same_settings dk (plain_limits st) (mkPath true T) (plain_limits st') (mkPath true T).
  Proof.
    intros F F'. split; [|split].
    - intros ns Hns _. apply (listed_real _ _ _ Hr) in Hns. unfold deeper. cbn [p_abs p_names s_dirs s_files plain_limits].
      rewrite (fo_dirs _ _ _ _ _ _ F ns Hns), (fo_dirs _ _ _ _ _ _ F' ns Hns), (fo_files _ _ _ _ _ _ F ns Hns), (fo_files _ _ _ _ _ _ F' ns Hns). now split.
    - intros ns Hns. apply (listed_real _ _ _ Hr) in Hns. unfold deeper. cbn [p_abs p_names s_limit plain_limits].
      eapply same_limits; [exact (fo_limit _ _ _ _ _ _ F ns Hns)|exact (fo_limit _ _ _ _ _ _ F' ns Hns)].
    - intros ns a b _ _. cbn [s_cmp plain_limits]. set (p := deeper _ _). set (q := deeper _ _).
      destruct F as [_ O N _ _ _ _ _ _ _ _], F' as [_ O' N' _ _ _ _ _ _ _ _]. destruct O as (A & _), O' as (A' & _). specialize (A p q). specialize (A' p q).
      pose proof (N p q). pose proof (N q p). pose proof (N' p q). pose proof (N' q p). 
      assert ((s_cmp st p q < 0 <-> s_cmp st' p q < 0)%Z) by tauto. assert ((s_cmp st q p < 0 <-> s_cmp st' q p < 0)%Z) by tauto. lia.
  Qed.

  Lemma follows_view st v st' v' : follows j dk T x st v -> follows j dk T x st' v' -> same_view dk v (mkPath true T) v' (mkPath true T).
  Proof.
    intros F F'. split.
    - destruct F as [_ _ _ C _ _ _ _ _ _ _], F' as [_ _ _ C' _ _ _ _ _ _ _]. destruct (v_compact v), (v_compact v'); try reflexivity.
      + symmetry. apply C', C. reflexivity.
      + apply C, C'. reflexivity.
    - intros ns Hns. apply (listed_real _ _ _ Hr) in Hns. unfold deeper. cbn [p_abs p_names].
      rewrite (fo_extension _ _ _ _ _ _ F ns Hns), (fo_extension _ _ _ _ _ _ F' ns Hns). split; [reflexivity|]. set (p := mkPath _ _).
      assert (x_emojis x = Some true \/ x_emojis x <> Some true) as [E|E] by (destruct (x_emojis x) as [[]|]; [now left|now right..]).
      + assert (is_dir dk p \/ ~ is_dir dk p) as [D|D] by (unfold is_dir; destruct (d_kind dk p) as [[]|]; [right; discriminate|now left|right; discriminate..]).
        * now rewrite (fo_dir_emoji _ _ _ _ _ _ F p E D), (fo_dir_emoji _ _ _ _ _ _ F' p E D).
        * destruct (fo_file_emoji _ _ _ _ _ _ F p E D) as (e & -> & H), (fo_file_emoji _ _ _ _ _ _ F' p E D) as (e' & -> & H'). f_equal.
          eapply own_emoji_fun; [| |exact (Hl E)|exact H|exact H'].
          -- intros k a b. apply table_fun. apply (init_names_nodup FromDefault).
          -- intros k a b. apply table_fun. apply (init_exts_nodup FromDefault).
      + now rewrite (fo_no_emoji _ _ _ _ _ _ F p E), (fo_no_emoji _ _ _ _ _ _ F' p E).
  Qed.

  Lemma follows_move st v st' v' e s : follows j dk T x st v -> follows j dk T x st' v' ->
    tree_at st dk 0 (mkPath true T) e -> shows v true e s ->
    exists e' s', tree_at st' dk 0 (mkPath true T) e' /\ shows v' true e' s' /\ labelled v' s' = labelled v s.
  Proof.
    intros F F' Ht Hs. set (r := mkPath true T) in *.
    pose proof (tree_move r r (plain_limits st) (plain_limits st') dk dk 0 (refl_content dk r)
      (named_order _ (fo_order _ _ _ _ _ _ F) (fo_names _ _ _ _ _ _ F)) (follows_settings _ _ _ _ F F')) as Hm.
    assert (s_depth (plain_limits st) + 0 = s_depth (plain_limits st'))%Z as Ed.
    { cbn [s_depth plain_limits]. rewrite (fo_depth _ _ _ _ _ _ F), (fo_depth _ _ _ _ _ _ F'). apply Z.add_0_r. }
    specialize (Hm Ed e [] 0%Z (listed_start dk r)). rewrite !under_nil in Hm. specialize (Hm (proj2 (tree_plain_limits st dk e 0 r) Ht)).
    apply (proj1 (tree_plain_limits st' _ _ _ _)) in Hm.
    destruct (move_shows r r dk v v' (follows_view _ _ _ _ F F') eq_refl 0 e (tree_listed _ _ _ _ _ Ht) true s Hs) as [Hs' El].
    eexists _, _. split; [exact Hm|]. split; [exact Hs'|exact El].
  Qed.
End Unique.

Theorem document_text w dk T x h o h1 out :
  steady w dk -> distinct_names dk -> real_listings dk -> Forall real_name T -> T <> [] -> acceptable x ->
  (x_emojis x = Some true -> forall k v, default_names k v \/ default_exts k v -> jv_lower (w_jvm w) k = k) ->
  map_to_options (mkPath true T) x w h = (Ok o, h1) ->
  (exists h2, pretty_print o (mkPath true T) w h1 = (Ok out, h2)) <-> shows_document (w_jvm w) dk T x out.
Proof.
  intros Hw Hd Hr HT Hne Hx Hl E. split.
  - intros (h2 & P). eapply document_tree; eassumption.
  - intros (st' & v' & e' & s' & F' & Ht & Hs & ->). destruct (document_settings w dk T x Hw HT Hx Hl h o h1 E) as (-> & st & v & Hu & Hv & Hf & F).
    destruct (follows_move (w_jvm w) dk T x Hr Hl _ _ _ _ _ _ F' F Ht Hs) as (e & s & Ht1 & Hs1 & El).
    destruct (print_complete o (mkPath true T) w dk st v e Hw Hd Hu Hv) as (s2 & Hs2 & Hy).
    + apply named_order; [exact (fo_order _ _ _ _ _ _ F)|exact (fo_names _ _ _ _ _ _ F)].
    + now rewrite location_real.
    + now rewrite location_real.
    + rewrite (shows_fun _ _ _ _ _ Hs2 Hs1), El, Hf in Hy. apply Hy.
Qed.

Theorem document_shown w dk T x :
  steady w dk -> Forall real_name T -> T <> [] -> acceptable x ->
  (x_emojis x = Some true -> forall k v, default_names k v \/ default_exts k v -> jv_lower (w_jvm w) k = k) ->
  (forall g, In g (all_globs x) -> good_glob (w_jvm w) g) -> all_can_be_read dk (mkPath true T) ->
  exists out, shows_document (w_jvm w) dk T x out.
Proof.
  intros Hw HT Hne Hx Hl Hg Ha. destruct (C55_lemma w (mkPath true T) x [] eq_refl Hx Hl) as (r & E & (_ & Hok) & _).
  destruct (Hok Hg) as (o & ->). destruct (document_settings w dk T x Hw HT Hx Hl [] o [] E) as (_ & st & v & Hu & Hv & Hf & F).
  destruct (pretty_print_returns o (mkPath true T) w dk st v Hw Hu Hv) as (out & Hout).
  - rewrite location_real by exact HT. intros d p Hp. apply reach_listed in Hp as (ns & Hns & ->). destruct (Ha ns Hns) as [H1 H2]. split.
    + intros Hd _. destruct (d_list dk _) as [l|]; [|now destruct (H1 Hd)]. exists l. split; [reflexivity|left].
      apply configured_contract, named_order; [exact (fo_order _ _ _ _ _ _ F)|exact (fo_names _ _ _ _ _ _ F)].
    + intro Hd. destruct (d_attr dk _) as [k|]; [now exists k|]. now destruct (H2 Hd).
  - now rewrite location_real.
  - exists out. destruct (Hout []) as (h' & P). eapply (document_tree w dk T x Hw HT Hx Hl); eassumption.
Qed.

Lemma empty_acceptable : acceptable bare_document.
Proof. constructor; discriminate. Qed.

Lemma chosen_acceptable w fs a T ex x : chooses w fs a T ex (UseDocument x) -> acceptable x.
Proof.
  intro H. inversion H as [? ? ? ? ? (_ & _ & _ & _ & Ha)| | |here home ? ? Ea H1 H2 Hf]; subst; [exact Ha|]. clear -Hf.
  remember (UseDocument x) as sel. induction Hf as [| |? ? ? (_ & _ & _ & _ & Ha)|]; try discriminate; [auto|]. injection Heqsel as ->. exact Ha.
Qed.

Lemma followed_effective w T h sel x o h1 : followed sel x -> map_to_options T x (cw_world w) h = (Ok o, h1) -> effective w T h sel o h1.
Proof.
  intros [->|[-> ->]] E; [now constructor|]. cbn in E. assert (o = default_options /\ h1 = h) as [-> ->]; [|constructor].
  unfold map_to_options, bind, ret in E. cbn in E. injection E as <- <-. now split.
Qed.

Theorem command_document w fs a T ex sel x dk s :
  steady_files w fs -> usual_linesep (cw_linesep w) -> a_debug a = false ->
  resolved (jv_cwd (w_jvm (cw_world w))) (asked_target a) T -> f_exists fs T = true ->
  chooses w fs a T ex sel -> followed sel x ->
  steady (cw_world w) dk -> distinct_names dk -> real_listings dk -> Forall real_name (p_names T) -> p_names T <> [] ->
  let j := w_jvm (cw_world w) in
  (x_emojis x = Some true -> forall k v, default_names k v \/ default_exts k v -> jv_lower j k = k) ->
  let code := fst (run_cli a w s) in
  let s' := snd (run_cli a w s) in
  (forall text, (forall g, In g (all_globs x) -> good_glob j g) -> shows_document j dk (p_names T) x text ->
     (forall out, written_as (cw_linesep w) text out -> code = 0%Z /\ cs_out s' = cs_out s ++ out ++ cw_linesep w /\ cs_err s' = cs_err s) /\
     ((forall out, ~ written_as (cw_linesep w) text out) ->
        code = 1%Z /\ (exists b, begun (cw_linesep w) text b /\ cs_out s' = cs_out s ++ b) /\
        exists err, error_output w (js "Error while pretty printing: " ++ cw_message w (XFormat (text ++ cw_linesep w))) err /\
          cs_err s' = cs_err s ++ err)) /\
  (~ ((forall g, In g (all_globs x) -> good_glob j g) /\ exists text, shows_document j dk (p_names T) x text) ->
     code = 1%Z /\ cs_out s' = cs_out s /\ exists msg err, error_output w msg err /\ cs_err s' = cs_err s ++ err).
Proof.
  intros Hf Hls Hdb HT Hex Hch Hfo Hw Hd Hr Hreal Hne j Hl code s'.
  assert (HTe : T = mkPath true (p_names T)). { destruct HT as (Ha & _). destruct T as [ab l]. cbn in *. now subst ab. }
  assert (Hx : acceptable x). { destruct Hfo as [->|[-> ->]]; [now apply chosen_acceptable in Hch|apply empty_acceptable]. }
  destruct (C55_lemma (cw_world w) T x (cs_hist s)) as (r & E & (Hok1 & Hok2) & _); [now rewrite HTe|exact Hx|exact Hl|]. split.
  - intros out Hg Hs. destruct (Hok2 Hg) as (o & ->). pose proof (followed_effective w T _ _ _ _ _ Hfo E) as He.
    rewrite HTe in E. destruct (proj2 (document_text (cw_world w) dk (p_names T) x (cs_hist s) o (cs_hist s) out Hw Hd Hr Hreal Hne Hx Hl E) Hs) as (h2 & P).
    rewrite <- HTe in P. exact (text_written w Hls fs a T ex sel s Hf Hdb HT Hex Hch o _ out h2 He P).
  - intro Hn. assert (exists msg, fails w T (cs_hist s) sel msg) as (msg & Hfail).
    { destruct r as [o|e].
      - pose proof (followed_effective w T _ _ _ _ _ Hfo E) as He. destruct (pretty_print o T (cw_world w) (cs_hist s)) as [[out|e] h2] eqn:P.
        + exfalso. apply Hn. split; [apply Hok1; now exists o|]. exists out. rewrite HTe in E, P. eapply (document_tree (cw_world w)); eassumption.
        + destruct (explains_something w e) as (m & Hm). eexists. eapply fl_printing; eassumption.
      - destruct Hfo as [->|[-> ->]]; [destruct (explains_something w e) as (m & Hm); eexists; eapply fl_mapping; eassumption|discriminate]. }
    destruct (error_written w Hls fs a T ex sel s Hf Hdb HT Hex Hch msg Hfail) as (H1 & H2 & err & H3). split; [exact H1|]. split; [exact H2|]. now exists msg, err.
Qed.
