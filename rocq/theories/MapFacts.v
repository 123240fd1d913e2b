(** * Facts about the mapping of options documents *)

From Verif Require Import DocFacts PathFacts MatcherFacts EmojiFacts BuilderFacts.
From Coq Require Import Lia.
Close Scope Z_scope.

(** Mapping all the matchers of a list. *)
Definition map_all (T : path) := fix go (l : list xmatcher) : M (list (option matcher)) :=
  match l with
  | [] => ret []
  | x :: l' => a <- map_matcher T x; r <- go l'; ret (Some a :: r)
  end.

Section Map.
  Context (w : world) (T : path).
  Let j := w_jvm w.

  (** The outcome of mapping: a value satisfying [Q], or the exception of a malformed glob; nothing is recorded in the history. *)
  Definition maps {A} (m : M A) (Q : A -> Prop) : Prop :=
    forall h, exists r, m w h = (r, h) /\
      match r with Ok a => Q a | Throw e => exists g, e = ExPatternSyntax g /\ jv_glob j g = None end.

  Lemma maps_ret {A} (a : A) (Q : A -> Prop) : Q a -> maps (ret a) Q.
  Proof. intros H h. exists (Ok a). now split. Qed.

  Lemma maps_bind {A B} (m : M A) (f : A -> M B) (Q : A -> Prop) (Q' : B -> Prop) :
    maps m Q -> (forall a, Q a -> maps (f a) Q') -> maps (bind m f) Q'.
  Proof.
    intros Hm Hf h. destruct (Hm h) as (r & E & Hr). unfold bind. rewrite E. destruct r as [a|e].
    - apply Hf, Hr.
    - exists (Throw e). now split.
  Qed.

  Lemma maps_impl {A} (m : M A) (Q Q' : A -> Prop) : (forall a, Q a -> Q' a) -> maps m Q -> maps m Q'.
  Proof. intros Hi Hm h. destruct (Hm h) as (r & E & Hr). exists r. split; [exact E|]. destruct r; auto. Qed.

  Lemma maps_non_null {A} (x : option A) (Q : A -> Prop) a : x = Some a -> Q a -> maps (non_null x) Q.
  Proof. intros -> H. now apply maps_ret. Qed.

  (** On the paths below the target, [c] answers the meaning of [m]. *)
  Definition mapped (m : xmatcher) (c : matcher) : Prop :=
    forall rest h, Forall real_name (p_names T ++ rest) ->
      c (mkPath true (p_names T ++ rest)) w h = (Ok (meaning j (p_names T) rest m), h).

  Lemma all_answer ms l rest h : Forall2 mapped l ms -> Forall real_name (p_names T ++ rest) ->
    pm_all ms (mkPath true (p_names T ++ rest)) w h = (Ok (forallb (meaning j (p_names T) rest) l), h).
  Proof.
    intros HF Hr. induction HF as [|x c l ms Hx HF IH]; [reflexivity|]. cbn [pm_all forallb]. unfold bind. rewrite (Hx rest h Hr).
    destruct (meaning j (p_names T) rest x); [exact IH|reflexivity].
  Qed.
  Lemma any_answer ms l rest h : Forall2 mapped l ms -> Forall real_name (p_names T ++ rest) ->
    pm_any ms (mkPath true (p_names T ++ rest)) w h = (Ok (existsb (meaning j (p_names T) rest) l), h).
  Proof.
    intros HF Hr. induction HF as [|x c l ms Hx HF IH]; [reflexivity|]. cbn [pm_any existsb]. unfold bind. rewrite (Hx rest h Hr).
    destruct (meaning j (p_names T) rest x); [reflexivity|exact IH].
  Qed.
  Lemma none_answer ms l rest h : Forall2 mapped l ms -> Forall real_name (p_names T ++ rest) ->
    pm_none ms (mkPath true (p_names T ++ rest)) w h = (Ok (negb (existsb (meaning j (p_names T) rest) l)), h).
  Proof.
    intros HF Hr. induction HF as [|x c l ms Hx HF IH]; [reflexivity|]. cbn [pm_none existsb]. unfold bind. rewrite (Hx rest h Hr).
    destruct (meaning j (p_names T) rest x); [reflexivity|exact IH].
  Qed.

  Lemma map_all_maps l : Forall (fun m => valid_matcher m = true -> maps (map_matcher T m) (mapped m)) l ->
    forallb valid_matcher l = true -> maps (map_all T l) (fun r => exists ms, r = map Some ms /\ Forall2 mapped l ms).
  Proof.
    intro HF. induction HF as [|x l Hx HF IH]; intro V; cbn [map_all].
    - apply maps_ret. now exists [].
    - cbn in V. apply andb_prop in V. destruct V as [Vx Vl]. eapply maps_bind; [apply Hx, Vx|]. intros c Hc.
      eapply maps_bind; [apply IH, Vl|]. intros r (ms & -> & Hms). apply maps_ret. exists (c :: ms). split; [reflexivity|]. now constructor.
  Qed.

  Context (Ta : p_abs T = true).

  Lemma T_self : T = mkPath true (p_names T).
  Proof. clear -Ta. destruct T as [a l]. cbn in *. now subst a. Qed.

  Lemma map_matcher_maps m : valid_matcher m = true -> maps (map_matcher T m) (mapped m).
  Proof.
    apply (xmatcher_ind' (fun m => valid_matcher m = true -> maps (map_matcher T m) (mapped m))); try discriminate; clear m.
    - intros _. apply maps_ret. intros rest h _. reflexivity.
    - intros _. apply maps_ret. intros rest h _. reflexivity.
    - intros l H. assert (K : forall mk f, (forall ms, (exists c, combine_matchers (map Some ms) mk = Ok c /\ (forall p h, c p w h = f ms p w h)) \/ ms = []) ->
        forall Q : matcher -> Prop,
        (forall ms c, Forall2 mapped l ms -> (forall p h, c p w h = f ms p w h) -> Q c) ->
        match l with x :: l' => valid_matcher x && forallb valid_matcher l' | [] => false end = true ->
        maps (ms <- map_all T l; lift_res (combine_matchers ms mk)) Q).
      { intros mk f Hf Q HQ V. eapply maps_bind; [apply map_all_maps; [exact H|]|].
        - destruct l; [discriminate|exact V].
        - intros r (ms & -> & Hms) h. destruct (Hf ms) as [(c & E & Hc)|E].
          + exists (Ok c). unfold lift_res. rewrite E. split; [reflexivity|]. eapply HQ; eauto.
          + subst ms. inversion Hms; subst. discriminate. }
      split; [|split]; intro V.
      + apply (K ALL pm_all).
        * intros [|m ms]; [now right|]. left. eexists. split; [unfold combine_matchers; rewrite check_non_null_spec; reflexivity|]. reflexivity.
        * intros ms c Hms Hc rest h Hr. rewrite Hc. now apply all_answer.
        * exact V.
      + apply (K ANY pm_any).
        * intros [|m ms]; [now right|]. left. eexists. split; [unfold combine_matchers; rewrite check_non_null_spec; reflexivity|]. reflexivity.
        * intros ms c Hms Hc rest h Hr. rewrite Hc. now apply any_answer.
        * exact V.
      + apply (K NONE pm_none).
        * intros [|m ms]; [now right|]. left. eexists. split; [unfold combine_matchers; rewrite check_non_null_spec; reflexivity|]. reflexivity.
        * intros ms c Hms Hc rest h Hr. rewrite Hc. now apply none_answer.
        * exact V.
    - intros [g|]; [|discriminate]. intros _. cbn [map_matcher].
      eapply maps_bind; [now apply (maps_non_null _ (fun x => x = g) g)|]. intros g' ->.
      intro h. destruct (C42_glob_lemma w g h) as (H1 & H2 & H3).
      destruct (jeqb_spec g s_star) as [Es|Es].
      + destruct (H1 Es) as (c & E & Hc). exists (Ok c). split; [exact E|]. intros rest h' _. rewrite Hc. cbn [meaning]. subst g. reflexivity.
      + destruct (jv_glob (w_jvm w) g) as [f|] eqn:Ef.
        * destruct (H3 f Es eq_refl) as (c & E & Hc & Hroot). exists (Ok c). split; [exact E|]. intros rest h' Hr. cbn [meaning].
          destruct (jeqb_spec g (js "*")) as [?|_]; [contradiction|]. cbn [orb].
          destruct (rev (p_names T ++ rest)) as [|n r] eqn:Er.
          -- apply (f_equal (@rev _)) in Er. rewrite rev_involutive in Er. rewrite Er. apply Hroot.
          -- apply rev_cons_app in Er. rewrite Er, Hc. unfold glob_says. fold j in Ef. now rewrite Ef.
        * exists (Throw (ExPatternSyntax g)). split; [now apply H2|]. exists g. now split.
    - intros [g|]; [|discriminate]. intros _. cbn [map_matcher].
      eapply maps_bind; [now apply (maps_non_null _ (fun x => x = g) g)|]. intros g' ->.
      unfold pm_relative_path_glob. destruct (jeqb_spec g s_star) as [Es|Es].
      + apply maps_ret. intros rest h _. cbn [meaning]. subst g. reflexivity.
      + intro h. unfold glob_matcher, bind at 1 2, get_jvm. fold j. destruct (jv_glob j g) as [f|] eqn:Ef.
        * unfold ret at 1. destruct (C37_lemma w h T (fun p => ret (f p)) (p_names T)) as (c & E & Hc & _).
          -- rewrite <- T_self. constructor.
          -- exists (Ok c). split; [exact E|]. intros rest h' Hr. cbn [meaning].
             destruct (jeqb_spec g (js "*")) as [?|_]; [contradiction|]. cbn [orb].
             rewrite (Hc _ rest h' Hr); [|constructor]. unfold glob_says. now rewrite Ef.
        * exists (Throw (ExPatternSyntax g)). split; [reflexivity|]. exists g. now split.
  Qed.

  (** *** Child limits *)
  Definition item_rule (i : option xitem) (r : limit_fn) : Prop :=
    exists n m, i = Some (mkXItem (Some n) m) /\ forall rest h, Forall real_name (p_names T ++ rest) ->
      r (mkPath true (p_names T ++ rest)) w h = (Ok (if meaning j (p_names T) rest m then n else (-1)%Z), h).

  Lemma map_items_maps l : forall b, forallb valid_item l = true ->
    maps (map_items T b l) (fun b' => exists rs, lb_limits b' = lb_limits b ++ rs /\ lb_default b' = lb_default b /\ Forall2 item_rule l rs).
  Proof.
    induction l as [|i l IH]; intros b V; cbn [map_items].
    - apply maps_ret. exists []. now rewrite app_nil_r.
    - cbn in V. apply andb_prop in V. destruct V as [Vi Vl]. destruct i as [[n m]|]; [|discriminate]. cbn in Vi.
      apply andb_prop in Vi. destruct Vi as [Vn Vm]. destruct n as [n|]; [|discriminate].
      eapply maps_bind; [now apply (maps_non_null _ (fun x => x = mkXItem (Some n) m) (mkXItem (Some n) m))|]. intros i ->.
      eapply maps_bind; [apply map_matcher_maps, Vm|]. intros c Hc.
      eapply maps_bind; [now apply (maps_non_null _ (fun x => x = n) n)|]. intros n' ->.
      eapply maps_impl; [|apply IH, Vl]. intros b' (rs & E1 & E2 & F). cbn [limit_step limit_add lb_limits lb_default] in E1, E2.
      eexists. split; [rewrite E1, <- app_assoc; reflexivity|]. split; [exact E2|]. constructor; [|exact F].
      exists n, m. split; [reflexivity|]. intros rest h Hr. unfold limit_rule, bind. rewrite (Hc rest h Hr).
      cbn [xi_matcher xe_matcher]. now destruct (meaning j (p_names T) rest m).
  Qed.

  Lemma limit_loop_items l rs rest h : Forall2 item_rule l rs -> Forall real_name (p_names T ++ rest) -> forall d, (d < 0)%Z ->
    exists z, limit_loop d rs (mkPath true (p_names T ++ rest)) w h = (Ok z, h) /\
      same_limit z (first_limit (Z.leb 0) (meaning j (p_names T) rest) l).
  Proof.
    intros HF Hr. induction HF as [|i r l rs Hi HF IH]; intros d Hd.
    - exists d. split; [reflexivity|]. split; [exact I|]. now intros _.
    - destruct Hi as (n & m & -> & Hi). cbn [limit_loop first_limit]. unfold bind. rewrite (Hi rest h Hr).
      destruct (meaning j (p_names T) rest m) eqn:Em.
      + destruct (Z.leb_spec 0 n) as [Hn|Hn]; cbn [andb].
        * exists n. split; [now destruct (Z.leb_spec 0 n); [reflexivity|lia]|]. split; [reflexivity|]. lia.
        * destruct (IH n ltac:(lia)) as (z & E & Hz). exists z. split; [|exact Hz].
          destruct (Z.leb_spec 0 n); [lia|]. exact E.
      + cbn [andb]. destruct (IH (-1)%Z ltac:(lia)) as (z & E & Hz). exists z. split; [exact E|exact Hz].
  Qed.

  (** *** Line extensions *)
  Definition extension_rule (e : option xextension) (r : ext_fn) : Prop :=
    exists t m, e = Some (mkXExtension (Some t) m) /\ forall rest h, Forall real_name (p_names T ++ rest) ->
      r (mkPath true (p_names T ++ rest)) w h = (Ok (if meaning j (p_names T) rest m then Some t else None), h).

  Lemma map_extensions_maps l : forall b, forallb valid_extension l = true ->
    maps (map_extensions T b l) (fun b' => exists rs, b' = b ++ rs /\ Forall2 extension_rule l rs).
  Proof.
    induction l as [|e l IH]; intros b V; cbn [map_extensions].
    - apply maps_ret. exists []. now rewrite app_nil_r.
    - cbn in V. apply andb_prop in V. destruct V as [Ve Vl]. destruct e as [[t m]|]; [|discriminate]. cbn in Ve.
      apply andb_prop in Ve. destruct Ve as [Vt Vm]. destruct t as [t|]; [|discriminate].
      eapply maps_bind; [now apply (maps_non_null _ (fun x => x = mkXExtension (Some t) m) (mkXExtension (Some t) m))|]. intros i ->.
      eapply maps_bind; [apply map_matcher_maps, Vm|]. intros c Hc.
      eapply maps_impl; [|apply IH, Vl]. intros b' (rs & E1 & F). cbn [ext_step] in E1.
      eexists. split; [rewrite E1, <- app_assoc; reflexivity|]. constructor; [|exact F].
      exists t, m. split; [reflexivity|]. intros rest h Hr. unfold ext_rule, bind. rewrite (Hc rest h Hr).
      cbn [xi_matcher xe_matcher]. now destruct (meaning j (p_names T) rest m).
  Qed.

  Lemma ext_loop_extensions l rs rest h : Forall2 extension_rule l rs -> Forall real_name (p_names T ++ rest) ->
    ext_loop None rs (mkPath true (p_names T ++ rest)) w h = (Ok (first_extension (meaning j (p_names T) rest) l), h).
  Proof.
    intros HF Hr. induction HF as [|e r l rs He HF IH]; [reflexivity|].
    destruct He as (t & m & -> & He). cbn [ext_loop first_extension]. unfold bind. rewrite (He rest h Hr).
    destruct (meaning j (p_names T) rest m); [reflexivity|exact IH].
  Qed.

  (** *** The whole document *)
  Context (x : xoptions).

  (** What the setters called for each field do to the options [o]. *)
  Lemma map_child_limit_maps o : valid_options x = true ->
    maps (map_child_limit o x T) (fun o' => exists f, o' = with_child_limit_fn f o /\
      (x_child_limit x = None -> f = o_child_limit o) /\
      forall rest h, x_child_limit x <> None -> Forall real_name (p_names T ++ rest) ->
        exists z, f (mkPath true (p_names T ++ rest)) w h = (Ok z, h) /\
          same_limit z (match x_child_limit x with
                        | Some (XStatic n) => n
                        | Some (XDynamic (Some l)) => first_limit (Z.leb 0) (meaning j (p_names T) rest) l
                        | _ => None
                        end)).
  Proof.
    intro V. unfold valid_options in V. apply andb_prop in V. destruct V as [V _]. apply andb_prop in V. destruct V as [V _].
    unfold map_child_limit. destruct (x_child_limit x) as [[n|l]|].
    - destruct n as [n|]; [|discriminate].
      eapply maps_bind; [now apply (maps_non_null _ (fun z => z = n) n)|]. intros n' ->. apply maps_ret.
      eexists. split; [reflexivity|]. split; [discriminate|]. intros rest h _ _. exists n. split; [reflexivity|]. now split.
    - destruct l as [l|]; [|discriminate]. eapply maps_bind; [now apply (maps_non_null _ (fun z => z = l) l)|]. intros l' ->.
      eapply maps_bind; [apply map_items_maps|].
      { destruct l; [discriminate|exact V]. }
      intros b (rs & E1 & E2 & F). apply maps_ret. eexists. split; [reflexivity|]. split; [discriminate|].
      intros rest h _ Hr. cbn [lb_limits limit_builder_default app] in E1. rewrite E1, E2.
      apply limit_loop_items; [exact F|exact Hr|reflexivity].
    - apply maps_ret. exists (o_child_limit o). split; [now destruct o|]. split; [reflexivity|]. intros rest h H. now destruct H.
  Qed.

  Lemma map_filter_maps o : valid_options x = true ->
    o_dir_matcher o = (fun _ => ret true) -> o_file_matcher o = (fun _ => ret true) ->
    maps (map_filter o x T) (fun o' => exists d f, o' = filter_files f (filter_directories d o) /\
      forall rest h, Forall real_name (p_names T ++ rest) ->
        d (mkPath true (p_names T ++ rest)) w h =
          (Ok (match x_filter x with Some f => meaning j (p_names T) rest (xf_dir f) | None => true end), h) /\
        f (mkPath true (p_names T ++ rest)) w h =
          (Ok (match x_filter x with Some f => meaning j (p_names T) rest (xf_file f) | None => true end), h)).
  Proof.
    intros V Od Of. unfold valid_options in V. apply andb_prop in V. destruct V as [V _]. apply andb_prop in V. destruct V as [_ V].
    unfold map_filter. destruct (x_filter x) as [[md mf]|].
    2:{ apply maps_ret. exists (o_dir_matcher o), (o_file_matcher o). split; [now destruct o|]. intros rest h _. rewrite Od, Of. now split. }
    cbn [xf_dir xf_file] in V |- *. apply andb_prop in V. destruct V as [Vd Vf].
    assert (K : forall m (set : matcher -> options -> options) o1 code, valid_or_null m = true ->
      (m = XmNull -> code = ret o1) -> (m <> XmNull -> code = (c <- map_matcher T m; ret (set c o1))) ->
      maps code (fun o2 => (m = XmNull /\ o2 = o1) \/ exists c, o2 = set c o1 /\ mapped m c)).
    { intros m set o1 code Vm H1 H2. assert (Hm : m = XmNull \/ (m <> XmNull /\ valid_matcher m = true)).
      { destruct m; [now left|right; split; [discriminate|exact Vm]..]. }
      destruct Hm as [Hm|[Hm Hv]]; [rewrite (H1 Hm); apply maps_ret; now left|]. rewrite (H2 Hm).
      eapply maps_bind; [apply map_matcher_maps, Hv|]. intros c Hc. apply maps_ret. right. eauto. }
    eapply maps_bind; [apply (K md filter_directories o); [exact Vd|intros ->; reflexivity|intro; now destruct md]|]. intros o1 H1.
    eapply maps_impl; [|apply (K mf filter_files o1); [exact Vf|intros ->; reflexivity|intro; now destruct mf]]. intros o2 H2.
    exists (o_dir_matcher o1), (o_file_matcher o2). split.
    - destruct H1 as [[_ ->]|(c & -> & _)], H2 as [[_ ->]|(c' & -> & _)]; now destruct o.
    - intros rest h Hr. split.
      + destruct H1 as [[-> ->]|(c & -> & Hc)]; [now rewrite Od|]. now apply Hc.
      + destruct H2 as [[-> ->]|(c & -> & Hc)]; [|now apply Hc].
        destruct H1 as [[_ ->]|(c & -> & Hc)]; cbn [filter_directories o_file_matcher]; now rewrite Of.
  Qed.

  Lemma map_line_extensions_maps o : valid_options x = true ->
    maps (map_line_extensions o x T) (fun o' => exists f, o' = with_line_extension f o /\
      (x_line_extensions x = None -> f = o_line_extension o) /\
      forall l rest h, x_line_extensions x = Some l -> Forall real_name (p_names T ++ rest) ->
        exists f', f = Some f' /\ f' (mkPath true (p_names T ++ rest)) w h = (Ok (first_extension (meaning j (p_names T) rest) l), h)).
  Proof.
    intro V. unfold valid_options in V. apply andb_prop in V. destruct V as [_ V].
    unfold map_line_extensions. destruct (x_line_extensions x) as [l|].
    - eapply maps_bind; [apply map_extensions_maps, V|]. intros b (rs & -> & F). apply maps_ret. eexists. split; [reflexivity|].
      split; [discriminate|]. intros l' rest h [= <-] Hr. eexists. split; [reflexivity|]. now apply ext_loop_extensions.
    - apply maps_ret. exists (o_line_extension o). split; [now destruct o|]. split; [reflexivity|]. discriminate.
  Qed.

  Theorem map_to_options_maps : valid_options x = true ->
    (x_emojis x = Some true -> forall k v, default_names k v \/ default_exts k v -> jv_lower j k = k) ->
    maps (map_to_options T x) (does_what j w T (Z.leb 0) x).
  Proof.
    intros V He. unfold map_to_options.
    eapply maps_bind with (Q := fun o => exists e, o = with_emojis e default_options /\
      (x_emojis x = Some true -> emoji_create_default (jv_lower j) = Ok e) /\ (x_emojis x <> Some true -> e = emoji_none)).
    { unfold map_emojis. destruct (x_emojis x) as [[]|].
      - destruct (C73_lemma w) as (f & E & _); [apply (He eq_refl)|].
        intro h. unfold bind, get_jvm, lift_res, ret. fold j in E |- *. rewrite E. eexists. split; [reflexivity|]. exists f. split; [reflexivity|].
        split; [reflexivity|]. intro H. now destruct H.
      - apply maps_ret. exists emoji_none. split; [reflexivity|]. split; [discriminate|reflexivity].
      - apply maps_ret. exists emoji_none. split; [reflexivity|]. split; [discriminate|reflexivity]. }
    intros o0 (e & -> & He1 & He2).
    eapply maps_bind with (Q := fun o => exists c, o = with_compact_directories c (with_emojis e default_options) /\
      (c = true <-> x_compact x = Some true)).
    { unfold map_compact. destruct (x_compact x) as [[]|]; apply maps_ret.
      - exists true. split; [reflexivity|]. now split.
      - exists false. split; [reflexivity|]. split; discriminate.
      - exists false. split; [reflexivity|]. split; discriminate. }
    intros o1 (c & -> & Hc).
    eapply maps_bind with (Q := fun o => o = with_max_depth (match x_max_depth x with Some d => d | None => 20%Z end)
      (with_compact_directories c (with_emojis e default_options))).
    { unfold map_max_depth. destruct (x_max_depth x); now apply maps_ret. }
    intros o2 ->.
    eapply maps_bind; [apply map_child_limit_maps, V|]. intros o3 (fl & -> & Hl1 & Hl2).
    eapply maps_bind; [apply map_filter_maps; [exact V|reflexivity|reflexivity]|]. intros o4 (fd & ff & -> & Hf).
    eapply maps_impl; [|apply map_line_extensions_maps, V]. intros o5 (fx & -> & Hx1 & Hx2).
    unfold does_what. cbn [o_tree_format o_comparator o_compact o_max_depth o_emoji o_line_extension with_line_extension filter_files
      filter_directories with_child_limit_fn with_max_depth with_compact_directories with_emojis].
    do 2 (split; [reflexivity|]). split; [exact Hc|]. split; [reflexivity|]. split; [exact He1|]. split; [exact He2|]. split; [exact Hx1|].
    intros rest h Hr. destruct (Hf rest h Hr) as [H1 H2]. split; [exact H1|]. split; [exact H2|]. split.
    - cbn [o_child_limit with_line_extension filter_files filter_directories with_child_limit_fn].
      destruct (x_child_limit x) as [y|] eqn:Ey.
      + apply (Hl2 rest h); [discriminate|exact Hr].
      + rewrite (Hl1 eq_refl). exists UNLIMITED. split; [reflexivity|]. split; [exact I|]. reflexivity.
    - intros l El. exact (Hx2 l rest h El Hr).
  Qed.
End Map.

(** ** When mapping succeeds *)

Section Globs.
  Context (w : world) (T : path).
  Let j := w_jvm w.

  (** [m] succeeds exactly if the globs [L] are good. *)
  Definition needs {A} (m : M A) (L : list jstring) : Prop :=
    forall h, match fst (m w h) with Ok _ => Forall (good_glob j) L | Throw _ => ~ Forall (good_glob j) L end.

  Lemma needs_ret {A} (a : A) : needs (ret a) [].
  Proof. intro h. constructor. Qed.

  Lemma needs_bind {A B} (m : M A) (f : A -> M B) L1 L2 : needs m L1 -> (forall a, needs (f a) L2) -> needs (bind m f) (L1 ++ L2).
  Proof.
    intros Hm Hf h. unfold bind. specialize (Hm h). destruct (m w h) as [[a|e] h1]; cbn [fst] in Hm |- *.
    - specialize (Hf a h1). destruct (f a w h1) as [[b|e] h2]; cbn [fst] in Hf |- *; rewrite Forall_app; tauto.
    - rewrite Forall_app. tauto.
  Qed.

  (** A step that can only succeed with a value satisfying [Q]. *)
  Lemma needs_bind_ok {A B} (m : M A) (f : A -> M B) L (Q : A -> Prop) :
    (forall h, exists a, Q a /\ m w h = (Ok a, h)) -> (forall a, Q a -> needs (f a) L) -> needs (bind m f) L.
  Proof. intros Hm Hf h. destruct (Hm h) as (a & Qa & E). unfold bind. rewrite E. now apply Hf. Qed.

  Lemma needs_glob g (k : matcher -> M matcher) :
    (forall c, needs (k c) []) ->
    needs (if jeqb g s_star then ret (fun _ => ret true) else (c <- glob_matcher g; k c)) [g].
  Proof.
    intros Hk h. destruct (jeqb_spec g s_star) as [->|Hs].
    - constructor; [now left|constructor].
    - unfold glob_matcher, bind, get_jvm. fold j. destruct (jv_glob j g) as [f|] eqn:E.
      + specialize (Hk (fun p => ret (f p)) h). unfold ret at 1. destruct (k (fun p => ret (f p)) w h) as [[c|e] h1]; cbn [fst] in Hk |- *.
        * constructor; [right; congruence|constructor].
        * now destruct Hk.
      + cbn. intro F. inversion F as [|? ? [H|H] _]; [now apply Hs|congruence].
  Qed.

  Lemma needs_map_all l : Forall (fun m => valid_matcher m = true -> needs (map_matcher T m) (globs m)) l ->
    forallb valid_matcher l = true -> needs (map_all T l) (flat_map globs l).
  Proof.
    intro HF. induction HF as [|x l Hx HF IH]; intro V; cbn [map_all flat_map].
    - apply needs_ret.
    - cbn in V. apply andb_prop in V. destruct V as [Vx Vl]. apply needs_bind; [apply Hx, Vx|]. intro a.
      rewrite <- (app_nil_r (flat_map globs l)). apply needs_bind; [apply IH, Vl|]. intro r. apply needs_ret.
  Qed.

  Lemma map_all_some l : forall h r h', map_all T l w h = (Ok r, h') -> exists ms, r = map Some ms /\ length ms = length l.
  Proof.
    induction l as [|x l IH]; intros h r h'; cbn [map_all].
    - intros [= <- _]. now exists [].
    - unfold bind. destruct (map_matcher T x w h) as [[a|e] h1]; [|discriminate].
      destruct (map_all T l w h1) as [[r'|e] h2] eqn:E; [|discriminate]. intros [= <- _]. destruct (IH _ _ _ E) as (ms & -> & L).
      exists (a :: ms). split; [reflexivity|]. cbn. now rewrite L.
  Qed.

  Lemma needs_combine l md : match l with x :: l' => valid_matcher x && forallb valid_matcher l' | [] => false end = true ->
    Forall (fun m => valid_matcher m = true -> needs (map_matcher T m) (globs m)) l ->
    needs (ms <- map_all T l; lift_res (combine_matchers ms md)) (flat_map globs l).
  Proof.
    intros V HF. assert (Vl : forallb valid_matcher l = true) by (destruct l; [discriminate|exact V]).
    pose proof (needs_map_all l HF Vl) as Hn. intro h. specialize (Hn h). unfold bind.
    destruct (map_all T l w h) as [[r|e] h1] eqn:E; cbn [fst] in Hn |- *; [|exact Hn].
    destruct (map_all_some _ _ _ _ E) as (ms & -> & L). destruct ms as [|m ms]; [destruct l; [discriminate|discriminate]|].
    destruct (combine_asked md m ms) as (c & Ec & _). unfold lift_res. rewrite Ec. exact Hn.
  Qed.

  Lemma needs_matcher m : valid_matcher m = true -> needs (map_matcher T m) (globs m).
  Proof.
    apply (xmatcher_ind' (fun m => valid_matcher m = true -> needs (map_matcher T m) (globs m))); try discriminate; clear m.
    - intros _. apply needs_ret.
    - intros _. apply needs_ret.
    - intros l H. split; [|split]; intro V; now apply (needs_combine l).
    - intros [g|]; [|discriminate]. intros _. cbn [map_matcher globs].
      apply needs_bind_ok with (Q := fun x => x = g); [intro h; now exists g|]. intros g' ->.
      unfold pm_name_glob. apply needs_glob. intro c. apply needs_ret.
    - intros [g|]; [|discriminate]. intros _. cbn [map_matcher globs].
      apply needs_bind_ok with (Q := fun x => x = g); [intro h; now exists g|]. intros g' ->.
      unfold pm_relative_path_glob. apply needs_glob. intros c h.
      destruct (relative_matcher w T c h) as (r & E & _). rewrite E. constructor.
  Qed.

  Lemma needs_items l : forall b, forallb valid_item l = true ->
    needs (map_items T b l) (flat_map (fun i => match i with Some i => globs (xi_matcher i) | None => [] end) l).
  Proof.
    induction l as [|i l IH]; intros b V; cbn [map_items flat_map]; [apply needs_ret|].
    cbn in V. apply andb_prop in V. destruct V as [Vi Vl]. destruct i as [[n m]|]; [|discriminate]. cbn in Vi.
    apply andb_prop in Vi. destruct Vi as [Vn Vm]. destruct n as [n|]; [|discriminate].
    apply needs_bind_ok with (Q := fun x => x = mkXItem (Some n) m); [intro h; eexists; split; reflexivity|]. intros i ->. cbn [xi_matcher xi_limit].
    apply needs_bind; [apply needs_matcher, Vm|]. intro c.
    apply needs_bind_ok with (Q := fun x => x = n); [intro h; now exists n|]. intros n' ->. apply IH, Vl.
  Qed.

  Lemma needs_extensions l : forall b, forallb valid_extension l = true ->
    needs (map_extensions T b l) (flat_map (fun e => match e with Some e => globs (xe_matcher e) | None => [] end) l).
  Proof.
    induction l as [|e l IH]; intros b V; cbn [map_extensions flat_map]; [apply needs_ret|].
    cbn in V. apply andb_prop in V. destruct V as [Ve Vl]. destruct e as [[t m]|]; [|discriminate]. cbn in Ve.
    apply andb_prop in Ve. destruct Ve as [Vt Vm].
    apply needs_bind_ok with (Q := fun x => x = mkXExtension t m); [intro h; eexists; split; reflexivity|]. intros i ->. cbn [xe_matcher xe_extension].
    apply needs_bind; [apply needs_matcher, Vm|]. intro c. apply IH, Vl.
  Qed.

  Theorem map_succeeds : forall x, valid_options x = true ->
    (x_emojis x = Some true -> forall k v, default_names k v \/ default_exts k v -> jv_lower j k = k) ->
    needs (map_to_options T x) (all_globs x).
  Proof.
    intros x V He. unfold map_to_options, all_globs.
    unfold valid_options in V. apply andb_prop in V. destruct V as [V Vx]. apply andb_prop in V. destruct V as [Vc Vf].
    apply needs_bind_ok with (Q := fun _ => True).
    { intro h. unfold map_emojis. destruct (x_emojis x) as [[]|]; try (eexists; split; [exact I|reflexivity]).
      destruct (C73_lemma w) as (f & E & _); [apply (He eq_refl)|].
      unfold bind, get_jvm, lift_res, ret. fold j in E |- *. rewrite E. eexists. split; [exact I|reflexivity]. }
    intros o _. apply needs_bind_ok with (Q := fun _ => True).
    { intro h. unfold map_compact. destruct (x_compact x) as [[]|]; eexists; (split; [exact I|reflexivity]). }
    clear o. intros o _. apply needs_bind_ok with (Q := fun _ => True).
    { intro h. unfold map_max_depth. destruct (x_max_depth x); eexists; (split; [exact I|reflexivity]). }
    clear o. intros o _. apply needs_bind; [|clear o; intro o; apply needs_bind; [|clear o; intro o]].
    - unfold map_child_limit. destruct (x_child_limit x) as [[n|l]|]; cbn [limit_globs]; [| |apply needs_ret].
      + destruct n as [n|]; [|discriminate]. apply needs_bind_ok with (Q := fun x => x = n); [intro h; now exists n|]. intros n' ->. apply needs_ret.
      + destruct l as [l|]; [|discriminate]. apply needs_bind_ok with (Q := fun x => x = l); [intro h; now exists l|]. intros l' ->.
        rewrite <- (app_nil_r (flat_map _ l)). apply needs_bind; [apply needs_items; destruct l; [discriminate|exact Vc]|]. intro b. apply needs_ret.
    - unfold map_filter. destruct (x_filter x) as [[md mf]|]; [|apply needs_ret]. cbn [xf_dir xf_file] in *.
      apply andb_prop in Vf. destruct Vf as [Vd Vf].
      assert (K : forall m (set : matcher -> options -> options) o1 code, valid_or_null m = true ->
        (m = XmNull -> code = ret o1) -> (m <> XmNull -> code = (c <- map_matcher T m; ret (set c o1))) -> needs code (globs m)).
      { intros m set o1 code Vm H1 H2. assert (Hm : m = XmNull \/ (m <> XmNull /\ valid_matcher m = true)).
        { destruct m; [now left|right; split; [discriminate|exact Vm]..]. }
        destruct Hm as [Hm|[Hm Hv]]; [rewrite (H1 Hm), Hm; apply needs_ret|]. rewrite (H2 Hm), <- (app_nil_r (globs m)).
        apply needs_bind; [apply needs_matcher, Hv|]. intro c. apply needs_ret. }
      apply needs_bind; [apply (K md filter_directories o); [exact Vd|intros ->; reflexivity|intro; now destruct md]|]. intro o1.
      apply (K mf filter_files o1); [exact Vf|intros ->; reflexivity|intro; now destruct mf].
    - unfold map_line_extensions. destruct (x_line_extensions x) as [l|]; [|apply needs_ret].
      rewrite <- (app_nil_r (flat_map _ l)). apply needs_bind; [apply needs_extensions, Vx|]. intro b. apply needs_ret.
  Qed.
End Globs.

(** ** The statements of the properties *)

Theorem C77_lemma : forall w T x h o h',
  p_abs T = true -> acceptable x ->
  (x_emojis x = Some true -> forall k v, default_names k v \/ default_exts k v -> jv_lower (w_jvm w) k = k) ->
  map_to_options T x w h = (Ok o, h') -> h' = h /\ does_what (w_jvm w) w T (fun n => (0 <=? n)%Z) x o.
Proof.
  intros w T x h o h' Ta Ac He E. pose proof (proj2 (valid_options_iff x) Ac) as V. destruct (map_to_options_maps w T Ta x V He h) as (r & E' & H). rewrite E in E'. injection E' as <- <-.
  split; [reflexivity|exact H].
Qed.

Lemma first_limit_no_negative holds l : (forall n m, In (Some (mkXItem (Some n) m)) l -> (0 <= n)%Z) ->
  first_limit (Z.leb 0) holds l = first_limit (fun _ => true) holds l.
Proof.
  induction l as [|[[[n|] m]|] l IH]; intro H; [reflexivity| | |]; cbn [first_limit].
  - assert (Hn : (0 <= n)%Z) by (apply (H n m); now left). apply Z.leb_le in Hn. rewrite Hn, IH; [reflexivity|].
    intros n' m' Hi. apply (H n' m'). now right.
  - apply IH. intros n' m' Hi. apply (H n' m'). now right.
  - apply IH. intros n' m' Hi. apply (H n' m'). now right.
Qed.

Theorem C77_no_negative_lemma : forall w T x h o h',
  p_abs T = true -> acceptable x ->
  (x_emojis x = Some true -> forall k v, default_names k v \/ default_exts k v -> jv_lower (w_jvm w) k = k) ->
  (forall l n m, x_child_limit x = Some (XDynamic (Some l)) -> In (Some (mkXItem (Some n) m)) l -> (0 <= n)%Z) ->
  map_to_options T x w h = (Ok o, h') -> does_what (w_jvm w) w T (fun _ => true) x o.
Proof.
  intros w T x h o h' Ta Ac He Hl E. destruct (C77_lemma w T x h o h' Ta Ac He E) as [_ H].
  destruct H as (H1 & H2 & H3 & H4 & H5 & H6 & H7 & H8). do 7 (split; [assumption|]).
  intros rest h1 Hr. destruct (H8 rest h1 Hr) as (A1 & A2 & (z & A3 & A4) & A5). split; [exact A1|]. split; [exact A2|]. split; [|exact A5].
  exists z. split; [exact A3|]. destruct (x_child_limit x) as [[n|[l|]]|] eqn:El; try exact A4.
  rewrite <- first_limit_no_negative; [exact A4|]. intros n m Hi. now apply (Hl l n m).
Qed.

Theorem C55_lemma : forall w T x h,
  p_abs T = true -> acceptable x ->
  (x_emojis x = Some true -> forall k v, default_names k v \/ default_exts k v -> jv_lower (w_jvm w) k = k) ->
  exists r, map_to_options T x w h = (r, h) /\
    ((exists o, r = Ok o) <-> forall g, In g (all_globs x) -> g = js "*" \/ jv_glob (w_jvm w) g <> None) /\
    (forall e, r = Throw e -> exists g, e = ExPatternSyntax g /\ jv_glob (w_jvm w) g = None).
Proof.
  intros w T x h Ta Ac He. pose proof (proj2 (valid_options_iff x) Ac) as V. destruct (map_to_options_maps w T Ta x V He h) as (r & E & H). exists r. split; [exact E|].
  pose proof (map_succeeds w T x V He h) as Hn. rewrite E in Hn. cbn [fst] in Hn. split.
  - destruct r as [o|e].
    + split; [|intros; now exists o]. intros _. rewrite Forall_forall in Hn. exact Hn.
    + split; [intros [o Ho]; discriminate|]. intro Hg. destruct Hn. apply Forall_forall. exact Hg.
  - intros e ->. exact H.
Qed.
