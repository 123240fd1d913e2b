(** * The parts the library offers are programs *)

From Verif Require Import SpecParts SpecThreads MatcherFacts OptionFacts ThreadFacts.
From Coq Require Import Lia.
Open Scope nat_scope.

(** [f] is given by programs; likewise for a comparator. *)
Definition by_programs {A} (f : path -> M A) : Prop := inhabited (forall p, cut (f p)).
Definition by_programs2 (c : comparator) : Prop := inhabited (forall a b, cut (c a b)).

Lemma by_programs_iff A (f : path -> M A) : (exists t : path -> prog A, forall p, means (t p) (f p)) -> by_programs f.
Proof. intros [t Ht]. constructor. intro p. exists (t p). apply Ht. Qed.

Lemma by_programs2_iff (c : comparator) : (exists t : path -> path -> prog Z, forall a b, means (t a b) (c a b)) -> by_programs2 c.
Proof. intros [t Ht]. constructor. intros a b. exists (t a b). apply Ht. Qed.

Lemma cut_kind k p : cut (has_kind k p).
Proof. unfold has_kind. apply cut_bind; [apply cut_lstat|]. intro. apply cut_ret. Qed.
Lemma cut_clean p : cut (clean_path p).
Proof. unfold clean_path. apply cut_bind; [apply cut_jvm|]. intro. apply cut_ret. Qed.

Lemma by_pure A (f : path -> A) : by_programs (fun p => ret (f p)).
Proof. constructor. intro. apply cut_ret. Qed.

(** Lists of functions given by programs. *)
Lemma all_programs A B (pr : A -> path -> M B) (l : list A) :
  (forall x, In x l -> by_programs (pr x)) -> inhabited (all_of (fun x => forall p, cut (pr x p)) l).
Proof.
  induction l as [|x l IH]; intro H; [constructor; apply all_nil|]. destruct (H x (or_introl eq_refl)) as [Hx].
  destruct IH as [Hl]; [intros y Hy; apply H; now right|]. constructor. now apply all_cons.
Qed.

(** ** Matchers *)
Lemma cut_all l p : all_of (fun m : matcher => forall p, cut (m p)) l -> cut (pm_all l p).
Proof.
  induction 1 as [|m l Hm _ IH]; cbn [pm_all]; [apply cut_ret|]. apply cut_bind; [apply Hm|]. intros []; cbn [negb]; [exact IH|apply cut_ret].
Qed.
Lemma cut_any l p : all_of (fun m : matcher => forall p, cut (m p)) l -> cut (pm_any l p).
Proof.
  induction 1 as [|m l Hm _ IH]; cbn [pm_any]; [apply cut_ret|]. apply cut_bind; [apply Hm|]. intros []; [apply cut_ret|exact IH].
Qed.
Lemma cut_none l p : all_of (fun m : matcher => forall p, cut (m p)) l -> cut (pm_none l p).
Proof.
  induction 1 as [|m l Hm _ IH]; cbn [pm_none]; [apply cut_ret|]. apply cut_bind; [apply Hm|]. intros []; [apply cut_ret|exact IH].
Qed.

Lemma checked ms l : check_non_null ms = Some l -> forall m, In m l -> In (Some m) ms.
Proof.
  revert l. induction ms as [|[m|] ms IH]; intros l E; cbn in E; [injection E as <-; contradiction| |discriminate].
  destruct (check_non_null ms) as [l'|]; [|discriminate]. injection E as <-. intros x [->|Hx]; [now left|right; now apply (IH l')].
Qed.

Lemma by_combine ms md c : (forall m, In (Some m) ms -> by_programs m) -> combine_matchers ms md = Ok c -> by_programs c.
Proof.
  unfold combine_matchers. intros H E. destruct (check_non_null ms) as [l|] eqn:El; [|discriminate].
  destruct (all_programs _ _ (fun m : matcher => m) l) as [Hl]; [intros m Hm; apply H; eapply checked; eauto|].
  destruct l as [|m l]; [discriminate|]. injection E as <-. constructor. intro p.
  destruct md; [exact (cut_all (m :: l) p Hl)|exact (cut_any (m :: l) p Hl)|exact (cut_none (m :: l) p Hl)].
Qed.

Lemma cut_ancestors fuel m : (forall p, cut (m p)) -> forall o, cut (ancestor_loop fuel m o).
Proof.
  intro Hm. induction fuel as [|fuel IH]; intros [q|]; cbn [ancestor_loop]; try apply cut_ret; [apply cut_throw|].
  apply cut_bind; [apply Hm|]. intros []; [apply cut_ret|apply IH].
Qed.

Lemma cut_walk visit : (forall p, cut (visit p)) -> forall n skip p, cut (walk n skip visit p).
Proof.
  intros Hv n. induction n as [|n IH]; intros skip p; cbn [walk].
  - apply cut_bind; [apply cut_lstat|]. intros [k|]; [|apply cut_throw]. destruct skip; [apply cut_ret|apply Hv].
  - apply cut_bind; [apply cut_lstat|]. intros [k|]; [|apply cut_throw]. destruct (kind_eqb k KDir); [|destruct skip; [apply cut_ret|apply Hv]].
    apply cut_bind; [apply cut_open|]. intros [dl|]; [|apply cut_throw].
    match goal with |- cut (fun w h => match ?b w h with _ => _ end) => assert (Hb : cut b); [|destruct Hb as [t Ht]] end.
    { apply cut_bind; [destruct skip; [apply cut_ret|apply Hv]|]. intros []; [apply cut_ret|].
      induction (dl_names dl) as [|x l IHl]; [apply cut_ret|]. apply cut_bind; [apply IH|]. intros []; [apply cut_ret|exact IHl]. }
    exists (pfinally t (fun r => match r with
      | Ok true => Do (AClose p) (fun _ => Done (Ok true))
      | Ok false => if dl_fail dl then Do (AIterFail p) (fun _ => Do (AClose p) (fun _ => Done (Throw (ExUncheckedIO WalkNext p))))
                    else Do (AClose p) (fun ok : bool => Done (if ok then Ok false else Throw (ExUncheckedIO WalkNext p)))
      | Throw e => Do (AClose p) (fun _ => Done (Throw e))
      end)).
    intros w h. rewrite run_pfinally, Ht. match goal with |- context [let (r, h') := ?b w h in _] => destruct (b w h) as [[[|]|e] h'] end.
    + reflexivity.
    + destruct (dl_fail dl); [reflexivity|]. unfold close_dir. cbn. destruct (w_close_ok w h' p); reflexivity.
    + reflexivity.
Qed.

Lemma cut_descendants p d m incl : (forall q, cut (m q)) -> cut (test_descendants p d m incl).
Proof.
  intro Hm. unfold test_descendants. apply cut_bind; [apply cut_kind|]. intros []; cbn [negb]; [|apply cut_ret].
  apply cut_walk. intro q. destruct (incl q); [apply Hm|apply cut_ret].
Qed.

Lemma by_glob g w h m h' : glob_matcher g w h = (Ok m, h') -> by_programs m.
Proof.
  unfold glob_matcher, bind, get_jvm. destruct (jv_glob (w_jvm w) g) as [f|]; intro E; [|discriminate]. injection E as <- _. apply by_pure.
Qed.

Lemma by_relative ref m w h c h' : by_programs m -> pm_relative_path ref m w h = (Ok c, h') -> by_programs c.
Proof.
  intros [Hm] E. injection E as <- _. constructor. intro p. apply cut_bind; [apply cut_clean|]. intro. apply Hm.
Qed.

Lemma by_assembled w walks (base : matcher -> Prop) m : (forall b, base b -> by_programs b) -> assembled w walks base m -> by_programs m.
Proof.
  intros Hb H. induction H as [m Hm|m _ IH|md ms c _ IH E|i t e _ IHi _ IHt _ IHe|m _ IH|ref m c h h' _ IH E|g c h h' E|ref g c h h' E|n|n|f|g c h h' E|x|x|x| | | | |m _ IH|m _ IH|m _ _ IH|m _ _ IH|m _ _ IH].
  - now apply Hb.
  - destruct IH as [IH]. constructor. intro p. apply cut_bind; [apply IH|]. intro. apply cut_ret.
  - eapply by_combine; eauto.
  - destruct IHi as [Hi], IHt as [Ht], IHe as [He]. constructor. intro p. apply cut_bind; [apply Hi|]. intros []; [apply Ht|apply He].
  - destruct IH as [IH]. constructor. intro p. apply cut_bind; [apply cut_clean|]. intro. apply IH.
  - eapply by_relative; eauto.
  - unfold pm_absolute_path_glob in E. destruct (jeqb g s_star); [injection E as <- _; apply by_pure|].
    unfold bind in E. destruct (glob_matcher g w h) as [[m|] h1] eqn:Eg; [|discriminate]. injection E as <- _. destruct (by_glob _ _ _ _ _ Eg) as [Hm].
    constructor. intro p. apply cut_bind; [apply cut_clean|]. intro. apply Hm.
  - unfold pm_relative_path_glob in E. destruct (jeqb g s_star); [injection E as <- _; apply by_pure|].
    unfold bind in E at 1. destruct (glob_matcher g w h) as [[m|] h1] eqn:Eg; [|discriminate].
    eapply by_relative; [|exact E]. eapply by_glob; eauto.
  - apply by_pure.
  - constructor. intro p. apply cut_bind; [apply cut_jvm|]. intro. apply cut_ret.
  - apply by_pure.
  - unfold pm_name_glob in E. destruct (jeqb g s_star); [injection E as <- _; apply by_pure|].
    unfold bind in E. destruct (glob_matcher g w h) as [[m|] h1] eqn:Eg; [|discriminate]. injection E as <- _. destruct (by_glob _ _ _ _ _ Eg) as [Hm].
    constructor. intro p. destruct (get_file_name p); [apply Hm|apply cut_ret].
  - apply by_pure.
  - apply by_pure.
  - apply by_pure.
  - constructor. intro. apply cut_kind.
  - constructor. intro. apply cut_bind; [apply cut_kind|]. intro. apply cut_ret.
  - constructor. intro. apply cut_kind.
  - constructor. intro. apply cut_kind.
  - destruct IH as [IH]. constructor. intro p. unfold pm_direct_parent. destruct (get_parent p); [apply IH|apply cut_ret].
  - destruct IH as [IH]. constructor. intro p. now apply cut_ancestors.
  - destruct IH as [IH]. constructor. intro p. now apply cut_descendants.
  - destruct IH as [IH]. constructor. intro p. now apply cut_descendants.
  - destruct IH as [IH]. constructor. intro p. unfold pm_sibling. destruct (get_parent p); [now apply cut_descendants|apply cut_ret].
Qed.

Section Parts.
  Context (w : world) (walks : bool) (u : own).
  Hypothesis Hmatcher : forall m, own_matcher u m -> by_programs m.
  Hypothesis Hnumber : forall f, own_number u f -> by_programs f.
  Hypothesis Htext : forall f, own_text u f -> by_programs f.
  Hypothesis Horder : forall c, own_order u c -> by_programs2 c.

  Let part m (H : assembled w walks (own_matcher u) m) : by_programs m := by_assembled w walks (own_matcher u) m Hmatcher H.

  Lemma by_rule A B (m : path -> M A) (f : A -> B) : by_programs m -> by_programs (fun p => b <- m p; ret (f b)).
  Proof. intros [Hm]. constructor. intro p. apply cut_bind; [apply Hm|]. intro. apply cut_ret. Qed.

  Lemma cut_comparing key : (forall p, cut (key p)) -> forall a b, cut (comparing key a b).
  Proof. intros H a b. apply cut_bind; [apply H|]. intro. apply cut_bind; [apply H|]. intro. apply cut_ret. Qed.

  Lemma cut_then c1 c2 : (forall a b, cut (c1 a b)) -> (forall a b, cut (c2 a b)) -> forall a b, cut (then_comparing c1 c2 a b).
  Proof. intros H1 H2 a b. apply cut_bind; [apply H1|]. intro z. destruct (z =? 0)%Z; [apply H2|apply cut_ret]. Qed.

  Lemma cut_alphabetical a b : cut (ALPHABETICAL a b).
  Proof. apply cut_ret. Qed.

  (** ** The sort builder *)
  Definition rules_by (b : sort_builder) : Prop := forall f, In f b -> by_programs f.

  Lemma cut_precedence rules : all_of (fun f : path -> M Z => forall p, cut (f p)) rules -> forall z p, cut (sort_precedence_loop z rules p).
  Proof.
    induction 1 as [|f l Hf _ IH]; intros z p; cbn [sort_precedence_loop]; [apply cut_ret|].
    apply cut_bind; [apply Hf|]. intro r. destruct (negb _); [apply cut_ret|apply IH].
  Qed.

  Lemma by_sort_build rules : rules_by rules -> by_programs2 (sort_build rules).
  Proof.
    intro H. destruct (all_programs _ _ (fun f : path -> M Z => f) rules H) as [Hl]. constructor.
    apply cut_then; [|exact cut_alphabetical]. apply cut_comparing. intro p. now apply cut_precedence.
  Qed.

  Lemma sort_session_by cmds : (forall c, In c cmds -> sort_call_ok w walks u c) ->
    forall s, rules_by (ss_builder s) -> Forall rules_by (ss_built s) ->
    rules_by (ss_builder (sort_run s cmds)) /\ Forall rules_by (ss_built (sort_run s cmds)).
  Proof.
    induction cmds as [|c cmds IH]; intros Hc s H1 H2; [now split|]. apply IH; [intros; apply Hc; now right| |].
    - specialize (Hc c (or_introl eq_refl)). destruct c as [[f|m z|m|m]|]; cbn in Hc |- *; try exact H1;
        unfold sort_add_matcher, sort_add; intros g Hg; apply in_app_or in Hg; destruct Hg as [Hg|[<-|[]]]; try (now apply H1); [now apply Hnumber|..];
        (apply (by_rule bool Z); now apply part).
    - destruct c as [o|]; cbn; [exact H2|]. apply Forall_app. split; [exact H2|]. constructor; [exact H1|constructor].
  Qed.

  Lemma by_order c : order_part w walks u c -> by_programs2 c.
  Proof.
    induction 1 as [c Hc| | | | | |c1 c2 _ IH1 _ IH2|c _ IH|cmds i Hc Hi].
    - now apply Horder.
    - constructor. exact cut_alphabetical.
    - constructor. apply cut_comparing. intro p. apply cut_bind; [apply cut_kind|]. intros []; [apply cut_ret|apply cut_length].
    - constructor. intros a b. apply cut_bind; [apply cut_kind|]. intro. apply cut_bind; [apply cut_kind|]. intro. apply cut_ret.
    - constructor. intros a b. apply cut_bind; [apply cut_kind|]. intro. apply cut_bind; [apply cut_kind|]. intro. apply cut_ret.
    - constructor. intros a b. apply cut_bind; [apply cut_kind|]. intro d1. apply cut_bind; [apply cut_kind|]. intro d2.
      destruct d1; [apply cut_ret|]. destruct d2; [apply cut_ret|]. apply cut_bind; [apply cut_jvm|]. intro. apply cut_ret.
    - destruct IH1 as [IH1], IH2 as [IH2]. constructor. now apply cut_then.
    - destruct IH as [IH]. constructor. intros a b. apply IH.
    - destruct (sort_session_by cmds Hc sort_start) as [_ H]; [intros ? []|constructor|].
      unfold sort_call. destruct (nth_error _ i) as [rules|] eqn:En; [|apply nth_error_None in En; lia].
      apply by_sort_build. rewrite Forall_forall in H. apply H. eapply nth_error_In. eauto.
  Qed.

  (** ** Child limits *)
  Definition limits_by (l : list limit_fn) : Prop := forall f, In f l -> by_programs f.

  Lemma cut_limit_loop rules : all_of (fun f : limit_fn => forall p, cut (f p)) rules -> forall z p, cut (limit_loop z rules p).
  Proof.
    induction 1 as [|f l Hf _ IH]; intros z p; cbn [limit_loop]; [apply cut_ret|].
    apply cut_bind; [apply Hf|]. intro r. destruct (0 <=? r)%Z; [apply cut_ret|apply IH].
  Qed.

  Lemma limit_session_by cmds : (forall c, In c cmds -> limit_call_ok w walks u c) ->
    forall s, limits_by (lb_limits (ls_builder s)) -> Forall limits_by (ls_built s) ->
    limits_by (lb_limits (ls_builder (limit_run s cmds))) /\ Forall limits_by (ls_built (limit_run s cmds)).
  Proof.
    induction cmds as [|c cmds IH]; intros Hc s H1 H2; [now split|]. apply IH; [intros; apply Hc; now right| |].
    - specialize (Hc c (or_introl eq_refl)). destruct c as [[z|f|m z]|]; cbn in Hc |- *; try exact H1;
        intros g Hg; apply in_app_or in Hg; destruct Hg as [Hg|[<-|[]]]; try (now apply H1); [now apply Hnumber|].
      apply (by_rule bool Z). now apply part.
    - destruct c as [o|]; cbn; [exact H2|]. apply Forall_app. split; [exact H2|]. constructor; [exact H1|constructor].
  Qed.

  Lemma by_limit f : limit_part w walks u f -> by_programs f.
  Proof.
    intros [g Hg|d cmds i Hc Hi]; [now apply Hnumber|].
    destruct (limit_session_by cmds Hc (limit_start d)) as [_ H]; [intros ? []|constructor|].
    unfold limit_call. destruct (nth_error _ i) as [rules|] eqn:En; [|apply nth_error_None in En; lia].
    rewrite Forall_forall in H. destruct (all_programs _ _ (fun f : limit_fn => f) rules) as [Hl]; [apply H; eapply nth_error_In; eauto|].
    constructor. intro p. now apply cut_limit_loop.
  Qed.

  (** ** Line extensions *)
  Definition exts_by (l : list ext_fn) : Prop := forall f, In f l -> by_programs f.

  Lemma cut_ext_loop rules : all_of (fun f : ext_fn => forall p, cut (f p)) rules -> forall z p, cut (ext_loop z rules p).
  Proof.
    induction 1 as [|f l Hf _ IH]; intros z p; cbn [ext_loop]; [apply cut_ret|].
    apply cut_bind; [apply Hf|]. intro r. destruct (is_some r); [apply cut_ret|apply IH].
  Qed.

  Lemma ext_session_by cmds : (forall c, In c cmds -> ext_call_ok w walks u c) ->
    forall s, exts_by (xs_builder s) -> Forall exts_by (xs_built s) ->
    exts_by (xs_builder (ext_run s cmds)) /\ Forall exts_by (xs_built (ext_run s cmds)).
  Proof.
    induction cmds as [|c cmds IH]; intros Hc s H1 H2; [now split|]. apply IH; [intros; apply Hc; now right| |].
    - specialize (Hc c (or_introl eq_refl)). destruct c as [[f|m z|m]|]; cbn in Hc |- *; try exact H1;
        intros g Hg; apply in_app_or in Hg; destruct Hg as [Hg|[<-|[]]]; try (now apply H1); [now apply Htext|..];
        (apply (by_rule bool (option jstring)); now apply part).
    - destruct c as [o|]; cbn; [exact H2|]. apply Forall_app. split; [exact H2|]. constructor; [exact H1|constructor].
  Qed.

  Lemma by_ext f : ext_part w walks u f -> by_programs f.
  Proof.
    intros [g Hg|cmds i Hc Hi]; [now apply Htext|].
    destruct (ext_session_by cmds Hc ext_start) as [_ H]; [intros ? []|constructor|].
    unfold ext_call. destruct (nth_error _ i) as [rules|] eqn:En; [|apply nth_error_None in En; lia].
    rewrite Forall_forall in H. destruct (all_programs _ _ (fun f : ext_fn => f) rules) as [Hl]; [apply H; eapply nth_error_In; eauto|].
    constructor. intro p. now apply cut_ext_loop.
  Qed.

  (** ** Emojis *)
  Definition matches_by (l : list emoji_match) : Prop := forall em, In em l -> by_programs (em_matcher em).

  Lemma cut_matcher_emoji l : all_of (fun em => forall p, cut (em_matcher em p)) l -> forall p, cut (path_matcher_emoji l p).
  Proof.
    induction 1 as [|em l Hm _ IH]; intro p; cbn [path_matcher_emoji]; [apply cut_ret|].
    apply cut_bind; [apply Hm|]. intros []; [apply cut_ret|apply IH].
  Qed.

  Lemma cut_name_emoji m p : cut (path_name_emoji m p).
  Proof. unfold path_name_emoji. destruct (get_file_name p); [|apply cut_ret]. apply cut_bind; [apply cut_jvm|]. intro. apply cut_ret. Qed.

  Lemma cut_extension_emoji m p : cut (path_extension_emoji m p).
  Proof. unfold path_extension_emoji. destruct (get_file_name p); [|apply cut_ret]. apply cut_bind; [apply cut_jvm|]. intro. apply cut_ret. Qed.

  Lemma cut_sequential l : all_of (fun f : emoji_fn => forall p, cut (f p)) l -> forall p, cut (sequential_emoji l p).
  Proof.
    induction 1 as [|f l Hf _ IH]; intro p; cbn [sequential_emoji]; [apply cut_ret|].
    apply cut_bind; [apply Hf|]. intro e. destruct (is_some e); [apply cut_ret|apply IH].
  Qed.

  Lemma by_built_emoji be b : matches_by (eb_dir_matchers b) -> matches_by (eb_file_matchers b) -> by_programs (built_emoji_apply be b).
  Proof.
    intros H1 H2. destruct (all_programs _ _ em_matcher _ H1) as [L1]. destruct (all_programs _ _ em_matcher _ H2) as [L2].
    constructor. intro p. unfold built_emoji_apply, default_emoji_mapping. apply cut_bind; [apply cut_kind|].
    intros []; (apply cut_bind; [|intro; apply cut_ret]); apply cut_sequential.
    - apply all_cons; [now apply cut_matcher_emoji|]. apply all_cons; [apply cut_name_emoji|apply all_nil].
    - apply all_cons; [now apply cut_matcher_emoji|]. apply all_cons; [apply cut_name_emoji|]. apply all_cons; [apply cut_extension_emoji|apply all_nil].
  Qed.

  Lemma emoji_session_by lower cmds : (forall c, In c cmds -> emoji_call_ok w walks u c) ->
    forall s, matches_by (eb_dir_matchers (es_builder s)) /\ matches_by (eb_file_matchers (es_builder s)) ->
    matches_by (eb_dir_matchers (es_builder (emoji_run lower s cmds))) /\ matches_by (eb_file_matchers (es_builder (emoji_run lower s cmds))).
  Proof.
    induction cmds as [|c cmds IH]; intros Hc s H; [exact H|]. apply IH; [intros; apply Hc; now right|].
    specialize (Hc c (or_introl eq_refl)). destruct c as [o|]; [|exact H].
    cbn [emoji_exec es_builder] in *. destruct (es_builder s) as [dd dm dn df fm fn fe]. cbn in H. destruct H as [H1 H2].
    destruct o as [e|n e|m e|e|n e|x e|m e]; cbn in Hc |- *; (split; [try exact H1|try exact H2]);
      intros g Hg; apply in_app_or in Hg; (destruct Hg as [Hg|[<-|[]]]; [solve [now apply H1|now apply H2]|now apply part]).
  Qed.

  Lemma by_emoji f : emoji_part w walks u f -> by_programs f.
  Proof.
    intros [g Hg| |lower g Hg|lower o cmds i be Hc Hi].
    - now apply Htext.
    - apply by_pure.
    - unfold emoji_create_default in Hg. destruct (emoji_build lower emoji_builder_default) as [be|]; [|discriminate]. injection Hg as <-.
      apply by_built_emoji; intros ? [].
    - destruct (emoji_session_by lower cmds Hc (emoji_start o)) as [H1 H2]; [destruct o; split; intros ? []|].
      destruct (by_built_emoji be _ H1 H2) as [H]. constructor. intro p. unfold emoji_call. rewrite Hi. apply H.
  Qed.

  (** ** Options *)
  Definition options_by (o : options) : Prop :=
    by_programs (o_dir_matcher o) /\ by_programs (o_file_matcher o) /\ by_programs (o_child_limit o) /\ by_programs (o_emoji o) /\
    by_programs (compute_line_extension o) /\ by_programs2 (o_comparator o).

  Lemma by_default : options_by default_options.
  Proof. repeat split; intros; apply cut_ret. Qed.

  Lemma by_set lower s o o' : setter_ok w walks u s -> options_by o -> set_option lower s o = Ok o' -> options_by o'.
  Proof.
    intros Hs (H1 & H2 & H3 & H4 & H5 & H6).
    destruct s as [n|[f|]|[f|]| |[e|]|c|d|[c|]|[m|]|[m|]|[x|]]; cbn [set_option require]; intro Eo; try discriminate Eo.
    4: destruct (emoji_create_default lower) as [e|] eqn:Ee; [|discriminate Eo].
    all: injection Eo as <-; cbn in Hs; unfold options_by; cbn -[then_comparing emoji_create_default compute_line_extension];
      repeat (split; [try assumption|]); try assumption.
    - apply by_pure.
    - now apply by_limit.
    - eapply by_emoji. eapply ep_default. exact Ee.
    - now apply by_emoji.
    - destruct (by_order c Hs) as [Hc]. constructor. apply cut_then; [exact Hc|exact cut_alphabetical].
    - now apply part.
    - now apply part.
    - destruct (by_ext x Hs) as [Hx]. constructor. exact Hx.
    - constructor. intro. apply cut_ret.
  Qed.

  Lemma by_set_all lower l : (forall s, In s l -> setter_ok w walks u s) -> forall o, options_by o -> options_by (fst (set_all lower l o)).
  Proof.
    induction l as [|s l IH]; intros Hl o Ho; [exact Ho|]. cbn [set_all]. destruct (set_option lower s o) as [o'|e] eqn:Es; [|exact Ho].
    apply IH; [intros; apply Hl; now right|]. eapply by_set; eauto. apply Hl. now left.
  Qed.
End Parts.

Theorem parts_programs : forall w u lower l o err p,
  (forall m, own_matcher u m -> exists t : path -> prog bool, forall q, means (t q) (m q)) ->
  (forall f, own_number u f -> exists t : path -> prog Z, forall q, means (t q) (f q)) ->
  (forall f, own_text u f -> exists t : path -> prog (option jstring), forall q, means (t q) (f q)) ->
  (forall c, own_order u c -> exists t : path -> path -> prog Z, forall a b, means (t a b) (c a b)) ->
  (forall s, In s l -> setter_ok w true u s) -> set_all lower l default_options = (o, err) ->
  exists t, means t (pretty_print o p).
Proof.
  intros w u lower l o err p H1 H2 H3 H4 Hl Ho.
  assert (H : options_by o).
  { replace o with (fst (set_all lower l default_options)) by now rewrite Ho. apply by_set_all with (w := w) (walks := true) (u := u); try exact Hl.
    - intros m Hm. apply by_programs_iff. auto.
    - intros f Hf. apply by_programs_iff. auto.
    - intros f Hf. apply by_programs_iff. auto.
    - intros c Hc. apply by_programs2_iff. auto.
    - apply by_default. }
  destruct H as ([G1] & [G2] & [G3] & [G4] & [G5] & [G6]).
  destruct (cut_print o G3 G6 G4 G1 G2 G5 p) as [t Ht]. now exists t.
Qed.
