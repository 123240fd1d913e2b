(** * The parts the library offers access the file system only to ask for kinds and lengths *)

From Verif Require Import SpecParts RunFacts SeenFacts MatcherFacts OptionFacts.
From Coq Require Import Lia.
Close Scope Z_scope.

Section Parts.
  Context (w : world) (walks : bool) (u : own) (K : hist -> trace -> Prop) (E : exn -> Prop).
  Hypothesis Knil : forall h, K h [].
  Hypothesis Kapp : forall h t t', K h t -> K (rev t ++ h) t' -> K h (t ++ t').
  Hypothesis Klstat : forall h p, K h [EvLstat p (w_lstat w h p)].
  Hypothesis Klength : forall h p, K h [EvLength p (w_length w h p)].
  Hypothesis Kmatcher : forall m, assembled w walks (own_matcher u) m -> forall p, calm w K E (m p).
  Hypothesis Knumber : forall f, own_number u f -> forall p, calm w K E (f p).
  Hypothesis Ktext : forall f, own_text u f -> forall p, calm w K E (f p).
  Hypothesis Korder : forall c, own_order u c -> forall a b, calm w K E (c a b).

  Notation calm := (calm w K E).
  Let cret {A} (a : A) : calm (ret a) := calm_ret w K E Knil a.
  Let cbind {A B} (m : M A) (f : A -> M B) : calm m -> (forall a, calm (f a)) -> calm (bind m f) := calm_bind w K E Kapp m f.
  Let ckind k p : calm (has_kind k p) := calm_kind w K E Knil Kapp Klstat k p.
  Let cjvm : calm get_jvm := calm_jvm w K E Knil.

  Lemma calm_length p : calm (file_length p).
  Proof. intro h. exists (Ok (w_length w h p)), [EvLength p (w_length w h p)]. split; [reflexivity|]. split; [apply Klength|discriminate]. Qed.

  Lemma calm_comparing key : (forall p, calm (key p)) -> forall a b, calm (comparing key a b).
  Proof. intros H a b. apply cbind; [apply H|]. intro. apply cbind; [apply H|]. intro. apply cret. Qed.

  Lemma calm_then c1 c2 : (forall a b, calm (c1 a b)) -> (forall a b, calm (c2 a b)) -> forall a b, calm (then_comparing c1 c2 a b).
  Proof. intros H1 H2 a b. apply cbind; [apply H1|]. intro z. destruct (z =? 0)%Z; [apply H2|apply cret]. Qed.

  Lemma calm_alphabetical a b : calm (ALPHABETICAL a b).
  Proof. apply cret. Qed.

  (** ** The sort builder *)
  Definition rules_calm (b : sort_builder) : Prop := forall f, In f b -> forall p, calm (f p).

  Lemma calm_precedence rules : rules_calm rules -> forall z p, calm (sort_precedence_loop z rules p).
  Proof.
    induction rules as [|f l IH]; intros H z p; cbn [sort_precedence_loop]; [apply cret|].
    apply cbind; [apply H; now left|]. intro r. destruct (negb _); [apply cret|]. apply IH. intros g Hg. apply H. now right.
  Qed.

  Lemma calm_sort_build rules : rules_calm rules -> forall a b, calm (sort_build rules a b).
  Proof. intro H. apply calm_then; [|exact calm_alphabetical]. apply calm_comparing. intro p. now apply calm_precedence. Qed.

  Lemma sort_session_calm cmds : (forall c, In c cmds -> sort_call_ok w walks u c) ->
    forall s, rules_calm (ss_builder s) -> Forall rules_calm (ss_built s) ->
    rules_calm (ss_builder (sort_run s cmds)) /\ Forall rules_calm (ss_built (sort_run s cmds)).
  Proof.
    induction cmds as [|c cmds IH]; intros Hc s H1 H2; [now split|]. apply IH; [intros; apply Hc; now right| |].
    - specialize (Hc c (or_introl eq_refl)). destruct c as [[f|m z|m|m]|]; cbn in Hc |- *; try exact H1;
        unfold sort_add_matcher, sort_add; intros g Hg p; apply in_app_or in Hg; destruct Hg as [Hg|[<-|[]]]; try (now apply H1); [now apply Knumber|..];
        (apply cbind; [now apply Kmatcher|intro; apply cret]).
    - destruct c as [o|]; cbn; [exact H2|]. apply Forall_app. split; [exact H2|]. constructor; [exact H1|constructor].
  Qed.

  Lemma calm_order c : order_part w walks u c -> forall a b, calm (c a b).
  Proof.
    induction 1 as [c Hc| | | | | |c1 c2 _ IH1 _ IH2|c _ IH|cmds i Hc Hi]; intros a b.
    - now apply Korder.
    - apply calm_alphabetical.
    - apply calm_comparing. intro p. apply cbind; [apply ckind|]. intros []; [apply cret|apply calm_length].
    - apply cbind; [apply ckind|]. intro. apply cbind; [apply ckind|]. intro. apply cret.
    - apply cbind; [apply ckind|]. intro. apply cbind; [apply ckind|]. intro. apply cret.
    - apply cbind; [apply ckind|]. intro d1. apply cbind; [apply ckind|]. intro d2. destruct d1; [apply cret|]. destruct d2; [apply cret|].
      apply cbind; [apply cjvm|]. intro. apply cret.
    - now apply calm_then.
    - apply IH.
    - destruct (sort_session_calm cmds Hc sort_start) as [_ H]; [intros ? []|constructor|].
      unfold sort_call. destruct (nth_error _ i) as [rules|] eqn:En; [|apply nth_error_None in En; lia].
      apply calm_sort_build. rewrite Forall_forall in H. apply H. eapply nth_error_In. eauto.
  Qed.

  (** ** Child limits *)
  Definition limits_calm (l : list limit_fn) : Prop := forall f, In f l -> forall p, calm (f p).

  Lemma calm_limit_loop rules : limits_calm rules -> forall z p, calm (limit_loop z rules p).
  Proof.
    induction rules as [|f l IH]; intros H z p; cbn [limit_loop]; [apply cret|].
    apply cbind; [apply H; now left|]. intro r. destruct (0 <=? r)%Z; [apply cret|]. apply IH. intros g Hg. apply H. now right.
  Qed.

  Lemma limit_session_calm cmds : (forall c, In c cmds -> limit_call_ok w walks u c) ->
    forall s, limits_calm (lb_limits (ls_builder s)) -> Forall limits_calm (ls_built s) ->
    limits_calm (lb_limits (ls_builder (limit_run s cmds))) /\ Forall limits_calm (ls_built (limit_run s cmds)).
  Proof.
    induction cmds as [|c cmds IH]; intros Hc s H1 H2; [now split|]. apply IH; [intros; apply Hc; now right| |].
    - specialize (Hc c (or_introl eq_refl)). destruct c as [[z|f|m z]|]; cbn in Hc |- *; try exact H1;
        intros g Hg p; apply in_app_or in Hg; destruct Hg as [Hg|[<-|[]]]; try (now apply H1); [now apply Knumber|].
      apply cbind; [now apply Kmatcher|]. intro. apply cret.
    - destruct c as [o|]; cbn; [exact H2|]. apply Forall_app. split; [exact H2|]. constructor; [exact H1|constructor].
  Qed.

  Lemma calm_limit f : limit_part w walks u f -> forall p, calm (f p).
  Proof.
    intros [g Hg|d cmds i Hc Hi] p; [now apply Knumber|].
    destruct (limit_session_calm cmds Hc (limit_start d)) as [_ H]; [intros ? []|constructor|].
    unfold limit_call. destruct (nth_error _ i) as [rules|] eqn:En; [|apply nth_error_None in En; lia].
    apply calm_limit_loop. rewrite Forall_forall in H. apply H. eapply nth_error_In. eauto.
  Qed.

  (** ** Line extensions *)
  Definition exts_calm (l : list ext_fn) : Prop := forall f, In f l -> forall p, calm (f p).

  Lemma calm_ext_loop rules : exts_calm rules -> forall z p, calm (ext_loop z rules p).
  Proof.
    induction rules as [|f l IH]; intros H z p; cbn [ext_loop]; [apply cret|].
    apply cbind; [apply H; now left|]. intro r. destruct (is_some r); [apply cret|]. apply IH. intros g Hg. apply H. now right.
  Qed.

  Lemma ext_session_calm cmds : (forall c, In c cmds -> ext_call_ok w walks u c) ->
    forall s, exts_calm (xs_builder s) -> Forall exts_calm (xs_built s) ->
    exts_calm (xs_builder (ext_run s cmds)) /\ Forall exts_calm (xs_built (ext_run s cmds)).
  Proof.
    induction cmds as [|c cmds IH]; intros Hc s H1 H2; [now split|]. apply IH; [intros; apply Hc; now right| |].
    - specialize (Hc c (or_introl eq_refl)). destruct c as [[f|m z|m]|]; cbn in Hc |- *; try exact H1;
        intros g Hg p; apply in_app_or in Hg; destruct Hg as [Hg|[<-|[]]]; try (now apply H1); [now apply Ktext|..];
        (apply cbind; [now apply Kmatcher|intro; apply cret]).
    - destruct c as [o|]; cbn; [exact H2|]. apply Forall_app. split; [exact H2|]. constructor; [exact H1|constructor].
  Qed.

  Lemma calm_ext f : ext_part w walks u f -> forall p, calm (f p).
  Proof.
    intros [g Hg|cmds i Hc Hi] p; [now apply Ktext|].
    destruct (ext_session_calm cmds Hc ext_start) as [_ H]; [intros ? []|constructor|].
    unfold ext_call. destruct (nth_error _ i) as [rules|] eqn:En; [|apply nth_error_None in En; lia].
    apply calm_ext_loop. rewrite Forall_forall in H. apply H. eapply nth_error_In. eauto.
  Qed.

  (** ** Emojis *)
  Definition matches_calm (l : list emoji_match) : Prop := forall em, In em l -> forall p, calm (em_matcher em p).

  Lemma calm_matcher_emoji l : matches_calm l -> forall p, calm (path_matcher_emoji l p).
  Proof.
    induction l as [|em l IH]; intros H p; cbn [path_matcher_emoji]; [apply cret|].
    apply cbind; [apply H; now left|]. intros []; [apply cret|]. apply IH. intros g Hg. apply H. now right.
  Qed.

  Lemma calm_name_emoji m p : calm (path_name_emoji m p).
  Proof. unfold path_name_emoji. destruct (get_file_name p); [|apply cret]. apply cbind; [apply cjvm|]. intro. apply cret. Qed.

  Lemma calm_extension_emoji m p : calm (path_extension_emoji m p).
  Proof. unfold path_extension_emoji. destruct (get_file_name p); [|apply cret]. apply cbind; [apply cjvm|]. intro. apply cret. Qed.

  Lemma calm_sequential l : (forall f, In f l -> forall p, calm (f p)) -> forall p, calm (sequential_emoji l p).
  Proof.
    induction l as [|f l IH]; intros H p; cbn [sequential_emoji]; [apply cret|].
    apply cbind; [apply H; now left|]. intro e. destruct (is_some e); [apply cret|]. apply IH. intros g Hg. apply H. now right.
  Qed.

  Lemma calm_built_emoji be b : matches_calm (eb_dir_matchers b) -> matches_calm (eb_file_matchers b) -> forall p, calm (built_emoji_apply be b p).
  Proof.
    intros H1 H2 p. unfold built_emoji_apply, default_emoji_mapping. apply cbind; [apply ckind|].
    intros []; (apply cbind; [|intro; apply cret]); apply calm_sequential.
    - intros f [<-|[<-|[]]]; [now apply calm_matcher_emoji|apply calm_name_emoji].
    - intros f [<-|[<-|[<-|[]]]]; [now apply calm_matcher_emoji|apply calm_name_emoji|apply calm_extension_emoji].
  Qed.

  Lemma emoji_session_calm lower cmds : (forall c, In c cmds -> emoji_call_ok w walks u c) ->
    forall s, matches_calm (eb_dir_matchers (es_builder s)) /\ matches_calm (eb_file_matchers (es_builder s)) ->
    matches_calm (eb_dir_matchers (es_builder (emoji_run lower s cmds))) /\ matches_calm (eb_file_matchers (es_builder (emoji_run lower s cmds))).
  Proof.
    induction cmds as [|c cmds IH]; intros Hc s H; [exact H|]. apply IH; [intros; apply Hc; now right|].
    specialize (Hc c (or_introl eq_refl)). destruct c as [o|]; [|exact H].
    cbn [emoji_exec es_builder] in *. destruct (es_builder s) as [dd dm dn df fm fn fe]. cbn in H. destruct H as [H1 H2].
    destruct o as [e|n e|m e|e|n e|x e|m e]; cbn in Hc |- *; (split; [try exact H1|try exact H2]);
      intros g Hg p; apply in_app_or in Hg; (destruct Hg as [Hg|[<-|[]]]; [solve [now apply H1|now apply H2]|now apply Kmatcher]).
  Qed.

  Lemma calm_emoji f : emoji_part w walks u f -> forall p, calm (f p).
  Proof.
    intros [g Hg| |lower g Hg|lower o cmds i be Hc Hi] p.
    - now apply Ktext.
    - apply cret.
    - unfold emoji_create_default in Hg. destruct (emoji_build lower emoji_builder_default) as [be|]; [|discriminate]. injection Hg as <-.
      apply calm_built_emoji; intros ? [].
    - unfold emoji_call. rewrite Hi.
      destruct (emoji_session_calm lower cmds Hc (emoji_start o)) as [H1 H2]; [destruct o; split; intros ? []|]. now apply calm_built_emoji.
  Qed.

  (** ** Options *)
  Definition calm_options (o : options) : Prop :=
    (forall p, calm (o_dir_matcher o p)) /\ (forall p, calm (o_file_matcher o p)) /\ (forall p, calm (o_child_limit o p)) /\
    (forall p, calm (o_emoji o p)) /\ match o_line_extension o with Some f => forall p, calm (f p) | None => True end /\
    (forall a b, calm (o_comparator o a b)).

  Lemma calm_default : calm_options default_options.
  Proof. repeat split; intros; cbn; apply cret. Qed.

  Lemma calm_set lower s o o' : setter_ok w walks u s -> calm_options o -> set_option lower s o = Ok o' -> calm_options o'.
  Proof.
    intros Hs (H1 & H2 & H3 & H4 & H5 & H6).
    destruct s as [n|[f|]|[f|]| |[e|]|c|d|[c|]|[m|]|[m|]|[x|]]; cbn [set_option require]; intro Eo; try discriminate Eo.
    4: destruct (emoji_create_default lower) as [e|] eqn:Ee; [|discriminate Eo].
    all: injection Eo as <-; cbn in Hs; unfold calm_options; cbn -[then_comparing emoji_create_default]; repeat (split; [try assumption|]); try assumption.
    - intro. apply cret.
    - now apply calm_limit.
    - eapply calm_emoji. eapply ep_default. exact Ee.
    - now apply calm_emoji.
    - apply calm_then; [now apply calm_order|exact calm_alphabetical].
    - now apply Kmatcher.
    - now apply Kmatcher.
    - now apply calm_ext.
  Qed.

  Lemma calm_set_all lower l : (forall s, In s l -> setter_ok w walks u s) -> forall o, calm_options o -> calm_options (fst (set_all lower l o)).
  Proof.
    induction l as [|s l IH]; intros Hl o Ho; [exact Ho|]. cbn [set_all]. destruct (set_option lower s o) as [o'|e] eqn:Es; [|exact Ho].
    apply IH; [intros; apply Hl; now right|]. eapply calm_set; eauto. apply Hl. now left.
  Qed.
End Parts.

Theorem C98_modest_lemma : forall w u E lower l o err,
  own_parts w u (modest w) E -> (forall s, In s l -> setter_ok w false u s) -> set_all lower l default_options = (o, err) ->
  callbacks w o (modest w) E.
Proof.
  intros w u E lower l o err (H1 & H2 & H3 & H4) Hl Ho.
  assert (H : calm_options w (fun _ => modest w) E o).
  { replace o with (fst (set_all lower l default_options)) by now rewrite Ho.
    apply calm_set_all with (walks := false) (u := u); try exact Hl.
    - intros _. constructor.
    - intros _. apply modest_app.
    - intros. repeat constructor. cbn. eauto.
    - intros. repeat constructor. cbn. eauto.
    - intros m Hm p h. exact (C96_modest_lemma w _ E m H1 Hm p h).
    - intros f Hf p h. exact (H2 f Hf p h).
    - intros f Hf p h. exact (H3 f Hf p h).
    - intros c Hc a b h. exact (H4 c Hc a b h).
    - apply calm_default. intros _. constructor. }
  destruct H as (G1 & G2 & G3 & G4 & G5 & G6). repeat split; assumption.
Qed.

Theorem C98_balanced_lemma : forall w u (E : exn -> Prop) lower l o err,
  own_parts w u balanced E -> (forall s, In s l -> setter_ok w true u s) -> set_all lower l default_options = (o, err) ->
  callbacks w o balanced (fun x => E x \/ walk_failure x).
Proof.
  intros w u E lower l o err (H1 & H2 & H3 & H4) Hl Ho.
  assert (L : forall A B (f : A -> M B), callback w f balanced E -> callback w f balanced (fun x => E x \/ walk_failure x)).
  { intros A B f Hf. eapply callback_weaken; [..|exact Hf]; auto. }
  assert (H : calm_options w (fun _ => balanced) (fun x => E x \/ walk_failure x) o).
  { replace o with (fst (set_all lower l default_options)) by now rewrite Ho.
    apply calm_set_all with (walks := true) (u := u); try exact Hl.
    - intros _. constructor.
    - intros _. apply balanced_app.
    - intros. constructor; try constructor; discriminate.
    - intros. constructor; try constructor; discriminate.
    - intros m Hm p h. exact (C70_lemma w _ E m H1 Hm p h).
    - intros f Hf p h. exact (L _ _ f (H2 f Hf) p h).
    - intros f Hf p h. exact (L _ _ f (H3 f Hf) p h).
    - intros c Hc a b h. exact (L _ _ (c a) (H4 c Hc a) b h).
    - apply calm_default. intros _. constructor. }
  destruct H as (G1 & G2 & G3 & G4 & G5 & G6). repeat split; assumption.
Qed.

Lemma calm_honest A B w (f : A -> M B) : (forall a, calm w (truthful_from w) (fun _ => True) (f a)) <-> honest w f.
Proof.
  split; intros H a h; destruct (H a h) as (r & t & H1 & H2); [destruct H2 as [H2 _]|]; exists r, t; auto.
Qed.

Theorem C98_honest_lemma : forall w u lower l o err,
  own_honest w u -> (forall s, In s l -> setter_ok w true u s) -> set_all lower l default_options = (o, err) -> honest_callbacks w o.
Proof.
  intros w u lower l o err (H1 & H2 & H3 & H4) Hl Ho.
  assert (H : calm_options w (truthful_from w) (fun _ => True) o).
  { replace o with (fst (set_all lower l default_options)) by now rewrite Ho.
    apply calm_set_all with (walks := true) (u := u); try exact Hl.
    - intros. apply truthful_nil.
    - intros. now apply truthful_app.
    - intros. now apply truthful_one.
    - intros. now apply truthful_one.
    - intros m Hm. apply calm_honest. exact (C96_honest_lemma w _ m H1 Hm).
    - intros f Hf. apply calm_honest. auto.
    - intros f Hf. apply calm_honest. auto.
    - intros c Hc a. apply calm_honest. auto.
    - apply calm_default. intros. apply truthful_nil. }
  destruct H as (G1 & G2 & G3 & G4 & G5 & G6). repeat split; try (now apply calm_honest); [destruct (o_line_extension o); [now apply calm_honest|exact I]|].
  intro a. now apply calm_honest.
Qed.
