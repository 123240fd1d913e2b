(** * Facts about the command line *)

From Verif Require Import DocFacts PathFacts MatcherFacts EmojiFacts BuilderFacts.
From Coq Require Import Lia Sorting.Sorted.
Close Scope Z_scope.

(** ** Format strings *)

Lemma parse_no_percent ls bad s : no_percent s -> parse_format ls bad 0 s = Some (map PChar s).
Proof.
  induction s as [|c s IH]; intro H; [reflexivity|]. cbn [parse_format].
  destruct (N.eqb_spec c c_percent) as [->|_]; [destruct H; now left|]. rewrite IH; [reflexivity|]. intro Hi. apply H. now right.
Qed.

Lemma parse_prefix ls bad s t : no_percent s ->
  parse_format ls bad 0 (s ++ t) = match parse_format ls bad 0 t with Some l => Some (map PChar s ++ l) | None => None end.
Proof.
  induction s as [|c s IH]; intro H; cbn [app map parse_format]; [now destruct (parse_format ls bad 0 t)|].
  destruct (N.eqb_spec c c_percent) as [->|_]; [destruct H; now left|]. rewrite IH.
  - now destruct (parse_format ls bad 0 t).
  - intro Hi. apply H. now right.
Qed.

Lemma print_chars args s l : print_pieces args (map PChar s ++ l) = (s ++ fst (print_pieces args l), snd (print_pieces args l)).
Proof.
  induction s as [|c s IH]; cbn [map app print_pieces]; [now destruct (print_pieces args l)|]. now rewrite IH.
Qed.

Lemma no_percent_app s t : no_percent (s ++ t) <-> no_percent s /\ no_percent t.
Proof. unfold no_percent. rewrite in_app_iff. tauto. Qed.

Definition put_to (dest : stream) (t : jstring) (s : cstate) : cstate :=
  match dest with StdOut => write_out t s | StdErr => write_err t s end.

Lemma printfln_plain dest msg w s : no_percent msg -> no_percent (cw_linesep w) ->
  printfln dest msg [] w s = (COk tt, put_to dest (msg ++ cw_linesep w) s).
Proof.
  intros Hm Hl. unfold printfln. rewrite parse_no_percent by now apply no_percent_app.
  rewrite <- (app_nil_r (map PChar _)), print_chars. cbn [print_pieces fst snd]. now rewrite app_nil_r.
Qed.

Lemma parse_s ls bad : no_percent ls -> parse_format ls bad 0 (js "%s" ++ ls) = Some (PArg true :: map PChar ls).
Proof.
  intro H. change (js "%s" ++ ls) with (c_percent :: 115%N :: ls). cbn [parse_format].
  change (c_percent =? c_percent)%N with true. cbv iota.
  assert (E : parse_spec (115%N :: ls) = Some (mkSpec [] [] [] [] [] 115%N)) by (clear H; destruct ls as [|c ls]; vm_compute; reflexivity).
  rewrite E. change (spec_piece ls bad (mkSpec [] [] [] [] [] 115%N)) with (Some (PArg true)). cbv iota beta.
  change (spec_length (mkSpec [] [] [] [] [] 115%N)) with 1. cbn [parse_format]. now rewrite (parse_no_percent ls bad ls H).
Qed.

Lemma printfln_s dest msg arg w s : no_percent msg -> no_percent (cw_linesep w) ->
  printfln dest (msg ++ js "%s") [arg] w s = (COk tt, put_to dest (msg ++ arg ++ cw_linesep w) s).
Proof.
  intros Hm Hl. unfold printfln. rewrite <- app_assoc, parse_prefix, parse_s by assumption.
  rewrite print_chars. cbn [print_pieces].
  rewrite <- (app_nil_r (map PChar _)), print_chars. cbn [print_pieces fst snd]. now rewrite app_nil_r.
Qed.

Definition percents (s : jstring) : nat := count_occ N.eq_dec s c_percent.

Lemma percents_app s t : percents (s ++ t) = percents s + percents t.
Proof. apply count_occ_app. Qed.

Lemma percents_zero s : no_percent s <-> percents s = 0.
Proof. unfold no_percent, percents. rewrite (count_occ_not_In N.eq_dec). tauto. Qed.

Lemma span_app f s a b : span f s = (a, b) -> s = a ++ b.
Proof.
  revert a b. induction s as [|c s IH]; intros a b; cbn [span]; [now intros [= <- <-]|].
  destruct (f c); [|now intros [= <- <-]]. destruct (span f s) as [x y]. intros [= <- <-]. cbn. now rewrite (IH x y).
Qed.

(** A specifier is a prefix of the text. *)
Lemma parse_spec_text s sp : parse_spec s = Some sp ->
  exists rest, s = (sp_index sp ++ sp_flags sp ++ sp_width sp ++ sp_precision sp ++ sp_time sp ++ [sp_conv sp]) ++ rest.
Proof.
  unfold parse_spec. destruct (span is_digit s) as [d r] eqn:E1. apply span_app in E1.
  set (ix := match d, r with _ :: _, 36%N :: r' => (d ++ [36%N], r') | _, _ => ([], s) end).
  assert (Hix : s = fst ix ++ snd ix).
  { subst ix. destruct d as [|d0 d]; [reflexivity|]. destruct r as [|r0 r]; [reflexivity|].
    destruct r0 as [|q]; [reflexivity|]. repeat (destruct q as [q|q|]; try reflexivity). cbn [fst snd]. rewrite <- app_assoc. exact E1. }
  destruct ix as [index s1]. cbn [fst snd] in Hix. clear E1.
  destruct (span is_flag s1) as [flags s2] eqn:E2. apply span_app in E2.
  destruct (span is_digit s2) as [width s3] eqn:E3. apply span_app in E3.
  set (pr := match s3 with 46%N :: r' => match span is_digit r' with ([], _) => None | (p, s4) => Some (46%N :: p, s4) end
             | _ => Some ([], s3) end).
  assert (Hpr : forall a b, pr = Some (a, b) -> s3 = a ++ b).
  { intros a b. subst pr. destruct s3 as [|c s3]; [now intros [= <- <-]|].
    destruct c as [|q]; [now intros [= <- <-]|].
    repeat (destruct q as [q|q|]; try (now intros [= <- <-])).
    destruct (span is_digit s3) as [[|x y] z] eqn:E; [discriminate|]. intros [= <- <-]. apply span_app in E. cbn. now rewrite E. }
  destruct pr as [[prec s4]|]; [|discriminate]. specialize (Hpr _ _ eq_refl). intro H.
  assert (K : forall t c rest sp', s4 = t ++ c :: rest -> Some (mkSpec index flags width prec t c) = Some sp' ->
    exists rest, s = (sp_index sp' ++ sp_flags sp' ++ sp_width sp' ++ sp_precision sp' ++ sp_time sp' ++ [sp_conv sp']) ++ rest).
  { intros t c rest sp' E [= <-]. cbn [sp_index sp_flags sp_width sp_precision sp_time sp_conv]. exists rest.
    rewrite Hix, E2, E3, Hpr, E. rewrite <- !app_assoc. reflexivity. }
  destruct s4 as [|t [|c rest]]; [discriminate| |].
  - destruct (is_letter t || (t =? 37)%N); [|discriminate]. now apply (K [] t []).
  - destruct (((t =? 116) || (t =? 84))%N && (is_letter c || (c =? 37)%N)); [now apply (K [t] c rest)|].
    destruct (is_letter t || (t =? 37)%N); [|discriminate]. now apply (K [] t (c :: rest)).
Qed.

Lemma parse_skip ls bad k : forall s, k <= length s -> parse_format ls bad k s = parse_format ls bad 0 (skipn k s).
Proof.
  induction k as [|k IH]; intros [|c s] H; try reflexivity. cbn [parse_format skipn]. apply IH. cbn in H. lia.
Qed.

Lemma repeat_no_percent n : percents (repeat c_space n) = 0.
Proof. induction n; [reflexivity|]. exact IHn. Qed.

(** Every specifier removes a '%'. *)
Lemma spec_percents ls bad sp t : no_percent ls -> spec_piece ls bad sp = Some (PText t) ->
  percents t <= percents (sp_index sp ++ sp_flags sp ++ sp_width sp ++ sp_precision sp ++ sp_time sp ++ [sp_conv sp]).
Proof.
  intros Hl. unfold spec_piece. destruct sp as [ix fl wd pr tm cv]. cbn [sp_index sp_flags sp_width sp_precision sp_time sp_conv].
  rewrite !percents_app. destruct tm; [|destruct (_ || _); discriminate]. destruct pr; [|destruct (_ || _); discriminate].
  destruct (N.eqb_spec cv 37) as [->|_].
  - intro H. assert (percents t = 1); [|change (percents [37%N]) with 1; lia].
    destruct (good_index ix); [|discriminate]. unfold percent_text in H. destruct (2147483647 <? decimal wd)%N; [discriminate|].
    set (pad := repeat c_space (N.to_nat (decimal wd) - 1)) in *.
    assert (Hp : percents pad = 0) by apply repeat_no_percent.
    destruct fl as [|f0 fl].
    + injection H as <-. rewrite percents_app, Hp. reflexivity.
    + assert (E : match (match f0, fl, wd with 45%N, [], _ :: _ => Some ([c_percent] ++ pad) | _, _, _ => None end) with
                  | Some t => Some (PText t) | None => None end = Some (PText t)).
      { rewrite <- H. destruct f0 as [|q]; [reflexivity|]. repeat (destruct q as [q|q|]; try reflexivity). }
      clear H. destruct f0 as [|q]; [discriminate|]. repeat (destruct q as [q|q|]; try discriminate).
      destruct fl; [|discriminate]. destruct wd; [discriminate|]. injection E as <-. change (S (percents pad) = 1). now rewrite Hp.
  - destruct (N.eqb_spec cv 110) as [->|_].
    + destruct (good_index ix); [|discriminate]. destruct fl; [|discriminate]. destruct wd; [|discriminate]. intros [= <-].
      apply percents_zero in Hl. lia.
    + destruct ix, fl, wd; try (destruct (bad _); discriminate). destruct (cv =? 115)%N; [discriminate|]. destruct (bad _); discriminate.
Qed.

Lemma print_percents ls bad : no_percent ls -> forall n s l t, length s <= n ->
  parse_format ls bad 0 s = Some l -> print_pieces [] l = (t, true) ->
  percents t <= percents s /\ (percents t = percents s -> no_percent s).
Proof.
  intro Hl. induction n as [|n IH]; intros s l t Hn Hp Ht.
  - destruct s; [|cbn in Hn; lia]. injection Hp as <-. injection Ht as <-. split; [lia|]. intros _ [].
  - destruct s as [|c s]; [injection Hp as <-; injection Ht as <-; split; [lia|]; intros _ []|].
    cbn in Hn. cbn [parse_format] in Hp. destruct (N.eqb_spec c c_percent) as [->|Hc].
    + destruct (parse_spec s) as [sp|] eqn:Esp; [|discriminate]. destruct (spec_piece ls bad sp) as [p|] eqn:Ep; [|discriminate].
      destruct (parse_spec_text _ _ Esp) as [rest Er]. set (text := sp_index sp ++ _) in Er.
      assert (El : length text = spec_length sp).
      { subst text. unfold spec_length. rewrite !app_length. cbn. lia. }
      rewrite parse_skip in Hp by (rewrite Er, app_length, El; lia).
      rewrite Er in Hp. rewrite skipn_app, <- El, skipn_all, Nat.sub_diag in Hp. cbn [app skipn] in Hp.
      destruct (parse_format ls bad 0 rest) as [l'|] eqn:El'; [|discriminate]. injection Hp as <-.
      assert (Hr : length rest <= n) by (rewrite Er, app_length in Hn; lia).
      destruct p as [c|x|pl]; cbn [print_pieces] in Ht.
      * unfold spec_piece in Ep. exfalso.
        repeat match type of Ep with context [match ?x with _ => _ end] => destruct x end; discriminate.
      * destruct (print_pieces [] l') as [t' ok] eqn:Et'. injection Ht as <- ->.
        destruct (IH rest l' t' Hr El' Et') as [H1 H2]. pose proof (spec_percents _ _ _ _ Hl Ep) as H3. fold text in H3.
        rewrite percents_app, Er. change (percents (c_percent :: text ++ rest)) with (S (percents (text ++ rest))).
        rewrite percents_app. split; [lia|]. intro E. lia.
      * discriminate.
    + destruct (parse_format ls bad 0 s) as [l'|] eqn:El'; [|discriminate]. injection Hp as <-. cbn [print_pieces] in Ht.
      destruct (print_pieces [] l') as [t' ok] eqn:Et'. injection Ht as <- ->.
      destruct (IH s l' t' ltac:(lia) El' Et') as [H1 H2].
      assert (forall x, percents (c :: x) = percents x) as K.
      { intro x. unfold percents. apply count_occ_cons_neq. exact Hc. }
      rewrite !K. split; [exact H1|]. intro E. specialize (H2 E). intros [->|Hi]; [congruence|]. exact (H2 Hi).
Qed.

(** A text is printed unchanged exactly if it contains no '%'. *)
Theorem print_exact : forall w s text r s', no_percent (cw_linesep w) -> print text [] w s = (r, s') ->
  (r = COk tt /\ cs_out s' = cs_out s ++ text ++ cw_linesep w) <-> no_percent text.
Proof.
  intros w s text r s' Hl E. unfold print in E. split.
  - intros [-> Ho]. unfold printfln in E.
    destruct (parse_format (cw_linesep w) (cw_bad_spec w) 0 (text ++ cw_linesep w)) as [l|] eqn:El; [|discriminate].
    destruct (print_pieces [] l) as [t ok] eqn:Et. destruct ok; [|discriminate]. injection E as <-. cbn [write_out cs_out] in Ho.
    apply app_inv_head in Ho. subst t. destruct (print_percents _ _ Hl _ _ _ _ (le_n _) El Et) as [_ H]. specialize (H eq_refl).
    now apply no_percent_app in H.
  - intro Ht. rewrite printfln_plain in E by assumption. injection E as <- <-. now split.
Qed.

Lemma printfln_err dest msg w s r s' : printfln dest msg [] w s = (r, s') ->
  cs_events s' = cs_events s /\ cs_hist s' = cs_hist s /\
  match dest with StdOut => cs_err s' = cs_err s | StdErr => cs_out s' = cs_out s end.
Proof.
  unfold printfln. destruct (parse_format _ _ _ _); [|intros [= <- <-]; now destruct dest].
  destruct (print_pieces [] l) as [t ok]. intro E. injection E as _ <-. now destruct dest.
Qed.

(** ** Paths *)

Lemma resolved_absolute cwd p q : resolved cwd p q -> normalize (to_absolute cwd p) = q.
Proof.
  intros (Ha & Hs & Hf). destruct q as [a l]. cbn in Ha, Hf. subst a. rewrite normalize_to_absolute. f_equal.
  apply same_location_loc in Hs. rewrite Hs. unfold loc, to_absolute. cbn [p_abs p_names]. apply norm_names_plain. exact Hf.
Qed.

Lemma resolved_total cwd p : resolved cwd p (normalize (to_absolute cwd p)).
Proof.
  rewrite normalize_to_absolute. split; [reflexivity|]. split.
  - apply same_location_complete. unfold loc at 2. cbn [p_abs p_names to_absolute]. unfold loc at 2.
    cbn. symmetry. apply norm_names_idem.
  - apply norm_names_abs_plain.
Qed.

Lemma resolved_unique cwd p q q' : resolved cwd p q -> resolved cwd p q' -> q = q'.
Proof. intros H H'. apply resolved_absolute in H, H'. congruence. Qed.

Lemma resolved_self cwd q : p_abs q = true -> Forall (fun n => n <> n_dot /\ n <> n_dotdot) (p_names q) -> resolved cwd q q.
Proof. intros. split; [assumption|]. split; [constructor|assumption]. Qed.

(** ** Looking for options files *)

(** Only the files of [l] were asked about; nothing was written and the library was not called. *)
Definition looked (l : list path) (s s' : cstate) : Prop :=
  cs_hist s' = cs_hist s /\ cs_out s' = cs_out s /\ cs_err s' = cs_err s /\
  exists new, cs_events s' = new ++ cs_events s /\ Forall (fun e => In (event_path e) l /\ forall p, e <> CPrint p) new.

Lemma looked_refl l s : looked l s s.
Proof. repeat split. now exists []. Qed.

Lemma looked_trans l s1 s2 s3 : looked l s1 s2 -> looked l s2 s3 -> looked l s1 s3.
Proof.
  intros (A1 & A2 & A3 & n1 & E1 & F1) (B1 & B2 & B3 & n2 & E2 & F2). repeat split; try congruence.
  exists (n2 ++ n1). rewrite E2, E1, app_assoc. split; [reflexivity|]. now apply Forall_app.
Qed.

Lemma looked_incl l l' s s' : incl l l' -> looked l s s' -> looked l' s s'.
Proof.
  intros Hi (A1 & A2 & A3 & n & E & F). repeat split; try assumption. exists n. split; [exact E|].
  eapply Forall_impl; [|exact F]. intros e [H1 H2]. split; [now apply Hi|exact H2].
Qed.

Lemma looked_log l e s : In (event_path e) l -> (forall p, e <> CPrint p) -> looked l s (log e s).
Proof. intros H1 H2. repeat split. exists [e]. split; [reflexivity|]. repeat constructor; assumption. Qed.

(** The message the handler prints. *)
Definition exn_message (w : cworld) (e : cli_exn) : jstring :=
  match e with
  | XOptions p msg => msg ++ js ": " ++ path_str p
  | XViolations x => js "Invalid options file:" ++ cw_linesep w ++ cw_violations w x
  | _ => js "Error while pretty printing: " ++ get_message w e
  end.

Lemma handle_message e w s : handle_exception e w s = (print_error (exn_message w e) [] ~; cret 1%Z) w s.
Proof. reflexivity. Qed.

Lemma explains_message w x m : explains w x m -> get_message w (XLibrary x) = m.
Proof. intros [q|q|q|y H]; try reflexivity. unfold get_message, message. destruct y as [[] q| | | | | | | |]; try reflexivity; discriminate (H _ _ eq_refl). Qed.

Lemma explains_something w x : exists m, explains w x m.
Proof.
  destruct x as [[] q| | | | | | | |]; try (eexists; constructor; fail); eexists; apply sy_other; intros t' q' E; try discriminate.
  now injection E as <-.
Qed.

Definition refused {A} (w : cworld) (r : cres A) (msg : jstring) : Prop := exists e, r = CThrow e /\ exn_message w e = msg.

Section Lookup.
  Context (w : cworld) (fs : files) (Hw : steady_files w fs).
  Let cwd := jv_cwd (w_jvm (cw_world w)).

  Lemma read_simple_steady p q s : resolved cwd p q ->
    exists r s', read_simple false p w s = (r, s') /\ looked [q] s s' /\
      (missing fs q -> r = COk None) /\
      (forall x, good fs q x -> r = COk (Some x)) /\
      (forall msg, defective w fs q msg -> refused w r msg).
  Proof.
    intro Hq. apply resolved_absolute in Hq. unfold read_simple, absolute, file_exists, is_file, can_read, ask, cbind, get_world, cret.
    fold cwd. rewrite Hq. cbn [fst snd].
    set (s1 := log (CExists q) s). set (s2 := log (CIsFile q) s1). set (s3 := log (CCanRead q) s2). set (s4 := log (CLoad q) s3).
    assert (L1 : looked [q] s s1) by (apply looked_log; [now left|discriminate]).
    assert (L2 : looked [q] s s2) by (eapply looked_trans; [exact L1|]; apply looked_log; [now left|discriminate]).
    assert (L3 : looked [q] s s3) by (eapply looked_trans; [exact L2|]; apply looked_log; [now left|discriminate]).
    assert (L4 : looked [q] s s4) by (eapply looked_trans; [exact L3|]; apply looked_log; [now left|discriminate]).
    rewrite (proj1 (Hw s q)). destruct (f_exists fs q) eqn:E1; cbn [negb].
    2:{ exists (COk None), s1. split; [reflexivity|]. split; [exact L1|]. split; [reflexivity|]. split.
        - intros x (H & _). congruence.
        - intros msg H. inversion H; congruence. }
    assert (Hm : ~ missing fs q) by (unfold missing; congruence).
    rewrite (proj1 (proj2 (Hw s1 q))). destruct (f_is_file fs q) eqn:E2; cbn [negb].
    2:{ eexists _, s2. split; [reflexivity|]. split; [exact L2|]. split; [intro; contradiction|]. split.
        - intros x (_ & H & _). congruence.
        - intros msg H. inversion H; try congruence. eexists. split; reflexivity. }
    fold s2. rewrite (proj1 (proj2 (proj2 (Hw s2 q)))). destruct (f_can_read fs q) eqn:E3; cbn [negb].
    2:{ eexists _, s3. split; [reflexivity|]. split; [exact L3|]. split; [intro; contradiction|]. split.
        - intros x (_ & _ & H & _). congruence.
        - intros msg H. inversion H; try congruence. eexists. split; reflexivity. }
    unfold load, reading, print_debug, cbind, cret. fold s3. fold s4. rewrite (proj2 (proj2 (proj2 (Hw s3 q)))).
    destruct (f_load fs q) as [| |x] eqn:E4; cbn [validate].
    - eexists _, s4. split; [reflexivity|]. split; [exact L4|]. split; [intro; contradiction|]. split.
      + intros y (_ & _ & _ & H & _). congruence.
      + intros msg H. inversion H; try congruence. eexists. split; reflexivity.
    - eexists _, s4. split; [reflexivity|]. split; [exact L4|]. split; [intro; contradiction|]. split.
      + intros y (_ & _ & _ & H & _). congruence.
      + intros msg H. inversion H; try congruence. eexists. split; reflexivity.
    - unfold validate. destruct (valid_options x) eqn:E5; unfold cret, cthrow.
      + eexists _, s4. split; [reflexivity|]. split; [exact L4|]. split; [intro; contradiction|]. split.
        * intros y (_ & _ & _ & H & _). congruence.
        * intros msg H. inversion H as [| | | |y]; try congruence. assert (y = x) by congruence. subst y.
          apply valid_options_iff in E5. contradiction.
      + eexists _, s4. split; [reflexivity|]. split; [exact L4|]. split; [intro; contradiction|]. split.
        * intros y (_ & _ & _ & H & V). apply valid_options_iff in V. congruence.
        * intros msg H. inversion H as [| | | |y]; try congruence. assert (y = x) by congruence. subst y. eexists. split; reflexivity.
  Qed.

  Definition selected (sel : selection) (r : cres (option xoptions)) : Prop :=
    match sel with UseDefault => r = COk None | UseDocument x => r = COk (Some x) | Refuse msg => refused w r msg end.

  Lemma read_fallback_steady l : forall l' ex sel s, Forall2 (resolved cwd) l l' -> first_existing w fs l' ex sel ->
    exists r s', read_fallback false l w s = (r, s') /\ looked ex s s' /\ selected sel r.
  Proof.
    induction l as [|p l IH]; intros l' ex sel s HF Hsel; inversion HF as [|? q ? l'' Hq HF']; subst; cbn [read_fallback].
    - inversion Hsel; subst. unfold print_debug, cbind, cret. eexists _, s. split; [reflexivity|]. split; [apply looked_refl|reflexivity].
    - destruct (read_simple_steady p q s Hq) as (r & s1 & E & L & Hm & Hg & Hd).
      unfold cbind at 1. rewrite E. inversion Hsel as [|? ? ex' ? Hmiss Hrest|? ? x Hgood|? ? msg Hdef]; subst.
      + rewrite (Hm Hmiss). unfold print_debug, cbind, cret. destruct (IH l'' ex' sel s1 HF' Hrest) as (r' & s2 & E' & L' & R).
        exists r', s2. split; [exact E'|]. split; [|exact R].
        eapply looked_trans; eapply looked_incl; [|exact L| |exact L']; intros z; cbn; intuition.
      + rewrite (Hg _ Hgood). exists (COk (Some x)), s1. now split.
      + destruct (Hd _ Hdef) as (e & -> & He). exists (CThrow e), s1. split; [reflexivity|]. split; [exact L|]. now exists e.
  Qed.

  (** What looking for the options gives, for the choice [sel]. *)
  Lemma read_options_steady a T ex sel s : p_abs T = true -> Forall (fun n => n <> n_dot /\ n <> n_dotdot) (p_names T) ->
    chooses w fs a T ex sel ->
    exists r s', (explicit <~ match a_options a with None => cret None | Some p => p' <~ absolute p; cret (Some p') end;
                  read_options false T explicit) w s = (r, s') /\ looked ex s s' /\ selected sel r.
  Proof.
    intros Ta Tf Hc.
    assert (K : forall p q, a_options a = Some p -> resolved cwd p q ->
      (explicit <~ match a_options a with None => cret None | Some p => p' <~ absolute p; cret (Some p') end;
       read_options false T explicit) w s = read_options false T (Some q) w s /\ resolved cwd q q).
    { intros p q Ea Hq. rewrite Ea. unfold absolute, cbind, cret, get_world. fold cwd. rewrite (resolved_absolute _ _ _ Hq).
      split; [reflexivity|]. destruct Hq as (H1 & _ & H3). now apply resolved_self. }
    destruct Hc as [p q x Ea Hq Hgood|p q Ea Hq Hmiss|p q msg Ea Hq Hdef|here home ex sel Ea Hhere Hhome Hfe].
    - destruct (K p q Ea Hq) as [-> Hqq]. destruct (read_simple_steady q q s Hqq) as (r & s1 & E & L & Hm & Hg & Hd).
      unfold read_options, cbind. rewrite E, (Hg _ Hgood). exists (COk (Some x)), s1. now split.
    - destruct (K p q Ea Hq) as [-> Hqq]. destruct (read_simple_steady q q s Hqq) as (r & s1 & E & L & Hm & Hg & Hd).
      unfold read_options, cbind. rewrite E, (Hm Hmiss). eexists _, s1. split; [reflexivity|]. split; [exact L|]. eexists. split; reflexivity.
    - destruct (K p q Ea Hq) as [-> Hqq]. destruct (read_simple_steady q q s Hqq) as (r & s1 & E & L & Hm & Hg & Hd).
      unfold read_options, cbind. rewrite E. destruct (Hd _ Hdef) as (e & -> & He). eexists _, s1. split; [reflexivity|]. split; [exact L|].
      now exists e.
    - rewrite Ea. unfold cbind at 1. unfold cret. unfold read_options, print_debug, cbind, cret, get_world.
      eapply read_fallback_steady; [|exact Hfe]. unfold fallback_paths, options_name.
      apply Forall2_cons; [|apply Forall2_cons; [|apply Forall2_cons; [exact Hhome|apply Forall2_nil]]].
      + replace (resolve_name T (js ".prettyprint")) with (mkPath true (p_names T ++ [js ".prettyprint"])).
        * apply resolved_self; [reflexivity|]. cbn [p_names]. apply Forall_app. split; [exact Tf|].
          constructor; [|constructor]. split; vm_compute; discriminate.
        * unfold resolve_name. now rewrite Ta.
      + destruct Hhere as (H1 & H2 & H3). split; [exact H1|]. split; [|exact H3].
        eapply same_trans; [|exact H2]. apply (same_dot cwd false [] [js ".prettyprint"]).
  Qed.

  (** Exactly one choice. *)
  Lemma state_of_file q : missing fs q \/ (exists x, good fs q x) \/ (exists msg, defective w fs q msg).
  Proof.
    unfold missing, good. destruct (f_exists fs q) eqn:E1; [right|now left].
    destruct (f_is_file fs q) eqn:E2; [|right; eexists; now apply df_not_a_file].
    destruct (f_can_read fs q) eqn:E3; [|right; eexists; now apply df_unreadable].
    destruct (f_load fs q) as [| |x] eqn:E4; [right; eexists; now apply df_malformed|right; eexists; now apply df_null|].
    destruct (valid_options x) eqn:E5; [|right; eexists; apply (df_invalid w fs q x); try assumption; now apply invalid_options_iff].
    left. exists x. do 3 (split; [first [assumption|reflexivity]|]). split; [reflexivity|]. now apply valid_options_iff.
  Qed.

  Lemma first_existing_total l : exists ex sel, first_existing w fs l ex sel.
  Proof.
    induction l as [|q l (ex & sel & IH)]; [repeat econstructor|].
    destruct (state_of_file q) as [H|[(x & H)|(msg & H)]].
    - exists (q :: ex), sel. now apply fe_skip.
    - exists [q], (UseDocument x). now apply fe_use.
    - exists [q], (Refuse msg). now apply fe_refuse.
  Qed.

  Lemma file_states q :
    (missing fs q -> forall x, ~ good fs q x) /\ (missing fs q -> forall msg, ~ defective w fs q msg) /\
    (forall x msg, good fs q x -> ~ defective w fs q msg) /\ (forall x y, good fs q x -> good fs q y -> x = y) /\
    (forall m m', defective w fs q m -> defective w fs q m' -> m = m').
  Proof.
    unfold missing, good. split; [|split; [|split; [|split]]].
    - intros H x (H' & _). congruence.
    - intros H msg D. inversion D; congruence.
    - intros x msg (H1 & H2 & H3 & H4 & H5) D. inversion D; congruence.
    - intros x y (_ & _ & _ & H & _) (_ & _ & _ & H' & _). congruence.
    - intros m m' D D'. inversion D as [| | | |x]; inversion D' as [| | | |y]; try congruence.
  Qed.

  Lemma first_existing_det l : forall ex sel ex' sel', first_existing w fs l ex sel -> first_existing w fs l ex' sel' -> ex = ex' /\ sel = sel'.
  Proof.
    induction l as [|q l IH]; intros ex sel ex' sel' H H';
      inversion H as [|? ? e1 ? M1 R1|? ? x1 G1|? ? m1 D1]; inversion H' as [|? ? e2 ? M2 R2|? ? x2 G2|? ? m2 D2]; subst; try now split.
    all: destruct (file_states q) as (F1 & F2 & F3 & F4 & F5).
    - destruct (IH _ _ _ _ R1 R2) as [-> ->]. now split.
    - destruct (F1 M1 _ G2).
    - destruct (F2 M1 _ D2).
    - destruct (F1 M2 _ G1).
    - now rewrite (F4 _ _ G1 G2).
    - destruct (F3 _ _ G1 D2).
    - destruct (F2 M2 _ D1).
    - destruct (F3 _ _ G2 D1).
    - now rewrite (F5 _ _ D1 D2).
  Qed.

  Theorem one_choice : forall a T, exists ex sel, chooses w fs a T ex sel /\
    forall ex' sel', chooses w fs a T ex' sel' -> ex' = ex /\ sel' = sel.
  Proof.
    intros a T. destruct (a_options a) as [p|] eqn:Ea.
    - pose proof (resolved_total cwd p) as Hq. set (q := normalize (to_absolute cwd p)) in Hq. fold q in Hq.
      assert (U : forall q', resolved cwd p q' -> q' = q) by (intros; eapply resolved_unique; eassumption).
      destruct (file_states q) as (F1 & F2 & F3 & F4 & F5).
      destruct (state_of_file q) as [H|[(x & H)|(msg & H)]].
      + exists [q], (Refuse (js "Options file does not exist: " ++ path_str q)). split; [eapply ch_missing; eassumption|].
        intros ex' sel' [p' q' x' Ep Hr Hg|p' q' Ep Hr Hg|p' q' msg' Ep Hr Hg|? ? ? ? Ep _ _ _]; try congruence;
          (assert (p' = p) by congruence; subst p'; rewrite (U _ Hr) in *); [exfalso; eapply F1; eassumption|now split|exfalso; eapply F2; eassumption].
      + exists [q], (UseDocument x). split; [eapply ch_explicit; eassumption|].
        intros ex' sel' [p' q' x' Ep Hr Hg|p' q' Ep Hr Hg|p' q' msg' Ep Hr Hg|? ? ? ? Ep _ _ _]; try congruence;
          (assert (p' = p) by congruence; subst p'; rewrite (U _ Hr) in *); [split; [reflexivity|]; f_equal; eauto|exfalso; eapply F1; eassumption|exfalso; eapply F3; eassumption].
      + exists [q], (Refuse msg). split; [eapply ch_defective; eassumption|].
        intros ex' sel' [p' q' x' Ep Hr Hg|p' q' Ep Hr Hg|p' q' msg' Ep Hr Hg|? ? ? ? Ep _ _ _]; try congruence;
          (assert (p' = p) by congruence; subst p'; rewrite (U _ Hr) in *); [exfalso; eapply F3; eassumption|exfalso; eapply F2; eassumption|split; [reflexivity|]; f_equal; eauto].
    - set (here := normalize (to_absolute cwd (mkPath false [js ".prettyprint"]))).
      set (home := normalize (to_absolute cwd (mkPath (p_abs (cw_home w)) (p_names (cw_home w) ++ [js ".prettyprint"])))).
      destruct (first_existing_total [mkPath true (p_names T ++ [js ".prettyprint"]); here; home]) as (ex & sel & Hfe).
      exists ex, sel. split.
      + apply ch_fallback with (here := here) (home := home); [exact Ea|apply resolved_total|apply resolved_total|exact Hfe].
      + intros ex' sel' [p' q' x' Ep Hr Hg|p' q' Ep Hr Hg|p' q' msg' Ep Hr Hg|here' home' ? ? Ep H1 H2 Hfe']; try congruence.
        apply resolved_absolute in H1, H2. fold cwd in H1, H2. fold here in H1. fold home in H2. subst here' home'.
        exact (first_existing_det _ _ _ _ _ Hfe' Hfe).
  Qed.
End Lookup.

(** ** The whole command, debug off *)

Definition new_events (s s' : cstate) (P : cli_event -> Prop) : Prop :=
  exists new, cs_events s' = new ++ cs_events s /\ Forall P new.

Lemma looked_events l s s' : looked l s s' -> new_events s s' (fun e => In (event_path e) l /\ forall p, e <> CPrint p).
Proof. intros (_ & _ & _ & H). exact H. Qed.

Section Command.
  Context (w : cworld) (a : cli_args) (Hdebug : a_debug a = false) (Hls : no_percent (cw_linesep w)).
  Let cwd := jv_cwd (w_jvm (cw_world w)).
  Context (T : path) (HT : resolved cwd (asked_target a) T).

  Lemma detect_target_value s : detect_target a w s = (COk T, s).
  Proof.
    unfold detect_target. rewrite Hdebug. unfold print_debug, cbind, cret. pose proof (resolved_absolute _ _ _ HT) as E.
    unfold asked_target in E. destruct (a_target a) as [p|]; unfold absolute, cbind, cret, get_world; fold cwd.
    - now rewrite E.
    - change (path_of (js ".")) with (mkPath false [n_dot]). now rewrite E.
  Qed.

  Theorem missing_target : forall s, cw_exists w s T = false ->
    run_cli a w s = (1%Z, mkCState (CExists T :: cs_events s) (cs_hist s) (cs_out s)
                            (cs_err s ++ js "[ERROR] Path not found: " ++ path_str T ++ cw_linesep w)).
  Proof.
    intros s He. unfold run_cli, command, cbind. rewrite detect_target_value. unfold file_exists, ask. rewrite He. cbn [negb].
    unfold print_error. change (js "[ERROR] " ++ js "Path not found: %s") with (js "[ERROR] Path not found: " ++ js "%s").
    rewrite printfln_s; [reflexivity| |exact Hls]. clear. unfold no_percent. vm_compute. intuition discriminate.
  Qed.

  (** Failing with a message: the exit code is 1 and standard output is untouched; without '%' the message is printed as it is. *)
  Lemma fails_with e s : forall code s', match handle_exception e w s with (COk c, s'') => (c, s'') | (CThrow e', s'') => (1%Z, write_err (cw_stack_trace w e') s'') end = (code, s') ->
    code = 1%Z /\ cs_out s' = cs_out s /\ cs_events s' = cs_events s /\
    (no_percent (exn_message w e) -> cs_err s' = cs_err s ++ js "[ERROR] " ++ exn_message w e ++ cw_linesep w).
  Proof.
    intros code s' H. rewrite handle_message in H. unfold print_error, cbind in H.
    destruct (printfln StdErr (js "[ERROR] " ++ exn_message w e) [] w s) as [r s1] eqn:E.
    destruct (printfln_err _ _ _ _ _ _ E) as (E1 & E2 & E3).
    assert (K : no_percent (exn_message w e) -> r = COk tt /\ cs_err s1 = cs_err s ++ js "[ERROR] " ++ exn_message w e ++ cw_linesep w).
    { intro Hn. rewrite printfln_plain in E; [|apply no_percent_app; split; [|exact Hn]|exact Hls].
      - injection E as <- <-. split; [reflexivity|]. cbn [put_to write_err cs_err]. now rewrite <- ?app_assoc.
      - clear. unfold no_percent. vm_compute. intuition discriminate. }
    destruct r as [u|e']; injection H as <- <-.
    - split; [reflexivity|]. split; [exact E3|]. split; [exact E1|]. intro Hn. apply K, Hn.
    - split; [reflexivity|]. split; [exact E3|]. split; [exact E1|]. intro Hn. destruct (K Hn). discriminate.
  Qed.

  Context (fs : files) (Hw : steady_files w fs) (Hex : f_exists fs T = true).

  Lemma command_steps s : command a w s =
    (x <~ (explicit <~ match a_options a with None => cret None | Some p => p' <~ absolute p; cret (Some p') end;
           read_options false T explicit);
     o <~ match x with None => cret default_options | Some x => library (map_to_options T x) end;
     result <~ call_printer o T; print result [] ~; cret 0%Z) w (log (CExists T) s).
  Proof.
    unfold command. unfold cbind at 1. rewrite detect_target_value. unfold cbind at 1. unfold file_exists, ask.
    rewrite (proj1 (Hw s T)), Hex, Hdebug. cbn [negb]. unfold load_options. unfold cbind.
    destruct (match a_options a with None => cret None | Some p => _ end w (log (CExists T) s)) as [[e|e] s1]; [|reflexivity].
    destruct (read_options false T e w s1) as [[x|x] s2]; reflexivity.
  Qed.

  Context (ex : list path) (sel : selection) (s : cstate) (Hsel : chooses w fs a T ex sel).

  Lemma T_plain : p_abs T = true /\ Forall (fun n => n <> n_dot /\ n <> n_dotdot) (p_names T).
  Proof. destruct HT as (H1 & _ & H3). now split. Qed.

  (** The state after the options file was looked for. *)
  Lemma after_lookup : exists s1, looked (T :: ex) s s1 /\
    exists r, selected w sel r /\
      command a w s = match r with
        | COk x => (o <~ match x with None => cret default_options | Some x => library (map_to_options T x) end;
                    result <~ call_printer o T; print result [] ~; cret 0%Z) w s1
        | CThrow e => (CThrow e, s1)
        end.
  Proof.
    destruct T_plain as [Ta Tf]. destruct (read_options_steady w fs Hw a T ex sel (log (CExists T) s) Ta Tf Hsel) as (r & s1 & E & L & R).
    exists s1. split.
    - eapply looked_trans; [apply looked_log with (e := CExists T); [now left|discriminate]|]. eapply looked_incl; [|exact L]. intros z Hz. now right.
    - exists r. split; [exact R|]. rewrite command_steps. unfold cbind at 1. rewrite E. now destruct r.
  Qed.

  Theorem failing : forall msg, fails w T (cs_hist s) sel msg ->
    exists s', run_cli a w s = (1%Z, s') /\ cs_out s' = cs_out s /\
      (no_percent msg -> cs_err s' = cs_err s ++ js "[ERROR] " ++ msg ++ cw_linesep w) /\
      new_events s s' (fun e => In (event_path e) (T :: ex)) /\
      (forall m, sel = Refuse m -> new_events s s' (fun e => In (event_path e) (T :: ex) /\ forall p, e <> CPrint p)).
  Proof.
    intros msg Hf. destruct after_lookup as (s1 & L & r & R & E). destruct L as (Lh & Lo & Le & new & En & Fn).
    assert (K : forall e s2, command a w s = (CThrow e, s2) -> exn_message w e = msg -> cs_out s2 = cs_out s -> cs_err s2 = cs_err s ->
      forall new', cs_events s2 = new' ++ cs_events s -> Forall (fun e => In (event_path e) (T :: ex)) new' ->
      (forall m, sel = Refuse m -> Forall (fun e => In (event_path e) (T :: ex) /\ forall p, e <> CPrint p) new') ->
      exists s', run_cli a w s = (1%Z, s') /\ cs_out s' = cs_out s /\
      (no_percent msg -> cs_err s' = cs_err s ++ js "[ERROR] " ++ msg ++ cw_linesep w) /\
      new_events s s' (fun e => In (event_path e) (T :: ex)) /\
      (forall m, sel = Refuse m -> new_events s s' (fun e => In (event_path e) (T :: ex) /\ forall p, e <> CPrint p))).
    { intros e s2 Ec Em Eo Ee new' Ev Fv Fr. unfold run_cli. rewrite Ec.
      match goal with |- context [match handle_exception e w s2 with _ => _ end] =>
        destruct (match handle_exception e w s2 with (COk c, s'') => (c, s'') | (CThrow e', s'') => (1%Z, write_err (cw_stack_trace w e') s'') end)
          as [code s'] eqn:Eh end.
      destruct (fails_with e s2 code s' Eh) as (-> & Ho & Hv & Hm). exists s'. split; [reflexivity|]. split; [congruence|]. split.
      - intro Hn. rewrite Em in Hm. now rewrite (Hm Hn), Ee.
      - split.
        + exists new'. split; [congruence|exact Fv].
        + intros m Hm'. exists new'. split; [congruence|]. now apply (Fr m). }
    assert (Fn1 : Forall (fun e => In (event_path e) (T :: ex)) new) by (eapply Forall_impl; [|exact Fn]; now intros ? []).
    destruct Hf as [msg|x e h' m Em Hm|sel' o h' e h'' txt Heff Ep Hm].
    - destruct R as (e & -> & Hmsg). eapply (K e s1); eauto.
    - cbn in R. subst r. eapply (K (XLibrary e) (mkCState (cs_events s1) h' (cs_out s1) (cs_err s1))).
      + rewrite E. unfold cbind at 1. unfold library. rewrite Lh, Em. reflexivity.
      + cbn [exn_message]. now rewrite (explains_message _ _ _ Hm).
      + exact Lo.
      + exact Le.
      + exact En.
      + exact Fn1.
      + discriminate.
    - assert (E' : exists s2, cs_hist s2 = h' /\ cs_events s2 = cs_events s1 /\ cs_out s2 = cs_out s1 /\ cs_err s2 = cs_err s1 /\
        command a w s = (result <~ call_printer o T; print result [] ~; cret 0%Z) w s2).
      { destruct Heff as [|x o h' Em]; cbn in R; subst r.
        - exists s1. repeat split; [exact Lh|]. rewrite E. reflexivity.
        - exists (mkCState (cs_events s1) h' (cs_out s1) (cs_err s1)). repeat split. rewrite E. unfold cbind at 1. unfold library at 1.
          rewrite Lh, Em. reflexivity. }
      destruct E' as (s2 & H1 & H2 & H3 & H4 & E').
      eapply (K (XLibrary e) (mkCState (CPrint T :: cs_events s2) h'' (cs_out s2) (cs_err s2))) with (new' := CPrint T :: new).
      + rewrite E'. unfold cbind at 1. unfold call_printer, library. cbn [log cs_hist]. rewrite H1, Ep. reflexivity.
      + cbn [exn_message]. now rewrite (explains_message _ _ _ Hm).
      + cbn. congruence.
      + cbn. congruence.
      + cbn. now rewrite H2, En.
      + constructor; [now left|exact Fn1].
      + intros m Hm9. destruct Heff; discriminate.
  Qed.

  Theorem printing : forall o h' text h'', effective w T (cs_hist s) sel o h' -> pretty_print o T (cw_world w) h' = (Ok text, h'') ->
    (fst (run_cli a w s) = 0%Z \/ fst (run_cli a w s) = 1%Z) /\
    cs_hist (snd (run_cli a w s)) = h'' /\
    (exists new, cs_events (snd (run_cli a w s)) = CPrint T :: new ++ cs_events s /\
       Forall (fun e => In (event_path e) (T :: ex) /\ forall p, e <> CPrint p) new) /\
    (no_percent text -> fst (run_cli a w s) = 0%Z /\ cs_out (snd (run_cli a w s)) = cs_out s ++ text ++ cw_linesep w /\
                        cs_err (snd (run_cli a w s)) = cs_err s) /\
    (fst (run_cli a w s) = 0%Z -> cs_out (snd (run_cli a w s)) = cs_out s ++ text ++ cw_linesep w -> no_percent text).
  Proof.
    intros o h' text h'' Heff Ep. destruct after_lookup as (s1 & L & r & R & E). destruct L as (Lh & Lo & Le & new & En & Fn).
    assert (E' : exists s2, cs_hist s2 = h' /\ cs_events s2 = cs_events s1 /\ cs_out s2 = cs_out s1 /\ cs_err s2 = cs_err s1 /\
      command a w s = (result <~ call_printer o T; print result [] ~; cret 0%Z) w s2).
    { destruct Heff as [|x o h' Em]; cbn in R; subst r.
      - exists s1. repeat split; [exact Lh|]. rewrite E. reflexivity.
      - exists (mkCState (cs_events s1) h' (cs_out s1) (cs_err s1)). repeat split. rewrite E. unfold cbind at 1. unfold library at 1.
        rewrite Lh, Em. reflexivity. }
    destruct E' as (s2 & H1 & H2 & H3 & H4 & E'). clear E.
    set (s3 := mkCState (CPrint T :: cs_events s2) h'' (cs_out s2) (cs_err s2)).
    assert (E : command a w s = (print text [] ~; cret 0%Z) w s3).
    { rewrite E'. unfold cbind at 1. unfold call_printer, library. cbn [log cs_hist]. rewrite H1, Ep. reflexivity. }
    unfold cbind in E. destruct (print text [] w s3) as [rp s4] eqn:Ept.
    pose proof (print_exact w s3 text rp s4 Hls Ept) as Hx.
    destruct (printfln_err _ _ _ _ _ _ Ept) as (P1 & P2 & P3).
    assert (Ev : exists new, cs_events s4 = CPrint T :: new ++ cs_events s /\
       Forall (fun e => In (event_path e) (T :: ex) /\ forall p, e <> CPrint p) new).
    { exists new. split; [rewrite P1; cbn; now rewrite H2, En|exact Fn]. }
    assert (Eo : cs_out s3 = cs_out s) by (cbn; congruence).
    assert (Ee : cs_err s3 = cs_err s) by (cbn; congruence).
    unfold run_cli. rewrite E. destruct rp as [[]|e].
    - cbn [cret fst snd]. split; [now left|]. split; [exact P2|]. split; [exact Ev|]. rewrite <- Eo, <- Ee. split.
      + intro Hn. split; [reflexivity|]. split; [now apply Hx|exact P3].
      + intros _ Ho. apply Hx. now split.
    - match goal with |- context [match handle_exception e w s4 with _ => _ end] =>
        destruct (match handle_exception e w s4 with (COk c, s'') => (c, s'') | (CThrow e', s'') => (1%Z, write_err (cw_stack_trace w e') s'') end)
          as [code s'] eqn:Eh end.
      destruct (fails_with e s4 code s' Eh) as (-> & Ho & Hv & _). cbn [fst snd].
      assert (Hh : cs_hist s' = cs_hist s4).
      { rewrite handle_message in Eh. unfold print_error, cbind in Eh.
        destruct (printfln StdErr (js "[ERROR] " ++ exn_message w e) [] w s4) as [r5 s5] eqn:E5.
        destruct (printfln_err _ _ _ _ _ _ E5) as (_ & E6 & _). destruct r5; injection Eh as <-; exact E6. }
      split; [now right|]. split; [now rewrite Hh|]. split.
      + destruct Ev as (n & En' & Fn'). exists n. split; [congruence|exact Fn'].
      + split; [intro Hn; apply Hx in Hn; destruct Hn; discriminate|discriminate].
  Qed.
End Command.

(** The exit code is 0 or 1, whatever happens. *)
Lemma cbind_ok {A B} (m : C A) (f : A -> C B) w s b s' : cbind m f w s = (COk b, s') ->
  exists a s1, m w s = (COk a, s1) /\ f a w s1 = (COk b, s').
Proof. unfold cbind. destruct (m w s) as [[a|e] s1]; [|discriminate]. eauto. Qed.

Theorem exit_code : forall a w s, fst (run_cli a w s) = 0%Z \/ fst (run_cli a w s) = 1%Z.
Proof.
  intros a w s. unfold run_cli. destruct (command a w s) as [[c|e] s'] eqn:E.
  - cbn [fst]. unfold command in E. apply cbind_ok in E. destruct E as (t & s1 & _ & E). apply cbind_ok in E. destruct E as (b & s2 & _ & E).
    destruct (negb b).
    + apply cbind_ok in E. destruct E as (? & ? & _ & E). injection E as <- _. now right.
    + do 4 (apply cbind_ok in E; destruct E as (? & ? & _ & E)). injection E as <- _. now left.
  - rewrite handle_message. unfold cbind. destruct (print_error _ _ w s') as [[]]; cbn [fst]; now right.
Qed.

(** ** The statements of the properties *)

Theorem C75_lemma : forall w fs a T ex sel s o h' text h'',
  steady_files w fs -> no_percent (cw_linesep w) -> a_debug a = false ->
  resolved (jv_cwd (w_jvm (cw_world w))) (asked_target a) T -> f_exists fs T = true ->
  chooses w fs a T ex sel -> effective w T (cs_hist s) sel o h' -> pretty_print o T (cw_world w) h' = (Ok text, h'') ->
  let code := fst (run_cli a w s) in
  let s' := snd (run_cli a w s) in
  (code = 0%Z \/ code = 1%Z) /\
  (code = 0%Z /\ cs_out s' = cs_out s ++ text ++ cw_linesep w /\ cs_err s' = cs_err s <-> ~ In c_percent text).
Proof.
  intros w fs a T ex sel s o h' text h'' Hw Hl Hd HT Hex Hsel Heff Ep code s'.
  destruct (printing w a Hd Hl T HT fs Hw Hex ex sel s Hsel o h' text h'' Heff Ep) as (H1 & _ & _ & H2 & H3).
  split; [exact H1|]. split; [intros (A & B & _); now apply H3|exact H2].
Qed.

Theorem C52_chosen_lemma : forall w fs a T ex sel s o h' text h'',
  steady_files w fs -> no_percent (cw_linesep w) -> a_debug a = false ->
  resolved (jv_cwd (w_jvm (cw_world w))) (asked_target a) T -> f_exists fs T = true ->
  chooses w fs a T ex sel -> effective w T (cs_hist s) sel o h' -> pretty_print o T (cw_world w) h' = (Ok text, h'') ->
  let s' := snd (run_cli a w s) in
  cs_hist s' = h'' /\
  (exists new, cs_events s' = CPrint T :: new ++ cs_events s /\
     Forall (fun e => In (event_path e) (T :: ex) /\ forall p, e <> CPrint p) new) /\
  (~ In c_percent text -> cs_out s' = cs_out s ++ text ++ cw_linesep w).
Proof.
  intros w fs a T ex sel s o h' text h'' Hw Hl Hd HT Hex Hsel Heff Ep s'.
  destruct (printing w a Hd Hl T HT fs Hw Hex ex sel s Hsel o h' text h'' Heff Ep) as (_ & H1 & H2 & H3 & _).
  split; [exact H1|]. split; [exact H2|]. intro Hn. now apply H3.
Qed.

Theorem C76_lemma : forall w fs a T ex sel s msg,
  steady_files w fs -> no_percent (cw_linesep w) -> a_debug a = false ->
  resolved (jv_cwd (w_jvm (cw_world w))) (asked_target a) T -> f_exists fs T = true ->
  chooses w fs a T ex sel -> fails w T (cs_hist s) sel msg ->
  exists s', run_cli a w s = (1%Z, s') /\ cs_out s' = cs_out s /\
    (~ In c_percent msg -> cs_err s' = cs_err s ++ js "[ERROR] " ++ msg ++ cw_linesep w).
Proof.
  intros w fs a T ex sel s msg Hw Hl Hd HT Hex Hsel Hf.
  destruct (failing w a Hd Hl T HT fs Hw Hex ex sel s Hsel msg Hf) as (s' & H1 & H2 & H3 & _). exists s'. now repeat split.
Qed.

Theorem C52_refused_lemma : forall w fs a T ex msg s,
  steady_files w fs -> no_percent (cw_linesep w) -> a_debug a = false ->
  resolved (jv_cwd (w_jvm (cw_world w))) (asked_target a) T -> f_exists fs T = true ->
  chooses w fs a T ex (Refuse msg) ->
  exists s' new, run_cli a w s = (1%Z, s') /\ cs_out s' = cs_out s /\
    cs_events s' = new ++ cs_events s /\ Forall (fun e => In (event_path e) (T :: ex) /\ forall p, e <> CPrint p) new.
Proof.
  intros w fs a T ex msg s Hw Hl Hd HT Hex Hsel.
  destruct (failing w a Hd Hl T HT fs Hw Hex ex _ s Hsel msg (fl_refused _ _ _ _)) as (s' & H1 & H2 & _ & _ & H5).
  destruct (H5 _ eq_refl) as (new & E & F). exists s', new. now repeat split.
Qed.

Theorem C57_lemma : forall w a T s,
  no_percent (cw_linesep w) -> a_debug a = false ->
  resolved (jv_cwd (w_jvm (cw_world w))) (asked_target a) T -> cw_exists w s T = false ->
  run_cli a w s = (1%Z, mkCState (CExists T :: cs_events s) (cs_hist s) (cs_out s)
                          (cs_err s ++ js "[ERROR] Path not found: " ++ path_str T ++ cw_linesep w)).
Proof. intros w a T s Hl Hd HT He. now apply missing_target. Qed.
