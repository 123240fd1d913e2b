(** * Proofs about how often the user's functions are called *)

From Verif Require Import SpecCalls RenderFacts ScanFacts HistFacts ShownFacts PrintFacts SortFacts.
Close Scope Z_scope.

Lemma handle_entry fuel o d p flt w h e h' : handle fuel o d p flt w h = (Ok (Some e), h') -> exists q, entry_path e = Some q.
Proof.
  intro H. apply handle_ok in H. destruct H as [(k & E & _)|[(_ & _ & _ & E)|(? & ? & ? & ? & ? & _ & _ & _ & _ & _ & _ & _ & _ & E)]];
    injection E as ->; eexists; reflexivity.
Qed.

Lemma opened_dir p es : (forall n, es <> [EMaxDepth n]) -> opened (EDir p es) = p :: flat_map opened es.
Proof. intro H. destruct es as [|x [|y es]]; try reflexivity; destruct x; try reflexivity. exfalso. eapply H. reflexivity. Qed.

Section Scan.
  Context (tag : nat) (w : world) (o : options) (L : path -> list path).
  (** What happens with an opened directory before its children are looked at. *)
  Definition prepare (p : path) (dl : dirlist) : M (Z * list path) :=
    mc <- o_child_limit o p; u <- stream_paths p dl (path_filter o); it <- sorted (o_comparator o) u; ret (mc, it).

  Lemma hdc_prepare hc p dl h :
    handle_directory_children o hc p dl (path_filter o) w h =
    (x <- prepare p dl;
     r <- children_loop hc (0 <=? fst x)%Z (fst x) 0%Z [] (snd x);
     let '(child_entries, rest) := r in ret (child_entries ++ match rest with [] => [] | _ :: _ => [ESkipped p] end)) w h.
  Proof.
    unfold handle_directory_children, prepare, bind. destruct (o_child_limit o p w h) as [[mc|?] h1]; [|reflexivity].
    destruct (stream_paths p dl (path_filter o) w h1) as [[u|?] h2]; [|reflexivity].
    destruct (sorted (o_comparator o) u w h2) as [[it|?] h3]; reflexivity.
  Qed.

  Section Returns.
    Hypothesis HL : forall p h0 dl h x h', w_open w h0 p = Some dl -> prepare p dl w h = (Ok x, h') -> calls tag h' = calls tag h ++ L p.

    Lemma loop_calls (hc : path -> M (option entry)) hl mc :
      (forall c h e h', hc c w h = (Ok (Some e), h') -> (exists q, entry_path e = Some q) /\ calls tag h' = calls tag h ++ flat_map L (opened e)) ->
      (forall c h h', hc c w h <> (Ok None, h')) ->
      forall it n acc h es rest h', children_loop hc hl mc n acc it w h = (Ok (es, rest), h') ->
      exists new, es = acc ++ new /\ (forall e, In e new -> exists q, entry_path e = Some q) /\
        calls tag h' = calls tag h ++ flat_map L (flat_map opened new).
    Proof.
      intros Hc Hnn. induction it as [|c it IH]; intros n acc h es rest h' H.
      - cbn in H. injection H as <- <- <-. exists []. rewrite !app_nil_r. split; [reflexivity|]. split; [intros ? []|reflexivity].
      - cbn [children_loop] in H. destruct (hl && (mc <? n + 1)%Z).
        + injection H as <- <- <-. exists []. rewrite !app_nil_r. split; [reflexivity|]. split; [intros ? []|reflexivity].
        + apply bind_ok in H. destruct H as (e & h1 & He & H). destruct e as [e|]; [|exfalso; eapply Hnn; exact He].
          destruct (Hc _ _ _ _ He) as [Hq Hce]. destruct (IH _ _ _ _ _ _ H) as (new & -> & Hnew & Hcn).
          exists (e :: new). rewrite <- app_assoc. split; [reflexivity|]. split.
          * intros x [<-|Hx]; auto.
          * rewrite Hcn, Hce. cbn [flat_map]. now rewrite flat_map_app, app_assoc.
    Qed.

    Lemma handle_calls fuel : forall d p h e h', handle fuel o d p (path_filter o) w h = (Ok (Some e), h') ->
      calls tag h' = calls tag h ++ flat_map L (opened e).
    Proof.
      induction fuel as [|fuel IH]; intros d p h e h' H; pose proof H as H0; apply handle_ok in H0;
        destruct H0 as [(k & E & Hk & Hs)|[(Hk & Hd & Hd0 & E)|(fuel' & dl & es & h1 & h2 & Ef & Hk & Hd & -> & Ho & Hh & Hc & -> & E)]];
        injection E as ->; try discriminate.
      1, 3: cbn [handle] in H; apply bind_ok in H; destruct H as (b & h1 & Hb & H); unfold pm_is_directory, has_kind, lstat, bind in Hb; cbn in Hb;
        injection Hb as <- <-; destruct (w_lstat w h p) as [[]|] eqn:El; cbn in H; try (exfalso; eapply Hk; reflexivity);
        unfold bind, stat in H; rewrite Hs in H; cbn in H; injection H as <-; cbn [opened flat_map]; rewrite app_nil_r;
        rewrite !calls_cons_other by discriminate; reflexivity.
      1, 2: cbn [handle] in H; apply bind_ok in H; destruct H as (b & h1 & Hb & H); unfold pm_is_directory, has_kind, lstat, bind in Hb; cbn in Hb;
        injection Hb as <- <-; rewrite Hk in H; cbn in H; rewrite (proj2 (Z.leb_le _ _) Hd) in H; unfold new_max_depth_entry in H;
        destruct (Z.ltb_spec d 0); [lia|]; cbn in H; injection H as <-; cbn [opened flat_map]; rewrite app_nil_r;
        rewrite calls_cons_other by discriminate; reflexivity.
      injection Ef as <-. clear H. rewrite hdc_prepare in Hh. apply bind_ok in Hh. destruct Hh as ([mc it] & h3 & Hp & Hh).
      apply bind_ok in Hh. destruct Hh as ([new rest] & h4 & Hl & Hh). injection Hh as <- <-. cbn [fst snd] in Hl.
      destruct (loop_calls (fun c => handle fuel o (d + 1)%Z c (path_filter o)) (0 <=? mc)%Z mc) with (3 := Hl) as (new' & E & Hnew & Hcalls).
      { intros c h5 e5 h6 H5. split; [eapply handle_entry; exact H5|]. eapply IH. exact H5. }
      { intros c h5 h6. apply handle_not_none. }
      cbn [app] in E. subst new'.
      rewrite opened_dir.
      - rewrite flat_map_app, calls_cons_other by discriminate. cbn [flat_map]. rewrite flat_map_app, Hcalls.
        rewrite (HL _ _ _ _ _ _ Ho Hp), !calls_cons_other by discriminate. rewrite app_assoc. f_equal.
        destruct rest; cbn [flat_map opened]; now rewrite app_nil_r.
      - intros n En. destruct new as [|x new].
        + destruct rest; discriminate.
        + injection En as -> _. destruct (Hnew _ (or_introl eq_refl)) as [q Hq]. discriminate.
    Qed.
  End Returns.

  Section Any.
    Context (k0 : nat).
    Definition spread (p : path) (l : list path) : Prop :=
      NoDup l /\ forall q, In q l -> below p q /\ length (p_names p) + k0 <= length (p_names q).
    Hypothesis Hlists : lists_once w.
    Hypothesis HL : forall p h0 dl h, w_open w h0 p = Some dl ->
      exists l, calls tag (snd (prepare p dl w h)) = calls tag h ++ l /\ NoDup l /\
        (forall q, In q l -> below p q /\ length (p_names q) = length (p_names p) + k0).
    Hypothesis Hord : silent_order tag o.

    Lemma NoDup_app_disjoint A (l1 l2 : list A) : NoDup l1 -> NoDup l2 -> (forall a, In a l1 -> In a l2 -> False) -> NoDup (l1 ++ l2).
    Proof.
      intros H1 H2 H. induction H1 as [|x l1 Hx H1 IH]; [exact H2|]. cbn. constructor.
      - intro Hi. apply in_app_or in Hi. destruct Hi; [contradiction|]. apply (H x); [now left|assumption].
      - apply IH. intros a Ha. apply H. now right.
    Qed.

    Lemma below_child_below p n q : below (child p n) q -> below p q.
    Proof. intros [ns ->]. cbn. exists (n :: ns). now rewrite <- app_assoc. Qed.

    Lemma below_children p n1 n2 q : below (child p n1) q -> below (child p n2) q -> n1 = n2.
    Proof. intros [ns ->] [ms E]. injection E as E. cbn in E. rewrite <- !app_assoc in E. apply app_inv_head in E. now injection E. Qed.

    Lemma loop_spread (hc : path -> M (option entry)) hl mc p :
      (forall c h, exists l, calls tag (snd (hc c w h)) = calls tag h ++ l /\ spread c l) ->
      forall it n acc h, NoDup it -> (forall c, In c it -> exists m, c = child p m) ->
      exists l, calls tag (snd (children_loop hc hl mc n acc it w h)) = calls tag h ++ l /\ NoDup l /\
        forall q, In q l -> length (p_names p) + S k0 <= length (p_names q) /\ exists c, In c it /\ below c q.
    Proof.
      intro Hc. induction it as [|c it IH]; intros n acc h Hnd Hch.
      - exists []. cbn. rewrite app_nil_r. split; [reflexivity|]. split; [constructor|intros ? []].
      - cbn [children_loop]. destruct (hl && (mc <? n + 1)%Z).
        { exists []. cbn. rewrite app_nil_r. split; [reflexivity|]. split; [constructor|intros ? []]. }
        destruct (Hch c (or_introl eq_refl)) as [m ->]. inversion Hnd as [|x y Hnc Hnd']; subst.
        destruct (Hc (child p m) h) as (l & El & Hl1 & Hl2). unfold bind.
        assert (Hlc : forall q, In q l -> length (p_names p) + S k0 <= length (p_names q)).
        { intros q Hq. destruct (Hl2 q Hq) as [_ Hlen]. cbn in Hlen. rewrite app_length in Hlen. cbn in Hlen. lia. }
        assert (Hgo : forall n' acc' h1, calls tag h1 = calls tag h ++ l ->
          exists l', calls tag (snd (children_loop hc hl mc n' acc' it w h1)) = calls tag h ++ l' /\ NoDup l' /\
            forall q, In q l' -> length (p_names p) + S k0 <= length (p_names q) /\ exists c, In c (child p m :: it) /\ below c q).
        { intros n' acc' h1 E1. destruct (IH n' acc' h1 Hnd' (fun c Hi => Hch c (or_intror Hi))) as (l' & El' & Hn' & Hl').
          exists (l ++ l'). rewrite El', E1, <- app_assoc. split; [reflexivity|]. split.
          - apply NoDup_app_disjoint; [exact Hl1|exact Hn'|]. intros q H1 H2. destruct (Hl2 _ H1) as [Hb _]. destruct (Hl' _ H2) as (_ & c & Hi & Hbc).
            destruct (Hch c (or_intror Hi)) as [m' ->]. rewrite (below_children _ _ _ _ Hb Hbc) in *. contradiction.
          - intros q Hq. apply in_app_or in Hq. destruct Hq as [Hq|Hq].
            + split; [auto|]. exists (child p m). split; [now left|]. now apply Hl2.
            + destruct (Hl' _ Hq) as (H1 & c & Hi & Hb). split; [exact H1|]. exists c. split; [now right|exact Hb]. }
        destruct (hc (child p m) w h) as [[[e|]|x] h1] eqn:E; cbn [snd] in El.
        + now apply Hgo.
        + now apply Hgo.
        + cbn. exists l. split; [exact El|]. split; [exact Hl1|]. intros q Hq. split; [auto|]. exists (child p m). split; [now left|].
          now apply Hl2.
    Qed.

    Lemma spread_nil p : spread p [].
    Proof. split; [constructor|intros ? []]. Qed.

    Lemma filterM_sub (f : matcher) : forall l h r h', filterM f l w h = (Ok r, h') -> NoDup l -> NoDup r /\ incl r l.
    Proof.
      induction l as [|a l IH]; intros h r h' H Hn.
      - cbn in H. injection H as <- <-. split; [constructor|intros ? []].
      - cbn [filterM] in H. apply bind_ok in H. destruct H as (b & h1 & Hb & H). apply bind_ok in H. destruct H as (r' & h2 & Hr & H).
        injection H as <- <-. inversion Hn; subst. destruct (IH _ _ _ Hr ltac:(assumption)) as [Hn' Hi]. destruct b.
        + split; [constructor; auto|]. intros x [<-|Hx]; [now left|right; auto].
        + split; [exact Hn'|]. intros x Hx. right. auto.
    Qed.

    Lemma prepare_order p dl h mc it h' : NoDup (dl_names dl) -> prepare p dl w h = (Ok (mc, it), h') ->
      NoDup it /\ forall c, In c it -> exists m, c = child p m.
    Proof.
      intros Hn H. unfold prepare in H. apply bind_ok in H. destruct H as (mc' & h1 & _ & H). apply bind_ok in H. destruct H as (u & h2 & Hs & H).
      apply bind_ok in H. destruct H as (it' & h3 & Ho & H). injection H as <- <- <-.
      unfold stream_paths in Hs. apply bind_ok in Hs. destruct Hs as (l & h4 & Hf & Hs).
      destruct (dl_fail dl); [discriminate|]. injection Hs as <- <-.
      apply filterM_sub in Hf.
      - destruct Hf as [Hnu Hi]. pose proof (sorted_perm _ _ _ _ _ _ Ho) as HP. split; [eapply Permutation_NoDup; eassumption|].
        intros c Hc. apply (Permutation_in _ (Permutation_sym HP)) in Hc. apply Hi in Hc. apply in_map_iff in Hc. destruct Hc as (m & <- & _). now exists m.
      - apply FinFun.Injective_map_NoDup; [|exact Hn]. intros x y E. unfold resolve_name in E. injection E as E. apply app_inv_head in E. now injection E.
    Qed.

    Lemma handle_spread fuel : forall d p h, exists l, calls tag (snd (handle fuel o d p (path_filter o) w h)) = calls tag h ++ l /\ spread p l.
    Proof.
      assert (Hnil : forall (h h' : hist) p, calls tag h' = calls tag h -> exists l, calls tag h' = calls tag h ++ l /\ spread p l).
      { intros h h' p E. exists []. rewrite app_nil_r. split; [exact E|apply spread_nil]. }
      assert (Hcut : forall d p h, calls tag (snd ((e <- new_max_depth_entry d; ret (Some (EDir p [e]))) w h)) = calls tag h).
      { intros d p h. unfold new_max_depth_entry. destruct (d <? 0)%Z; reflexivity. }
      assert (Hfile : forall p h, calls tag (snd (handle_file p w h)) = calls tag h).
      { intros p h. unfold handle_file, bind, stat. destruct (w_stat w h p); unfold ret, throw; cbn [snd]; now rewrite calls_cons_other by discriminate. }
      induction fuel as [|fuel IH]; intros d p h; cbn [handle]; unfold bind at 1; unfold pm_is_directory; rewrite has_kind_run;
        set (h1 := EvLstat p (w_lstat w h p) :: h); assert (E1 : calls tag h1 = calls tag h) by (unfold h1; now rewrite calls_cons_other by discriminate);
        destruct (match w_lstat w h p with Some k' => kind_eqb k' KDir | None => false end); try (apply Hnil; now rewrite Hfile);
        (destruct (o_max_depth o <=? d)%Z; [apply Hnil; now rewrite Hcut|]).
      - apply Hnil. exact E1.
      - unfold bind, open_dir. destruct (w_open w h1 p) as [dl|] eqn:Eo.
        2:{ apply Hnil. unfold throw. cbn [snd]. rewrite calls_cons_other by discriminate. exact E1. }
        set (h2 := EvOpen p :: h1). assert (E2 : calls tag h2 = calls tag h) by (unfold h2; rewrite calls_cons_other by discriminate; exact E1).
        assert (Hbody : exists l, calls tag (snd (handle_directory_children o (fun c => handle fuel o (d + 1)%Z c (path_filter o)) p dl (path_filter o) w h2))
                          = calls tag h ++ l /\ spread p l).
        { rewrite hdc_prepare. unfold bind at 1. destruct (HL p _ dl h2 Eo) as (l & El & Hl1 & Hl2). rewrite E2 in El.
          assert (Hl : spread p l). { split; [exact Hl1|]. intros q Hq. destruct (Hl2 q Hq) as [Hb Hlen]. split; [exact Hb|lia]. }
          destruct (prepare p dl w h2) as [[[mc it]|x] h3] eqn:Ep; cbn [snd fst] in *; [|exists l; auto].
          destruct (prepare_order _ _ _ _ _ _ (Hlists _ _ _ Eo) Ep) as [Hni Hci].
          destruct (loop_spread (fun c => handle fuel o (d + 1)%Z c (path_filter o)) (0 <=? mc)%Z mc p (fun c h => IH (d + 1)%Z c h) it 0%Z [] h3 Hni Hci)
            as (l' & El' & Hn' & Hl').
          exists (l ++ l'). split.
          - unfold bind. destruct (children_loop _ _ _ _ _ _ w h3) as [[[es rest]|x] h4]; cbn [snd ret] in *; now rewrite El', El, app_assoc.
          - split.
            + apply NoDup_app_disjoint; [exact Hl1|exact Hn'|]. intros q H1 H2. destruct (Hl2 _ H1) as [_ H3]. destruct (Hl' _ H2) as [H4 _]. lia.
            + intros q Hq. apply in_app_or in Hq. destruct Hq as [Hq|Hq]; [apply Hl, Hq|]. destruct (Hl' _ Hq) as (H4 & c & Hi & Hb).
              split; [|lia]. destruct (Hci c Hi) as [m ->]. eapply below_child_below. exact Hb. }
        destruct Hbody as (l & El & Hl). exists l. split; [|exact Hl]. rewrite <- El. unfold with_close.
        destruct (handle_directory_children _ _ _ _ _ w h2) as [[es|x] h3]; cbn [snd].
        + unfold close_dir. destruct (w_close_ok w h3 p); unfold ret; cbn [snd]; now rewrite calls_cons_other by discriminate.
        + unfold close_dir. cbn [snd]. now rewrite calls_cons_other by discriminate.
    Qed.
  End Any.
End Scan.

(** ** The child limit and the filters *)

Section Prepare.
  Context (tag : nat) (w : world) (o : options).
  Hypothesis Hord : silent_order tag o.
  Let K (h h' : hist) := calls tag h' = calls tag h.
  Lemma K_refl h : K h h. Proof. reflexivity. Qed.
  Lemma K_trans a b c : K a b -> K b c -> K a c. Proof. unfold K. congruence. Qed.
  Lemma K_event ev h : (forall t p, ev <> EvUser t p) -> K h (ev :: h).
  Proof. intro H. unfold K. now rewrite calls_cons_other. Qed.

  Lemma sorted_silent l h : calls tag (snd (sorted (o_comparator o) l w h)) = calls tag h.
  Proof. apply (keeps_sorted K K_refl K_trans o). intros a b w' h'. apply Hord. Qed.

  Lemma logged_call B (f : path -> M B) p h : silent tag f -> calls tag (snd (logged tag f p w h)) = calls tag h ++ [p].
  Proof. intro H. unfold logged. rewrite H. apply calls_cons_same. Qed.

  (** The child limit. *)
  Section Limit.
    Hypothesis Hlimit : forall p h, calls tag (snd (o_child_limit o p w h)) = calls tag h ++ [p].
    Hypothesis Hd : silent tag (o_dir_matcher o).
    Hypothesis Hf : silent tag (o_file_matcher o).

    Lemma stream_silent p dl h : calls tag (snd (stream_paths p dl (path_filter o) w h)) = calls tag h.
    Proof.
      assert (H : keeps K (stream_paths p dl (path_filter o))).
      { apply (keeps_bind K K_trans).
        - apply (keeps_filterM K K_refl K_trans). intro a. apply (keeps_path_filter K K_refl K_trans); [apply K_event| |].
          + intros p' w' h'. apply Hd.
          + intros p' w' h'. apply Hf.
        - intro l. destruct (dl_fail dl); [|apply (keeps_ret K K_refl)].
          apply (keeps_bind K K_trans); [intros w' h'; apply K_event; discriminate|]. intro. apply (keeps_throw K K_refl). }
      apply H.
    Qed.

    Lemma prepare_limit p dl h : calls tag (snd (prepare o p dl w h)) = calls tag h ++ [p].
    Proof.
      unfold prepare, bind. pose proof (Hlimit p h) as H1. destruct (o_child_limit o p w h) as [[mc|x] h1]; cbn [snd] in *; [|exact H1].
      pose proof (stream_silent p dl h1) as H2. destruct (stream_paths p dl (path_filter o) w h1) as [[u|x] h2]; cbn [snd] in *; [|congruence].
      pose proof (sorted_silent u h2) as H3. destruct (sorted (o_comparator o) u w h2) as [[it|x] h3]; cbn [snd ret] in *; congruence.
    Qed.
  End Limit.

  (** A filter; [b]: the one for directories. *)
  Section Filter.
    Context (b : bool).
    Hypothesis Hlimit : silent tag (o_child_limit o).
    Hypothesis Hthis : forall p h, calls tag (snd ((if b then o_dir_matcher o else o_file_matcher o) p w h)) = calls tag h ++ [p].
    Hypothesis Hother : silent tag (if b then o_file_matcher o else o_dir_matcher o).

    Definition dir_answer (a : option kind) : bool := match a with Some KDir => true | _ => false end.

    Lemma path_filter_calls c h :
      calls tag (snd (path_filter o c w h)) = calls tag h ++ (if Bool.eqb (dir_answer (w_lstat w h c)) b then [c] else []).
    Proof.
      unfold path_filter, pm_if_then_else, bind, pm_is_directory. rewrite has_kind_run.
      set (a := w_lstat w h c). assert (E : calls tag (EvLstat c a :: h) = calls tag h) by now rewrite calls_cons_other by discriminate.
      replace (match a with Some k' => kind_eqb k' KDir | None => false end) with (dir_answer a) by (destruct a as [[]|]; reflexivity).
      destruct (dir_answer a); destruct b; cbn [Bool.eqb]; rewrite ?app_nil_r.
      - rewrite (Hthis c), E. reflexivity.
      - rewrite (Hother c). exact E.
      - rewrite (Hother c). exact E.
      - rewrite (Hthis c), E. reflexivity.
    Qed.

    Lemma filterM_calls l : forall h, exists l', calls tag (snd (filterM (path_filter o) l w h)) = calls tag h ++ l' /\
      (NoDup l -> NoDup l') /\ incl l' l.
    Proof.
      induction l as [|c l IH]; intro h.
      - exists []. cbn. rewrite app_nil_r. split; [reflexivity|]. split; [auto|intros ? []].
      - cbn [filterM]. unfold bind. pose proof (path_filter_calls c h) as E. destruct (path_filter o c w h) as [[x|x] h1]; cbn [snd] in E.
        + destruct (IH h1) as (l' & El & Hn & Hi). exists ((if Bool.eqb (dir_answer (w_lstat w h c)) b then [c] else []) ++ l'). split.
          * destruct (filterM (path_filter o) l w h1) as [[r|y] h2]; cbn [snd ret] in *; rewrite El, E, app_assoc; reflexivity.
          * split.
            -- intro H. inversion H; subst. destruct (Bool.eqb _ b); cbn; [|auto]. constructor; auto.
            -- intros q Hq. apply in_app_or in Hq. destruct Hq as [Hq|Hq]; [|right; auto]. destruct (Bool.eqb _ b); [|destruct Hq].
               destruct Hq as [<-|[]]. now left.
        + exists (if Bool.eqb (dir_answer (w_lstat w h c)) b then [c] else []). split; [exact E|]. destruct (Bool.eqb _ b).
          * split; [constructor; [intros []|constructor]|]. intros q [<-|[]]. now left.
          * split; [constructor|intros ? []].
    Qed.

    Lemma filterM_calls_ok dk l : steady w dk -> forall h r h', filterM (path_filter o) l w h = (Ok r, h') ->
      calls tag h' = calls tag h ++ filter (fun c => Bool.eqb (is_dirb dk c) b) l.
    Proof.
      intros Hs. induction l as [|c l IH]; intros h r h' H.
      - cbn in H. injection H as <- <-. now rewrite app_nil_r.
      - cbn [filterM] in H. apply bind_ok in H. destruct H as (x & h1 & Hx & H). apply bind_ok in H. destruct H as (r' & h2 & Hr & H).
        injection H as <- <-. rewrite (IH _ _ _ Hr). pose proof (path_filter_calls c h) as E. rewrite Hx in E. cbn [snd] in E. rewrite E.
        rewrite <- app_assoc. f_equal. cbn [filter]. unfold is_dirb. destruct Hs as [Hs _]. rewrite Hs. unfold dir_answer. clear E.
        destruct (Bool.eqb _ b); reflexivity.
    Qed.

    Lemma stream_calls p dl h : exists l', calls tag (snd (stream_paths p dl (path_filter o) w h)) = calls tag h ++ l' /\
      (NoDup (dl_names dl) -> NoDup l') /\ (forall q, In q l' -> exists n, q = child p n).
    Proof.
      unfold stream_paths, bind. destruct (filterM_calls (map (resolve_name p) (dl_names dl)) h) as (l' & El & Hn & Hi). exists l'.
      split.
      - destruct (filterM (path_filter o) _ w h) as [[r|y] h2]; cbn [snd] in *; [|exact El]. destruct (dl_fail dl); cbn [snd iter_fail throw ret]; [|exact El].
        unfold iter_fail, throw. cbn [snd]. rewrite calls_cons_other by discriminate. exact El.
      - split.
        + intro H. apply Hn. apply FinFun.Injective_map_NoDup; [|exact H]. intros x y E. unfold resolve_name in E. injection E as E.
          apply app_inv_head in E. now injection E.
        + intros q Hq. apply Hi in Hq. apply in_map_iff in Hq. destruct Hq as (n & <- & _). now exists n.
    Qed.

    Lemma prepare_filter p dl h : exists l, calls tag (snd (prepare o p dl w h)) = calls tag h ++ l /\
      (NoDup (dl_names dl) -> NoDup l) /\ (forall q, In q l -> exists n, q = child p n).
    Proof.
      unfold prepare, bind. pose proof (Hlimit p w h) as H1. destruct (o_child_limit o p w h) as [[mc|x] h1]; cbn [snd] in *.
      2:{ exists []. rewrite app_nil_r. split; [exact H1|]. split; [constructor|intros ? []]. }
      destruct (stream_calls p dl h1) as (l & El & Hn & Hc). exists l. split; [|auto]. rewrite <- H1, <- El.
      destruct (stream_paths p dl (path_filter o) w h1) as [[u|x] h2]; cbn [snd] in *; [|reflexivity].
      pose proof (sorted_silent u h2) as H3. destruct (sorted (o_comparator o) u w h2) as [[it|x] h3]; cbn [snd ret] in *; exact H3.
    Qed.

    Lemma prepare_filter_ok dk p h0 dl h x h' : steady w dk -> w_open w h0 p = Some dl -> prepare o p dl w h = (Ok x, h') ->
      calls tag h' = calls tag h ++ filter (fun c => Bool.eqb (is_dirb dk c) b) (contained dk [p]).
    Proof.
      intros Hs Ho H. unfold prepare in H. apply bind_ok in H. destruct H as (mc & h1 & H1 & H). apply bind_ok in H. destruct H as (u & h2 & H2 & H).
      apply bind_ok in H. destruct H as (it & h3 & H3 & H). injection H as <- <-.
      pose proof (sorted_silent u h2) as E3. rewrite H3 in E3. cbn [snd] in E3. rewrite E3.
      pose proof (Hlimit p w h) as E1. rewrite H1 in E1. cbn [snd] in E1. rewrite <- E1.
      unfold stream_paths in H2. apply bind_ok in H2. destruct H2 as (l & h4 & Hf & H2). destruct (dl_fail dl); [discriminate|]. injection H2 as <- <-.
      rewrite (filterM_calls_ok dk _ Hs _ _ _ Hf). do 2 f_equal. unfold contained. cbn [flat_map]. rewrite app_nil_r.
      destruct Hs as (_ & _ & Hop & _). rewrite Hop in Ho. destruct (d_list dk p) as [names|]; [|discriminate]. cbn in Ho. injection Ho as <-. reflexivity.
    Qed.
  End Filter.
End Prepare.

Lemma render_silent tag w o e h : silent_lines tag o -> calls tag (snd (render_tree o (line_renderer_create o) e w h)) = calls tag h.
Proof.
  intros [He Hx]. set (K := fun h h' : hist => calls tag h' = calls tag h).
  assert (H : keeps K (render_tree o (line_renderer_create o) e)).
  { apply (keeps_render_entry K); unfold K.
    - reflexivity.
    - intros; congruence.
    - intros p w' h'. apply He.
    - intros p w' h'. unfold compute_line_extension. destruct (o_line_extension o); [apply Hx|reflexivity]. }
  apply H.
Qed.

Section Runs.
  Context (tag : nat) (o : options) (w : world).
  Hypothesis Hlines : silent_lines tag o.

  Lemma run_calls p h out h' L :
    (forall p h0 dl h x h', w_open w h0 p = Some dl -> prepare o p dl w h = (Ok x, h') -> calls tag h' = calls tag h ++ L p) ->
    pretty_print o p w h = (Ok out, h') ->
    exists e h1, scan o (location w p) w h = (Ok e, h1) /\ calls tag h' = calls tag h ++ flat_map L (opened e).
  Proof.
    intros HL H. rewrite pretty_print_split in H. apply bind_ok in H. destruct H as (e & h1 & Hs & Hr). exists e, h1. split; [exact Hs|].
    pose proof (render_silent tag w o e h1 Hlines) as E. rewrite Hr in E. cbn [snd] in E. rewrite E.
    apply scan_handle in Hs. eapply handle_calls; eassumption.
  Qed.

  Lemma run_spread k0 p h : lists_once w ->
    (forall p h0 dl h, w_open w h0 p = Some dl ->
      exists l, calls tag (snd (prepare o p dl w h)) = calls tag h ++ l /\ NoDup l /\
        (forall q, In q l -> below p q /\ length (p_names q) = length (p_names p) + k0)) ->
    exists l, calls tag (snd (pretty_print o p w h)) = calls tag h ++ l /\ NoDup l.
  Proof.
    intros Hl HL. rewrite pretty_print_split. unfold bind at 1.
    destruct (handle_spread tag w o k0 Hl HL (Z.to_nat (o_max_depth o)) 0%Z (location w p) h) as (l & El & Hn & _).
    exists l. split; [|exact Hn]. rewrite <- El. rewrite scan_location. unfold bind.
    destruct (handle _ _ _ _ _ w h) as [[[e|]|x] h1]; cbn [snd ret throw]; try reflexivity. apply (render_silent tag w o e h1 Hlines).
  Qed.
End Runs.

Lemma flat_map_single A (l : list A) : flat_map (fun a => [a]) l = l.
Proof. induction l; cbn; congruence. Qed.

(** C117, the child limit. *)
Lemma limit_calls tag o f p w h out h' :
  o_child_limit o = logged tag f -> silent tag f -> silent tag (o_dir_matcher o) -> silent tag (o_file_matcher o) ->
  silent_order tag o -> silent_lines tag o ->
  pretty_print o p w h = (Ok out, h') ->
  exists e h1, scan o (location w p) w h = (Ok e, h1) /\ calls tag h' = calls tag h ++ opened e.
Proof.
  intros Ho Hf Hd Hfi Hord Hlines H.
  destruct (run_calls tag o w Hlines p h out h' (fun p => [p])) as (e & h1 & Hs & E); [|exact H|].
  - intros q h0 dl h2 x h3 _ Hp. pose proof (prepare_limit tag w o Hord) as HP.
    rewrite <- (HP (fun p h => eq_trans (f_equal (fun g => calls tag (snd (g p w h))) Ho) (logged_call tag w _ f p h Hf)) Hd Hfi q dl h2).
    rewrite Hp. reflexivity.
  - exists e, h1. split; [exact Hs|]. now rewrite flat_map_single in E.
Qed.

Lemma limit_calls_once tag o f p w h :
  o_child_limit o = logged tag f -> silent tag f -> silent tag (o_dir_matcher o) -> silent tag (o_file_matcher o) ->
  silent_order tag o -> silent_lines tag o -> lists_once w ->
  exists l, calls tag (snd (pretty_print o p w h)) = calls tag h ++ l /\ NoDup l.
Proof.
  intros Ho Hf Hd Hfi Hord Hlines Hl. apply (run_spread tag o w Hlines 0 p h Hl). intros q h0 dl h2 _. exists [q]. split.
  - apply (prepare_limit tag w o Hord); auto. intros p' h'. rewrite Ho. now apply logged_call.
  - split; [constructor; [intros []|constructor]|]. intros r [<-|[]]. split; [exists []; now destruct q as [a ns]; rewrite app_nil_r|lia].
Qed.

(** C117, the filters. *)
Lemma filter_calls (b : bool) tag o f p w h out h' dk :
  (if b then o_dir_matcher o else o_file_matcher o) = logged tag f -> silent tag f ->
  silent tag (if b then o_file_matcher o else o_dir_matcher o) -> silent tag (o_child_limit o) ->
  silent_order tag o -> silent_lines tag o -> steady w dk ->
  pretty_print o p w h = (Ok out, h') ->
  exists e h1, scan o (location w p) w h = (Ok e, h1) /\
    calls tag h' = calls tag h ++ filter (fun c => Bool.eqb (is_dirb dk c) b) (contained dk (opened e)).
Proof.
  intros Ho Hf Hoth Hlim Hord Hlines Hs H.
  destruct (run_calls tag o w Hlines p h out h' (fun p => filter (fun c => Bool.eqb (is_dirb dk c) b) (contained dk [p]))) as (e & h1 & Hsc & E); [|exact H|].
  - intros q h0 dl h2 x h3 Hop Hp. eapply prepare_filter_ok; eauto. intros p' h4. rewrite Ho. now apply logged_call.
  - exists e, h1. split; [exact Hsc|]. rewrite E. f_equal. clear. induction (opened e) as [|q l IH]; [reflexivity|].
    change (contained dk (q :: l)) with ((match d_list dk q with Some names => map (child q) names | None => [] end) ++ contained dk l).
    rewrite filter_app, <- IH. cbn [flat_map]. f_equal. unfold contained. cbn [flat_map]. now rewrite app_nil_r.
Qed.

Lemma filter_calls_once (b : bool) tag o f p w h :
  (if b then o_dir_matcher o else o_file_matcher o) = logged tag f -> silent tag f ->
  silent tag (if b then o_file_matcher o else o_dir_matcher o) -> silent tag (o_child_limit o) ->
  silent_order tag o -> silent_lines tag o -> lists_once w ->
  exists l, calls tag (snd (pretty_print o p w h)) = calls tag h ++ l /\ NoDup l.
Proof.
  intros Ho Hf Hoth Hlim Hord Hlines Hl. apply (run_spread tag o w Hlines 1 p h Hl). intros q h0 dl h2 Hop.
  destruct (prepare_filter tag w o Hord b Hlim) with (p := q) (dl := dl) (h := h2) as (l & El & Hn & Hc); auto.
  { intros p' h'. rewrite Ho. now apply logged_call. }
  exists l. split; [exact El|]. split; [apply Hn; eapply Hl; exact Hop|]. intros r Hr. destruct (Hc r Hr) as [n ->]. split.
  - exists [n]. reflexivity.
  - cbn. rewrite app_length. reflexivity.
Qed.

(** ** The emoji mapping *)

Section Emoji.
  Context (tag : nat) (w : world) (o : options) (lr : line_renderer) (f : emoji_fn) (v : view).
  Hypothesis Hlr : lr_emoji lr = logged tag f.
  Hypothesis Hf : silent tag f.
  Hypothesis Hext : match o_line_extension o with Some g => silent tag g | None => True end.
  Hypothesis Hv : extension_is w o (v_ext v).
  Hypothesis Hc : o_compact o = v_compact v.

  Lemma prefix_makes p : makes_calls w tag (emoji_prefix (lr_emoji lr) p) [p].
  Proof.
    unfold emoji_prefix. apply makes_bind_last; [|intros; apply makes_ret]. rewrite Hlr. intro h.
    pose proof (logged_call tag w _ f p h Hf) as H. destruct (logged tag f p w h) as [[a|x] h']; cbn [snd] in H; [exact H|].
    exists 1%nat. exact H.
  Qed.

  Lemma ext_silent p : makes_calls w tag (compute_line_extension o p) [].
  Proof.
    apply silent_makes. intro h. unfold compute_line_extension. destruct (o_line_extension o); [apply Hext|reflexivity].
  Qed.

  Lemma format_silent A (m : M A) : (forall h, snd (m w h) = h) -> makes_calls w tag m [].
  Proof. intro H. apply silent_makes. intro h. now rewrite H. Qed.

  Lemma begin_makes d dir dirs : makes_calls w tag (render_directory_begin lr d dir dirs) [dir].
  Proof.
    apply makes_bind_last; [apply prefix_makes|]. intros. apply makes_bind_nil; [|intros; apply makes_ret].
    apply silent_makes. intro h2. set (K := fun h h' : hist => calls tag h' = calls tag h).
    assert (HK : keeps K (format_directory_begin dirs)); [|apply HK].
    assert (Kr : forall h, K h h) by reflexivity. assert (Kt : forall a b c, K a b -> K b c -> K a c) by (unfold K; congruence).
    apply (keeps_bind K Kt); [apply (keeps_mapM K Kr Kt); intro; apply (keeps_dir_label K Kr)|]. intro. apply (keeps_ret K Kr).
  Qed.

  Lemma labelled_dir pre d ks : labelled_paths (SDir (pre ++ [d]) ks) = d :: flat_map labelled_paths ks.
  Proof.
    unfold labelled_paths. cbn [line_paths flat_map]. rewrite last_last. cbn [app]. f_equal.
    induction ks as [|k ks IH]; [reflexivity|]. cbn [flat_map]. now rewrite flat_map_app, IH.
  Qed.

  Lemma emoji_makes e : forall d cp pre, makes_calls w tag (render_entry o lr e d cp) (labelled_paths (group v (depth_is_root d) pre e)).
  Proof.
    induction e as [dir es IH|f0 k|dd|n] using entry_ind'; intros d cp pre.
    - assert (Hkids : makes_calls w tag
          (render_children (fun c cd => render_entry o lr c cd (initial_compact_paths c)) d es)
          (flat_map labelled_paths (map (group v false []) es))).
      { clear -IH. induction IH as [|c es Hc Hes IHes]; [apply makes_ret|].
        assert (Hd : forall x, depth_is_root (depth_append d x) = false) by (intro x; now destruct d).
        destruct es as [|c' es].
        - cbn [map flat_map]. rewrite app_nil_r. cbn [render_children]. rewrite <- (Hd LAST_FILE). apply Hc.
        - cbn [map flat_map]. change (render_children ?r ?d (c :: c' :: es)) with
            (s <- r c (depth_append d NON_LAST_FILE); r' <- render_children r d (c' :: es); ret (s ++ [c_nl] ++ r')).
          apply makes_bind; [rewrite <- (Hd NON_LAST_FILE); apply Hc|]. intros. apply makes_bind_last; [exact IHes|]. intros. apply makes_ret. }
      assert (Hfin : forall ev : option (option jstring), makes_calls w tag
          (line <- render_directory_begin lr d dir cp;
           ext <- match ev with Some x => ret x | None => compute_line_extension o dir end;
           (let line := line ++ or_empty ext in
            let line := match es with [] => line | _ => line ++ [c_nl] end in
            children <- render_children (fun c cd => render_entry o lr c cd (initial_compact_paths c)) d es;
            ret (line ++ children))) (labelled_paths (SDir (pre ++ [dir]) (map (group v false []) es)))).
      { intro ev. rewrite labelled_dir. change (dir :: ?l) with ([dir] ++ l). apply makes_bind; [apply begin_makes|].
        intros. apply makes_bind_nil.
        - destruct ev; [apply makes_ret|apply ext_silent].
        - intros. cbn zeta. apply makes_bind_last; [exact Hkids|]. intros. apply makes_ret. }
      cbn [render_entry].
      destruct (one_dir_dec es) as [(cd & ces & ->)|Hno].
      + rewrite group_one. rewrite <- Hc. destruct (o_compact o && negb (depth_is_root d)) eqn:Ec.
        * cbn [andb]. apply makes_bind_nil; [apply ext_silent|]. intros x h h' Hx.
          assert (Ex : x = v_ext v dir).
          { clear -Hx Hv. unfold compute_line_extension, extension_is in *. destruct (o_line_extension o) as [g|].
            - destruct (Hv dir h) as [h2 E]. rewrite Hx in E. now injection E.
            - injection Hx as <- _. now rewrite Hv. }
          subst x. destruct (v_ext v dir) as [x|]; cbn [is_some negb].
          -- apply (Hfin (Some (Some x))).
          -- inversion IH as [|a b Hd _]; subst. apply andb_true_iff in Ec. destruct Ec as [_ Ec]. apply negb_true_iff in Ec.
             rewrite <- Ec. apply Hd.
        * cbn [andb]. apply (Hfin None).
      + rewrite group_other by exact Hno. destruct es as [|[] [|]]; try apply (Hfin None). exfalso. eapply Hno; reflexivity.
    - cbn [render_entry group labelled_paths line_paths flat_map app]. unfold render_file. apply makes_bind_last.
      + apply makes_bind_last; [apply prefix_makes|]. intros. apply makes_bind_nil; [|intros; apply makes_ret].
        apply silent_makes. intro h'0. apply (keeps_format_file (fun h h' => calls tag h' = calls tag h)). reflexivity.
      + intros. apply makes_bind_nil; [apply ext_silent|]. intros. apply makes_ret.
    - apply makes_ret.
    - apply makes_ret.
  Qed.
End Emoji.

Lemma scan_silent tag w o p h : silent tag (o_child_limit o) -> silent tag (o_dir_matcher o) -> silent tag (o_file_matcher o) ->
  silent_order tag o -> calls tag (snd (scan o p w h)) = calls tag h.
Proof.
  intros Hl Hd Hf Hs. set (K := fun h h' : hist => calls tag h' = calls tag h).
  assert (H : keeps K (scan o p)); [|apply H].
  apply keeps_scan; unfold K; auto; try congruence.
  - intros. now apply calls_cons_other.
Qed.

(** C117, the emoji mapping. *)
Lemma emoji_calls tag o f v p w h :
  o_emoji o = logged tag f -> silent tag f -> silent tag (o_child_limit o) -> silent tag (o_dir_matcher o) ->
  silent tag (o_file_matcher o) -> silent_order tag o ->
  match o_line_extension o with Some g => silent tag g | None => True end ->
  extension_is w o (v_ext v) -> o_compact o = v_compact v ->
  match scan o (location w p) w h with
  | (Ok e, h1) => exists s, shows v true e s /\
      match pretty_print o p w h with
      | (Ok _, h') => calls tag h' = calls tag h ++ labelled_paths s
      | (Throw _, h') => exists k, calls tag h' = calls tag h ++ firstn k (labelled_paths s)
      end
  | (Throw _, h1) => calls tag (snd (pretty_print o p w h)) = calls tag h
  end.
Proof.
  intros Ho Hf Hl Hd Hfi Hs Hx Hv Hc. rewrite pretty_print_split. unfold bind at 1. unfold bind at 1.
  pose proof (scan_silent tag w o (location w p) h Hl Hd Hfi Hs) as E.
  destruct (scan o (location w p) w h) as [[e|x] h1]; cbn [snd] in E; [|exact E].
  exists (group v true [] e). split; [apply group_shows|]. rewrite <- E.
  exact (emoji_makes tag w o (line_renderer_create o) f v Ho Hf Hx Hv Hc e [] (initial_compact_paths e) [] h1).
Qed.

Lemma directory_filter_calls tag o f p w h out h' dk :
  o_dir_matcher o = logged tag f -> silent tag f -> silent tag (o_file_matcher o) -> silent tag (o_child_limit o) ->
  silent_order tag o -> silent_lines tag o -> steady w dk ->
  pretty_print o p w h = (Ok out, h') ->
  exists e h0, scan o (location w p) w h = (Ok e, h0) /\
    calls tag h' = calls tag h ++ filter (is_dirb dk) (contained dk (opened e)).
Proof.
  intros Ho Hf Hoth Hlim Hord Hlines Hs H.
  destruct (filter_calls true tag o f p w h out h' dk Ho Hf Hoth Hlim Hord Hlines Hs H) as (e & h1 & Hsc & E). exists e, h1.
  split; [exact Hsc|]. rewrite E. f_equal. apply filter_ext. intro c. now destruct (is_dirb dk c).
Qed.

Lemma file_filter_calls tag o f p w h out h' dk :
  o_file_matcher o = logged tag f -> silent tag f -> silent tag (o_dir_matcher o) -> silent tag (o_child_limit o) ->
  silent_order tag o -> silent_lines tag o -> steady w dk ->
  pretty_print o p w h = (Ok out, h') ->
  exists e h0, scan o (location w p) w h = (Ok e, h0) /\
    calls tag h' = calls tag h ++ filter (fun c => negb (is_dirb dk c)) (contained dk (opened e)).
Proof.
  intros Ho Hf Hoth Hlim Hord Hlines Hs H.
  destruct (filter_calls false tag o f p w h out h' dk Ho Hf Hoth Hlim Hord Hlines Hs H) as (e & h1 & Hsc & E). exists e, h1.
  split; [exact Hsc|]. exact E.
Qed.

Lemma never_twice tag o p w h : one_logs tag o -> silent_order tag o -> silent_lines tag o -> lists_once w ->
  exists l, calls tag (snd (pretty_print o p w h)) = calls tag h ++ l /\ NoDup l.
Proof.
  intros [f Ho Hf H1 H2|f Ho Hf H1 H2|f Ho Hf H1 H2] Hord Hlines Hl.
  - eapply limit_calls_once; eauto.
  - eapply (filter_calls_once true); eauto.
  - eapply (filter_calls_once false); eauto.
Qed.

(** ** The accesses to the file system *)

Section Accesses.
  Context (w : world) (dk : disk) (o : options).
  Hypothesis Hw : steady w dk.
  Hypothesis Hd : eventless (o_dir_matcher o).
  Hypothesis Hf : eventless (o_file_matcher o).
  Hypothesis Hl : eventless (o_child_limit o).
  Hypothesis Hc : forall a, eventless (o_comparator o a).

  Lemma filterM_events l : forall h r h', filterM (path_filter o) l w h = (Ok r, h') ->
    h' = rev (map (fun c => EvLstat c (d_kind dk c)) l) ++ h.
  Proof.
    induction l as [|c l IH]; intros h r h' H; [injection H as <- <-; reflexivity|].
    cbn [filterM] in H. apply bind_ok in H. destruct H as (x & h1 & Hx & H). apply bind_ok in H. destruct H as (r' & h2 & Hr & H).
    injection H as <- <-. rewrite (IH _ _ _ Hr). cbn [map rev]. rewrite <- app_assoc. f_equal. cbn [app].
    unfold path_filter, pm_if_then_else, pm_is_directory in Hx. unfold bind in Hx. rewrite has_kind_run in Hx.
    destruct Hw as (Hls & _). rewrite Hls in Hx.
    destruct (match d_kind dk c with Some k' => kind_eqb k' KDir | None => false end).
    - pose proof (Hd c w (EvLstat c (d_kind dk c) :: h)) as E. rewrite Hx in E. exact E.
    - pose proof (Hf c w (EvLstat c (d_kind dk c) :: h)) as E. rewrite Hx in E. exact E.
  Qed.

  Lemma sorted_events l h : snd (sorted (o_comparator o) l w h) = h.
  Proof.
    assert (H : keeps (fun h h' => h' = h) (sorted (o_comparator o) l)); [|apply H].
    apply keeps_sorted; [reflexivity|intros; congruence|]. intros a b w' h'. apply Hc.
  Qed.

  Lemma prepare_events p h0 dl h x h' : w_open w h0 p = Some dl -> prepare o p dl w h = (Ok x, h') ->
    h' = rev (map (fun c => EvLstat c (d_kind dk c)) (contained dk [p])) ++ h.
  Proof.
    intros Ho H. unfold prepare in H. apply bind_ok in H. destruct H as (mc & h1 & H1 & H). apply bind_ok in H. destruct H as (u & h2 & H2 & H).
    apply bind_ok in H. destruct H as (it & h3 & H3 & H). injection H as <- <-.
    pose proof (sorted_events u h2) as E3. rewrite H3 in E3. cbn [snd] in E3. subst h3.
    pose proof (Hl p w h) as E1. rewrite H1 in E1. cbn [snd] in E1. subst h1.
    unfold stream_paths in H2. apply bind_ok in H2. destruct H2 as (l & h4 & Hfm & H2). destruct (dl_fail dl); [discriminate|]. injection H2 as <- <-.
    rewrite (filterM_events _ _ _ _ Hfm). do 3 f_equal. unfold contained. cbn [flat_map]. rewrite app_nil_r.
    destruct Hw as (_ & _ & Hop & _). rewrite Hop in Ho. destruct (d_list dk p) as [names|]; [|discriminate]. cbn in Ho. injection Ho as <-. reflexivity.
  Qed.

  Lemma loop_events (hc : path -> M (option entry)) hl mc :
    (forall c h e h', hc c w h = (Ok (Some e), h') -> (exists q, entry_path e = Some q) /\ h' = rev (accesses dk e) ++ h) ->
    (forall c h h', hc c w h <> (Ok None, h')) ->
    forall it n acc h es rest h', children_loop hc hl mc n acc it w h = (Ok (es, rest), h') ->
    exists new, es = acc ++ new /\ (forall e, In e new -> exists q, entry_path e = Some q) /\ h' = rev (flat_map (accesses dk) new) ++ h.
  Proof.
    intros Hhc Hnn. induction it as [|c it IH]; intros n acc h es rest h' H.
    - cbn in H. injection H as <- <- <-. exists []. rewrite !app_nil_r. split; [reflexivity|]. split; [intros ? []|reflexivity].
    - cbn [children_loop] in H. destruct (hl && (mc <? n + 1)%Z).
      + injection H as <- <- <-. exists []. rewrite !app_nil_r. split; [reflexivity|]. split; [intros ? []|reflexivity].
      + apply bind_ok in H. destruct H as (e & h1 & He & H). destruct e as [e|]; [|exfalso; eapply Hnn; exact He].
        destruct (Hhc _ _ _ _ He) as [Hq ->]. destruct (IH _ _ _ _ _ _ H) as (new & -> & Hnew & ->).
        exists (e :: new). rewrite <- app_assoc. split; [reflexivity|]. split.
        * intros x [<-|Hx]; auto.
        * cbn [flat_map]. now rewrite rev_app_distr, app_assoc.
  Qed.

  Lemma accesses_dir p es : (forall n, es <> [EMaxDepth n]) -> accesses dk (EDir p es) =
    [EvLstat p (Some KDir); EvOpen p] ++ map (fun c => EvLstat c (d_kind dk c)) (contained dk [p]) ++ flat_map (accesses dk) es ++ [EvClose p true].
  Proof. intro H. destruct es as [|x [|y es]]; try reflexivity; destruct x; try reflexivity. exfalso. eapply H. reflexivity. Qed.

  Lemma handle_events fuel : forall d p h e h', handle fuel o d p (path_filter o) w h = (Ok (Some e), h') -> h' = rev (accesses dk e) ++ h.
  Proof.
    pose proof Hw as (Hls & Hst & _).
    induction fuel as [|fuel IH]; intros d p h e h' H; pose proof H as H0; apply handle_ok in H0;
      destruct H0 as [(k & E & Hk & Hs)|[(Hk & Hdd & Hd0 & E)|(fuel' & dl & es & h1 & h2 & Ef & Hk & Hdd & -> & Ho & Hh & Hcl & -> & E)]];
      injection E as ->; try discriminate.
    1, 3: cbn [handle] in H; apply bind_ok in H; destruct H as (b & h1 & Hb & H); unfold pm_is_directory, has_kind, lstat, bind in Hb; cbn in Hb;
      injection Hb as <- <-; cbn [accesses rev app]; rewrite <- (Hls h p); destruct (w_lstat w h p) as [[]|] eqn:El; cbn in H; try (exfalso; eapply Hk; reflexivity);
      unfold bind, stat in H; rewrite Hs in H; cbn in H; injection H as <-; reflexivity.
    1, 2: cbn [handle] in H; apply bind_ok in H; destruct H as (b & h1 & Hb & H); unfold pm_is_directory, has_kind, lstat, bind in Hb; cbn in Hb;
      injection Hb as <- <-; rewrite Hk in H; cbn in H; rewrite (proj2 (Z.leb_le _ _) Hdd) in H; unfold new_max_depth_entry in H;
      destruct (Z.ltb_spec d 0); [lia|]; cbn in H; injection H as <-; reflexivity.
    injection Ef as <-. clear H. rewrite hdc_prepare in Hh. apply bind_ok in Hh. destruct Hh as ([mc it] & h3 & Hp & Hh).
    apply bind_ok in Hh. destruct Hh as ([new rest] & h4 & Hlo & Hh). injection Hh as <- <-. cbn [fst snd] in Hlo.
    destruct (loop_events (fun c => handle fuel o (d + 1)%Z c (path_filter o)) (0 <=? mc)%Z mc) with (3 := Hlo) as (new' & E & Hnew & ->).
    { intros c h5 e5 h6 H5. split; [eapply handle_entry; exact H5|]. eapply IH. exact H5. }
    { intros c h5 h6. apply handle_not_none. }
    cbn [app] in E. subst new'. rewrite accesses_dir.
    - rewrite (prepare_events _ _ _ _ _ _ Ho Hp). rewrite !rev_app_distr, flat_map_app. cbn [rev app].
      replace (flat_map (accesses dk) match rest with [] => [] | _ :: _ => [ESkipped p] end) with (@nil event) by now destruct rest.
      rewrite app_nil_r, <- !app_assoc. reflexivity.
    - intros n En. destruct new as [|x new].
      + destruct rest; discriminate.
      + injection En as -> _. destruct (Hnew _ (or_introl eq_refl)) as [q Hq]. discriminate.
  Qed.
End Accesses.

Lemma render_events w o e h : eventless (o_emoji o) -> match o_line_extension o with Some f => eventless f | None => True end ->
  snd (render_tree o (line_renderer_create o) e w h) = h.
Proof.
  intros He Hx. assert (H : keeps (fun h h' => h' = h) (render_tree o (line_renderer_create o) e)); [|apply H].
  apply keeps_render_entry.
  - reflexivity.
  - intros; congruence.
  - intros p w' h'. apply He.
  - intros p w' h'. unfold compute_line_extension. destruct (o_line_extension o); [apply Hx|reflexivity].
Qed.

(** C118. *)
Lemma run_accesses o st p w h out h' dk : uses w o st -> eventless_callbacks o -> steady w dk ->
  pretty_print o p w h = (Ok out, h') ->
  exists e, tree_at st dk 0 (location w p) e /\ h' = rev (accesses dk e) ++ h.
Proof.
  intros Hu (Hd & Hf & Hl & Hc & He & Hx) Hw H. rewrite pretty_print_split in H. apply bind_ok in H. destruct H as (e & h1 & Hs & Hr). exists e.
  pose proof (render_events w o e h1 He Hx) as E. rewrite Hr in E. cbn [snd] in E. subst h1. apply scan_handle in Hs. split.
  - eapply handle_tree; eassumption.
  - eapply handle_events; eassumption.
Qed.

Lemma accesses_cost dk e : length (accesses dk e) <= 3 * length (entry_paths e) + length (contained dk (opened e)).
Proof.
  induction e as [p es IH|f k|d|n] using entry_ind'; try (cbn; lia).
  assert (Hkids : length (flat_map (accesses dk) es) <= 3 * length (flat_map entry_paths es) + length (contained dk (flat_map opened es))).
  { induction IH as [|e es He Hes IHes]; [cbn; lia|]. cbn [flat_map]. unfold contained in *. rewrite flat_map_app, !app_length. lia. }
  assert (Hex : (exists n, es = [EMaxDepth n]) \/ forall n, es <> [EMaxDepth n]).
  { destruct es as [|[] [|]]; try (right; intros; discriminate). left. eauto. }
  destruct Hex as [[n ->]|Hno]; [cbn; lia|]. rewrite accesses_dir, opened_dir by exact Hno.
  rewrite !app_length. cbn [entry_paths length]. rewrite map_length. unfold contained in *. cbn [flat_map]. rewrite !app_length. cbn [length]. lia.
Qed.

Lemma run_cost o st p w h out h' dk : uses w o st -> eventless_callbacks o -> steady w dk ->
  pretty_print o p w h = (Ok out, h') ->
  exists e t, tree_at st dk 0 (location w p) e /\ h' = rev t ++ h /\
    length t <= 3 * length (entry_paths e) + length (contained dk (opened e)).
Proof.
  intros Hu He Hw H. destruct (run_accesses o st p w h out h' dk Hu He Hw H) as (e & Ht & E). exists e, (accesses dk e).
  split; [exact Ht|]. split; [exact E|]. apply accesses_cost.
Qed.
