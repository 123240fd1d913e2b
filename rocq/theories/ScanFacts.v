(** * Proofs about the scanner *)

From Verif Require Import SpecScan RenderFacts SortFacts.
Open Scope Z_scope.

Lemma bind_ok A B (m : M A) (f : A -> M B) w h b h' :
  bind m f w h = (Ok b, h') -> exists a h1, m w h = (Ok a, h1) /\ f a w h1 = (Ok b, h').
Proof. unfold bind. destruct (m w h) as [[a|e] h1]; [eauto|discriminate]. Qed.

Lemma bind_throw A B (m : M A) (f : A -> M B) w h e h' :
  bind m f w h = (Throw e, h') ->
  m w h = (Throw e, h') \/ exists a h1, m w h = (Ok a, h1) /\ f a w h1 = (Throw e, h').
Proof. unfold bind. destruct (m w h) as [[a|e'] h1]; [eauto|intro H; injection H as -> ->; auto]. Qed.

Lemma with_close_ok A p x (m : M A) w h a h' :
  with_close p x m w h = (Ok a, h') ->
  exists h1, m w h = (Ok a, h1) /\ w_close_ok w h1 p = true /\ h' = EvClose p true :: h1.
Proof.
  unfold with_close, close_dir. destruct (m w h) as [[b|e] h1]; [|discriminate].
  destruct (w_close_ok w h1 p) eqn:E; [|discriminate]. intro H. injection H as -> <-. eauto.
Qed.

Lemma has_kind_run k p w h :
  has_kind k p w h = (Ok (match w_lstat w h p with Some k' => kind_eqb k' k | None => false end),
                      EvLstat p (w_lstat w h p) :: h).
Proof. reflexivity. Qed.

(** ** Inversion of a successful [handle] *)

Lemma children_loop_ok hc hl mc w : forall it count acc h es rest h',
  children_loop hc hl mc count acc it w h = (Ok (es, rest), h') ->
  (forall c w h h', hc c w h <> (Ok None, h')) ->
  exists new shown, es = acc ++ new /\ it = shown ++ rest /\ length new = length shown /\
    Forall2 (fun c e => exists h1 h2, hc c w h1 = (Ok (Some e), h2)) shown new /\
    (rest <> [] -> hl = true /\ mc < count + Z.of_nat (length shown) + 1) /\
    (hl = true -> (length shown <= Z.to_nat (Z.max 0 (mc - count)))%nat).
Proof.
  induction it as [|c it IH]; intros count acc h es rest h' H Hnn.
  - cbn in H. injection H as <- <- <-. exists [], []. repeat split; auto using app_nil_r; try congruence.
    + simpl; lia.
  - cbn [children_loop] in H. destruct (hl && (mc <? count + 1)) eqn:E.
    + injection H as <- <- <-. exists [], []. apply andb_prop in E. destruct E as [-> E].
      apply Z.ltb_lt in E. repeat split; auto; try (symmetry; apply app_nil_r); simpl length; lia.
    + apply bind_ok in H. destruct H as (e & h1 & H1 & H2). destruct e as [e|].
      2:{ exfalso. eapply Hnn; eauto. }
      apply IH in H2; [|exact Hnn].
      destruct H2 as (new & shown & -> & -> & Hl & HF & Hrest & Hlim).
      exists (e :: new), (c :: shown). repeat split.
      * now rewrite <- app_assoc.
      * simpl; lia.
      * constructor; [eauto|exact HF].
      * now apply Hrest.
      * destruct (Hrest H) as [_ Hc]. simpl length. lia.
      * intro Hh. rewrite Hh in E. simpl in E. apply Z.ltb_ge in E.
        specialize (Hlim Hh). simpl length. lia.
Qed.

Lemma handle_not_none fuel : forall o d p flt w h h', handle fuel o d p flt w h <> (Ok None, h').
Proof.
  intros o d p flt w h h' H.
  destruct fuel as [|fuel]; cbn [handle] in H; apply bind_ok in H; destruct H as (b & h1 & _ & H);
    (destruct b;
     [destruct (o_max_depth o <=? d);
      [apply bind_ok in H; destruct H as (x & h2 & _ & H); discriminate|]
     |unfold handle_file in H; apply bind_ok in H; destruct H as (a & h2 & _ & H); destruct a; discriminate]).
  - discriminate.
  - apply bind_ok in H. destruct H as (dl & h2 & _ & H). destruct dl; [|discriminate].
    apply bind_ok in H. destruct H as (es & h3 & _ & H). discriminate.
Qed.

Lemma handle_ok fuel o d p flt w h r h' :
  handle fuel o d p flt w h = (Ok r, h') ->
  (exists k, r = Some (EFile p k) /\
     (forall k', w_lstat w h p = Some k' -> k' <> KDir) /\
     w_stat w (EvLstat p (w_lstat w h p) :: h) p = Some k) \/
  (w_lstat w h p = Some KDir /\ o_max_depth o <= d /\ 0 <= d /\ r = Some (EDir p [EMaxDepth d])) \/
  (exists fuel' dl es h1 h2, fuel = S fuel' /\ w_lstat w h p = Some KDir /\ d < o_max_depth o /\
     h1 = EvLstat p (Some KDir) :: h /\ w_open w h1 p = Some dl /\
     handle_directory_children o (fun c => handle fuel' o (d + 1) c flt) p dl flt w (EvOpen p :: h1) = (Ok es, h2) /\
     w_close_ok w h2 p = true /\ h' = EvClose p true :: h2 /\
     r = Some (EDir p es)).
Proof.
  intro H.
  assert (Hhead : exists b, (b = match w_lstat w h p with Some k' => kind_eqb k' KDir | None => false end) /\
            ((b = true /\ w_lstat w h p = Some KDir) \/
             (b = false /\ forall k', w_lstat w h p = Some k' -> k' <> KDir))).
  { eexists. split; [reflexivity|]. destruct (w_lstat w h p) as [[]|]; simpl; auto; right; split; auto; intros ? E; try discriminate E; injection E as <-; discriminate. }
  destruct Hhead as (b & Eb & Hb).
  destruct fuel as [|fuel]; cbn [handle] in H; apply bind_ok in H; destruct H as (b' & h1 & Hk & H);
    unfold pm_is_directory in Hk; rewrite has_kind_run in Hk; injection Hk as Hk1 Hk2; rewrite <- Eb in Hk1; subst b';
    (destruct Hb as [[-> Hb]|[-> Hb]]; [rewrite Hb in Hk2; destruct (Z.leb_spec (o_max_depth o) d) as [Hle|Hgt]|]).
  - right; left. unfold new_max_depth_entry in H. destruct (Z.ltb_spec d 0) as [Hd|Hd]; [discriminate|].
    injection H as <- <-. auto.
  - discriminate.
  - left. unfold handle_file, stat in H. cbn in H. rewrite <- Hk2 in H.
    destruct (w_stat w (EvLstat p (w_lstat w h p) :: h) p) as [k|] eqn:E; [|discriminate].
    injection H as <- <-. eauto.
  - right; left. unfold new_max_depth_entry in H. destruct (Z.ltb_spec d 0) as [Hd|Hd]; [discriminate|].
    injection H as <- <-. auto.
  - right; right. apply bind_ok in H. destruct H as (dl & h2 & Ho & H).
    unfold open_dir in Ho. destruct (w_open w h1 p) as [dl'|] eqn:Eo; injection Ho as <- <-; [|discriminate].
    apply bind_ok in H. destruct H as (es & h3 & Hw & H). injection H as <- <-.
    apply with_close_ok in Hw. destruct Hw as (h4 & Hw & Hc & ->).
    exists fuel, dl', es, h1, h4. rewrite <- Hk2 in *. repeat split; auto.
  - left. unfold handle_file, stat in H. cbn in H. rewrite <- Hk2 in H.
    destruct (w_stat w (EvLstat p (w_lstat w h p) :: h) p) as [k|] eqn:E; [|discriminate].
    injection H as <- <-. eauto.
Qed.

Lemma hdc_ok o hc p dl flt w h es h' :
  (forall c w h h', hc c w h <> (Ok None, h')) ->
  handle_directory_children o hc p dl flt w h = (Ok es, h') ->
  exists mc h1 accepted h2 order h2' new shown rest h3,
    o_child_limit o p w h = (Ok mc, h1) /\
    filterM flt (map (child p) (dl_names dl)) w h1 = (Ok accepted, h2) /\
    dl_fail dl = false /\ sorted (o_comparator o) accepted w h2 = (Ok order, h2') /\
    children_loop hc (0 <=? mc) mc 0 [] order w h2' = (Ok (new, rest), h3) /\
    h' = h3 /\
    order = shown ++ rest /\
    Forall2 (fun c e => exists h1 h2, hc c w h1 = (Ok (Some e), h2)) shown new /\
    shown = limited mc order /\
    es = new ++ marker mc order p.
Proof.
  intros Hnn H. unfold handle_directory_children in H.
  apply bind_ok in H. destruct H as (mc & h1 & Hmc & H).
  apply bind_ok in H. destruct H as (uns & h2 & Hst & H).
  apply bind_ok in H. destruct H as (it & h3 & Hso & H).
  apply bind_ok in H. destruct H as ([new rest] & h4 & Hcl & H). injection H as <- <-.
  unfold stream_paths in Hst. apply bind_ok in Hst. destruct Hst as (acc & h5 & Hf & Hst).
  destruct (dl_fail dl) eqn:Ed.
  { apply bind_ok in Hst. destruct Hst as (? & ? & _ & Hst). discriminate. }
  injection Hst as <- <-.
  pose proof (children_loop_ok _ _ _ _ _ _ _ _ _ _ _ Hcl Hnn) as (n & shown & E & Hit & Hl & HF & Hrest & Hlim).
  simpl in E. subst n.
  exists mc, h1, acc, h5, it, h3, new, shown, rest, h4.
  change (resolve_name p) with (child p) in Hf. rewrite Z.add_0_l in *.
  assert (Hlen : length it = (length shown + length rest)%nat)
    by (rewrite Hit; apply app_length).
  repeat split; auto.
  - unfold limited. rewrite Hit. destruct (Z.ltb_spec mc 0) as [Hneg|Hpos].
    + destruct rest as [|r rest]; [now rewrite app_nil_r|].
      destruct (Hrest ltac:(discriminate)) as [Hhl _]. apply Z.leb_le in Hhl. lia.
    + specialize (Hlim ltac:(apply Z.leb_le; lia)). rewrite Z.sub_0_r, Z.max_r in Hlim by lia.
      destruct rest as [|r rest].
      * rewrite app_nil_r. symmetry. apply firstn_all2. exact Hlim.
      * destruct (Hrest ltac:(discriminate)) as [_ Hm].
        replace (Z.to_nat mc) with (length shown) by lia.
        rewrite firstn_app, Nat.sub_diag, firstn_O, app_nil_r. symmetry. apply firstn_all.
  - f_equal. unfold marker. rewrite Hlen.
    destruct rest as [|r rest]; simpl length.
    + destruct (Z.leb_spec 0 mc); [|reflexivity]. destruct (Z.ltb_spec mc (Z.of_nat (length shown + 0))); [|reflexivity].
      specialize (Hlim ltac:(reflexivity)). rewrite Z.sub_0_r, Z.max_r in Hlim by lia. lia.
    + destruct (Hrest ltac:(discriminate)) as [Hhl Hm]. rewrite Hhl.
      destruct (Z.ltb_spec mc (Z.of_nat (length shown + S (length rest)))); [reflexivity|lia].
Qed.

(** ** The shape of every tree a scan can return, in any world *)

Inductive shaped (m : Z) : Z -> path -> entry -> Prop :=
| shaped_file d p k : shaped m d p (EFile p k)
| shaped_cut d p : m <= d -> 0 <= d -> shaped m d p (EDir p [EMaxDepth d])
| shaped_dir d p ns es mk : d < m -> Forall2 (fun n e => shaped m (d + 1) (child p n) e) ns es ->
    (mk = [] \/ mk = [ESkipped p]) -> shaped m d p (EDir p (es ++ mk)).

Lemma filterM_incl A (f : A -> M bool) w : forall l h r h', filterM f l w h = (Ok r, h') -> incl r l.
Proof.
  induction l as [|a l IH]; intros h r h' H; cbn in H.
  - injection H as <- <-. apply incl_refl.
  - apply bind_ok in H. destruct H as (b & h1 & _ & H). apply bind_ok in H. destruct H as (r' & h2 & H & E).
    injection E as <- <-. apply IH in H. destruct b.
    + apply incl_cons; [now left|]. now apply incl_tl.
    + now apply incl_tl.
Qed.

Lemma handle_shaped fuel : forall o d p flt w h e h',
  handle fuel o d p flt w h = (Ok (Some e), h') -> shaped (o_max_depth o) d p e.
Proof.
  induction fuel as [|fuel IH]; intros o d p flt w h e h' H; apply handle_ok in H;
    destruct H as [(k & E & _)|[(_ & Hm & Hd & E)|(f' & dl & es & h1 & h2 & Ef & _ & Hlt & _ & _ & Hc & _ & _ & E)]];
    try (injection E as ->); try discriminate; try (now constructor).
  injection Ef as <-. apply hdc_ok in Hc; [|intros; apply handle_not_none].
  destruct Hc as (mc & h3 & acc & h4 & order & h4' & new & shown & rest & h5 & _ & Hf & _ & Hso & _ & _ & Hs & HF & _ & ->).
  assert (Hns : exists ns, shown = map (child p) ns).
  { apply filterM_incl in Hf.
    assert (Hincl : incl shown (map (child p) (dl_names dl))).
    { intros x Hx. apply Hf. eapply Permutation_in; [symmetry; exact (sorted_perm _ _ _ _ _ _ Hso)|].
      rewrite Hs. apply in_or_app. now left. }
    clear -Hincl. induction shown as [|x shown IH]; [exists []; reflexivity|].
    destruct IH as [ns ->]; [intros y Hy; apply Hincl; now right|].
    specialize (Hincl x (or_introl eq_refl)). apply in_map_iff in Hincl. destruct Hincl as (n & <- & _).
    exists (n :: ns). reflexivity. }
  destruct Hns as [ns ->].
  apply shaped_dir with (ns := ns); auto.
  - clear -HF IH. revert new HF. induction ns as [|n ns IHn]; intros new HF; inversion HF as [|? e ? es [h1 [h2 He]] HF']; subst; constructor.
    + eapply IH. exact He.
    + now apply IHn.
  - unfold marker. destruct (_ && _); auto.
Qed.

Lemma scan_ok o p w h e h' :
  scan o p w h = (Ok e, h') ->
  handle (Z.to_nat (o_max_depth o)) o 0 (to_absolute (jv_cwd (w_jvm w)) (normalize p)) (path_filter o) w h
    = (Ok (Some e), h').
Proof.
  intro H. unfold scan in H. apply bind_ok in H. destruct H as (q & h1 & Hc & H).
  unfold clean_path in Hc. cbn in Hc. injection Hc as <- <-.
  apply bind_ok in H. destruct H as ([e'|] & h2 & Hh & H); [|discriminate]. injection H as <- <-. exact Hh.
Qed.

Lemma shaped_named_below m : forall e d p, shaped m d p e ->
  match e with EDir _ es => Forall named es | _ => True end /\ (p_names p <> [] -> named e).
Proof.
  assert (Hchild : forall p n, p_names (child p n) <> []) by (intros p n E; apply app_eq_nil in E; destruct E; discriminate).
  induction e as [q es IH|f k|q|n] using entry_ind'; intros d p H; inversion H; subst.
  - split; [repeat constructor|]. intro. repeat constructor; auto.
  - assert (HN : Forall named (es0 ++ mk)).
    { apply Forall_app. split.
      - apply Forall_app in IH. destruct IH as [IH _].
        match goal with HF : Forall2 _ ns es0 |- _ => clear -IH HF Hchild; revert IH; induction HF as [|x y ns es Hxy HF IHF]; intro IH end; constructor.
        + inversion IH as [|? ? Hy _]; subst. destruct (Hy _ _ Hxy) as [_ Hn]. apply Hn, Hchild.
        + inversion IH; subst. auto.
      - match goal with Hmk : _ \/ _ |- _ => destruct Hmk as [->| ->] end; repeat constructor. }
    split; [exact HN|]. intro. now constructor.
  - split; [exact I|]. intro. now constructor.
Qed.

Lemma shaped_root_path m d p e : shaped m d p e -> entry_path e = Some p.
Proof. destruct 1; reflexivity. Qed.

(** Exact depth cut, in any world. *)
Lemma shaped_at_depth m k : forall e d p x, shaped m d p e -> at_depth k e x ->
  match x with
  | EDir q es =>
      shaped m (d + Z.of_nat k) q (EDir q es)
  | EFile q kd => d + Z.of_nat k <= Z.max d m
  | ESkipped _ => True
  | EMaxDepth n => True
  end.
Proof.
  induction k as [|k IH]; intros e d p x Hs Hat; inversion Hat as [|? dd es c ? Hin Hc]; subst.
  - rewrite Z.add_0_r. destruct x; auto; [inversion Hs; subst; auto|]. lia.
  - inversion Hs as [|? ? Hle|? ? ns es0 mk Hlt HF Hmk]; subst.
    + destruct Hin as [<-|[]]. inversion Hc; subst. exact I.
    + apply in_app_or in Hin. destruct Hin as [Hin|Hin].
      * assert (exists n, shaped m (d + 1) (child dd n) c) as [n Hn].
        { clear -HF Hin. induction HF as [|n y ns es Hny HF IHF]; [destruct Hin|]. destruct Hin as [->|Hin]; eauto. }
        specialize (IH _ _ _ _ Hn Hc). replace (d + Z.of_nat (S k)) with (d + 1 + Z.of_nat k) by lia.
        destruct x; auto. lia.
      * destruct Hmk as [-> | ->]; [destruct Hin|]. destruct Hin as [<-|[]]. inversion Hc; subst. exact I.
Qed.

(** ** On a steady disk: the scan returns the specified tree *)

Section Steady.
  Context (w : world) (dk : disk) (o : options) (st : settings).
  Hypothesis Hw : steady w dk.
  Hypothesis Ho : uses w o st.

  Lemma has_kind_yields k p :
    yields w (has_kind k p) (match d_kind dk p with Some k' => kind_eqb k' k | None => false end).
  Proof.
    intro h. rewrite has_kind_run. destruct Hw as (H1 & _). rewrite H1. eauto.
  Qed.

  Lemma is_dirb_kind p : (match d_kind dk p with Some k' => kind_eqb k' KDir | None => false end) = is_dirb dk p.
  Proof. unfold is_dirb. destruct (d_kind dk p) as [[]|]; reflexivity. Qed.

  Lemma path_filter_yields p : yields w (path_filter o p) (accepts st dk p).
  Proof.
    destruct Ho as (Hd & Hf & _). unfold path_filter, pm_if_then_else.
    eapply yields_bind; [apply has_kind_yields|]. rewrite is_dirb_kind. unfold accepts.
    destruct (is_dirb dk p); intro h; [apply Hd|apply Hf].
  Qed.

  Lemma filterM_yields (f : path -> M bool) g l : (forall a, In a l -> yields w (f a) (g a)) -> yields w (filterM f l) (filter g l).
  Proof.
    induction l as [|a l IH]; intros H; simpl; [apply yields_ret|].
    eapply yields_bind; [apply H; now left|]. eapply yields_bind; [apply IH; intros; apply H; now right|].
    destruct (g a); apply yields_ret.
  Qed.

  Lemma yields_ok A (m : M A) a h b h' : yields w m a -> m w h = (Ok b, h') -> b = a.
  Proof. intros H E. destruct (H h) as [h1 E1]. congruence. Qed.

  Lemma handle_tree fuel : forall d p h e h',
    handle fuel o d p (path_filter o) w h = (Ok (Some e), h') -> tree_at st dk d p e.
  Proof.
    destruct Hw as (Hl & Hs & Hop & Hc & Hcf). destruct Ho as (Hd & Hf & Hlim & Hcmp & Hmd).
    induction fuel as [|fuel IH]; intros d p h e h' H; apply handle_ok in H;
      destruct H as [(k & E & Hnd & Hk)|[(Hk & Hm & Hdd & E)|(f' & dl & es & h1 & h2 & Ef & Hk & Hlt & -> & Hopn & Hch & _ & _ & E)]];
      try (injection E as ->); try discriminate.
    - constructor; [|rewrite <- Hs with (h := EvLstat p (w_lstat w h p) :: h); exact Hk].
      intro Hdir. rewrite Hl in Hnd. now apply (Hnd KDir).
    - constructor; [rewrite Hl in Hk; exact Hk|]. lia.
    - constructor; [|rewrite <- Hs with (h := EvLstat p (w_lstat w h p) :: h); exact Hk].
      intro Hdir. rewrite Hl in Hnd. now apply (Hnd KDir).
    - constructor; [rewrite Hl in Hk; exact Hk|]. lia.
    - injection Ef as <-. rewrite Hop in Hopn.
      destruct (d_list dk p) as [names|] eqn:En; [|discriminate]. injection Hopn as <-.
      apply hdc_ok in Hch; [|intros; apply handle_not_none].
      destruct Hch as (mc & h3 & acc & h4 & order & h4' & new & shown & rest & h5 & Hmc & Hfl & _ & Hso & _ & _ & _ & HF & -> & ->).
      destruct (Hlim p (EvOpen p :: EvLstat p (Some KDir) :: h)) as [h6 E6]. rewrite E6 in Hmc. injection Hmc as <- <-.
      eapply yields_ok in Hfl; [|apply filterM_yields with (g := accepts st dk); intros; apply path_filter_yields].
      subst acc. cbn [dl_names] in *.
      apply tree_dir with (names := names); auto.
      + rewrite Hl in Hk. exact Hk.
      + lia.
      + exact (sorted_in_order _ _ _ _ _ _ _ Hcmp Hso).
      + clear -HF IH. induction HF as [|x y xs ys [hx [hx' Hx]] HF IHF]; constructor; eauto.
  Qed.

  (** Nothing fails on a readable disk. *)
  Lemma children_loop_yields (hc : path -> M (option entry)) (g : path -> entry) hl mc : forall it count acc,
    (forall c, In c it -> yields w (hc c) (Some (g c))) ->
    exists r, yields w (children_loop hc hl mc count acc it) r.
  Proof.
    induction it as [|c it IH]; intros count acc H; cbn [children_loop]; [eexists; apply yields_ret|].
    destruct (hl && _); [eexists; apply yields_ret|].
    destruct (IH (count + 1) (acc ++ [g c])) as [r Hr]; [intros; apply H; now right|].
    exists r. eapply yields_bind; [apply H; now left|]. exact Hr.
  Qed.

  Lemma below_child root p n : below root p -> below root (child p n).
  Proof.
    intros [ns ->]. exists (ns ++ [n]). unfold child. cbn [p_abs p_names]. now rewrite app_assoc.
  Qed.

  Lemma handle_returns root : readable st dk root ->
    forall fuel d p, 0 <= d -> (Z.to_nat (o_max_depth o - d) <= fuel)%nat -> reach st dk 0 root d p ->
    exists e, yields w (handle fuel o d p (path_filter o)) (Some e).
  Proof.
    intros Hr. destruct Hw as (Hl & Hs & Hop & Hc & Hcf). destruct Ho as (Hd & Hf & Hlim & Hcmp & Hmd).
    assert (Hfile : forall d p, reach st dk 0 root d p -> is_dirb dk p = false ->
               exists e, yields w (handle_file p) (Some e)).
    { intros d p Hb Hdir. destruct (Hr d p Hb) as (_ & Hattr).
      destruct Hattr as [k Hk']; [unfold is_dir; unfold is_dirb in Hdir; destruct (d_kind dk p) as [[]|]; congruence|].
      exists (EFile p k). intro h. unfold handle_file, bind, stat. rewrite Hs, Hk'. eexists; reflexivity. }
    assert (Hcut : forall d p, 0 <= d -> exists e, yields w (e <- new_max_depth_entry d; ret (Some (EDir p [e]))) (Some e)).
    { intros d p Hdd. exists (EDir p [EMaxDepth d]). unfold new_max_depth_entry.
      destruct (Z.ltb_spec d 0); [lia|]. eapply yields_bind; apply yields_ret. }
    induction fuel as [|fuel IH]; intros d p Hdd Hfuel Hb.
    - cbn [handle].
      destruct (is_dirb dk p) eqn:Edir.
      + destruct (Z.leb_spec (o_max_depth o) d); [|lia].
        destruct (Hcut d p Hdd) as [e He]. exists e. eapply yields_bind; [apply has_kind_yields|].
        rewrite is_dirb_kind, Edir. exact He.
      + destruct (Hfile d p Hb Edir) as [e He]. exists e. eapply yields_bind; [apply has_kind_yields|].
        rewrite is_dirb_kind, Edir. exact He.
    - cbn [handle].
      destruct (is_dirb dk p) eqn:Edir.
      + destruct (Z.leb_spec (o_max_depth o) d) as [Hle|Hlt].
        * destruct (Hcut d p Hdd) as [e He]. exists e. eapply yields_bind; [apply has_kind_yields|].
          rewrite is_dirb_kind, Edir. exact He.
        * assert (Hisd : is_dir dk p) by (unfold is_dir; unfold is_dirb in Edir; destruct (d_kind dk p) as [[]|]; congruence).
          assert (Hlt' : d < s_depth st) by (rewrite <- Hmd; exact Hlt).
          destruct (Hr d p Hb) as (Hlist & _). destruct (Hlist Hisd Hlt') as (names & En & Hfine).
          set (hc := fun c => handle fuel o (d + 1) c (path_filter o)).
          assert (Hall : forall c, In c (filter (accepts st dk) (map (child p) names)) -> exists e, yields w (hc c) (Some e)).
          { intros c Hin. apply filter_In in Hin. destruct Hin as [Hin Hacc]. apply in_map_iff in Hin. destruct Hin as (n & <- & Hn).
            apply IH; [lia|lia|eapply reach_child; eauto]. }
          set (order := psort (s_cmp st) (filter (accepts st dk) (map (child p) names))).
          assert (Hord : forall c, In c order -> In c (filter (accepts st dk) (map (child p) names))).
          { intros c Hin. exact (Permutation_in c (Permutation_sym (tim_sort_perm _ _)) Hin). }
          assert (Hg : exists g, forall c, In c order -> yields w (hc c) (Some (g c))).
          { assert (Hpt : forall c, In c order -> exists e, yields w (hc c) (Some e)) by (intros; apply Hall; auto).
            exists (fun c => match fst (hc c w []) with Ok (Some e) => e | _ => EMaxDepth 0 end).
            intros c Hin. destruct (Hpt c Hin) as [e He]. destruct (He []) as [h0 E0].
            rewrite E0. exact He. }
          destruct Hg as [g Hg].
          destruct (children_loop_yields hc g (0 <=? s_limit st p) (s_limit st p) order 0 [] Hg) as [[es rest] Hcl].
          exists (EDir p (es ++ match rest with [] => [] | _ :: _ => [ESkipped p] end)).
          eapply yields_bind; [apply has_kind_yields|]. rewrite is_dirb_kind, Edir.
          eapply yields_bind with (a := Some (mkDirlist names false)).
          { intro h. unfold open_dir. rewrite Hop, En. eexists; reflexivity. }
          eapply yields_bind; [|apply yields_ret].
          assert (Hbody : yields w (handle_directory_children o hc p (mkDirlist names false) (path_filter o))
                            (es ++ match rest with [] => [] | _ :: _ => [ESkipped p] end)).
          { unfold handle_directory_children. eapply yields_bind; [intro h; apply Hlim|].
            eapply yields_bind.
            { unfold stream_paths. eapply yields_bind; [apply filterM_yields with (g := accepts st dk); intros; apply path_filter_yields|].
              cbn [dl_fail dl_names]. apply yields_ret. }
            eapply yields_bind with (a := order).
            { intro h. destruct (sorted_answers w (o_comparator o) (s_cmp st) (filter (accepts st dk) (map (child p) names)) h Hcmp) as [h' E'].
              rewrite (sort_fine _ _ Hfine) in E'. exists h'. exact E'. }
            eapply yields_bind; [exact Hcl|]. apply yields_ret. }
          intro h. unfold with_close. destruct (Hbody h) as [h1 E1]. rewrite E1. unfold close_dir. rewrite Hc.
          eexists; reflexivity.
      + destruct (Hfile d p Hb Edir) as [e He]. exists e. eapply yields_bind; [apply has_kind_yields|].
        rewrite is_dirb_kind, Edir. exact He.
  Qed.
End Steady.

Lemma static_steady fs j : steady (static_world fs j) (static_disk fs j).
Proof.
  repeat split. intros h p. cbn. destruct (fs_lookup fs (jv_cwd j) p) as [[]|]; reflexivity.
Qed.
