(** * Proofs about compaction, line extensions, emojis and line counts *)

From Coq Require Import Permutation.
From Verif Require Import Printer SpecRender RenderFacts LayoutFacts.

(** ** Compaction *)

Lemma chain_paths v e ds es : chain_of v e ds es -> entry_paths e = ds ++ flat_map entry_paths es.
Proof.
  induction 1 as [d es Hn|d c ds es Hm Hc IH]; [reflexivity|].
  cbn [entry_paths flat_map]. rewrite app_nil_r, IH. reflexivity.
Qed.

Lemma chain_smaller v e ds es : chain_of v e ds es -> forall x, In x es -> inside e x.
Proof.
  induction 1 as [d es Hn|d c ds es Hm Hc IH]; intros x Hx.
  - now apply inside_child.
  - eapply inside_deeper; [now left|]. auto.
Qed.

(** Induction over what lies inside. *)
Lemma entry_inside_ind (P : entry -> Prop) :
  (forall e, (forall x, inside e x -> P x) -> P e) -> forall e, P e.
Proof.
  intros H e. cut (P e /\ forall x, inside e x -> P x); [tauto|].
  induction e as [d es IH|f k|d|n] using entry_ind'.
  - rewrite Forall_forall in IH.
    assert (Hx : forall x, inside (EDir d es) x -> P x).
    { intros x Hx. inversion Hx as [? ? ? Hin|? ? y ? Hin Hy]; subst; [now apply IH|].
      destruct (IH y Hin) as [_ IHy]. auto. }
    split; auto.
  - assert (Hx : forall x, inside (EFile f k) x -> P x) by (intros x Hx; inversion Hx). split; auto.
  - assert (Hx : forall x, inside (ESkipped d) x -> P x) by (intros x Hx; inversion Hx). split; auto.
  - assert (Hx : forall x, inside (EMaxDepth n) x -> P x) by (intros x Hx; inversion Hx). split; auto.
Qed.

Lemma shows_paths v e : forall top s, shows v top e s -> shown_paths s = entry_paths e.
Proof.
  induction e as [e IH] using entry_inside_ind. intros top s H.
  assert (Hmap : forall es ks, (forall x, In x es -> inside e x) -> Forall2 (shows v false) es ks ->
                 flat_map shown_paths ks = flat_map entry_paths es).
  { intros es ks Hes HF. induction HF as [|x k es ks Hxk HF IHF]; [reflexivity|].
    cbn [flat_map]. rewrite IHF by (intros; apply Hes; now right).
    rewrite (IH x (Hes x (or_introl eq_refl)) false k Hxk). reflexivity. }
  inversion H as [| | |t d es ks Ht HF|e' ds es ks Hc Hch HF]; subst; try reflexivity.
  - cbn [shown_paths entry_paths app]. rewrite Hmap with (es := es); auto. intros; now apply inside_child.
  - cbn [shown_paths]. rewrite Hmap with (es := es); auto.
    + symmetry. eapply chain_paths; eauto.
    + intros; eapply chain_smaller; eauto.
Qed.

Lemma shows_root_chain v e s : shows v true e s -> forall chain kids, s = SDir chain kids -> exists d es, e = EDir d es /\ chain = [d].
Proof. intros H chain kids ->. inversion H; subst. eauto. Qed.

(** The pairs of directories merged on the lines of [s]. *)
Lemma line_of_inside_merged v e : forall top s, shows v top e s -> forall d c,
  merged_on s d c ->
  v_ext v d = None /\ v_compact v = true /\
  exists ces, inside e (EDir d [EDir c ces]) \/ (top = false /\ e = EDir d [EDir c ces]).
Proof.
  induction e as [e IH] using entry_inside_ind. intros top s H d c (chain & kids & Hl & Ha).
  assert (Hkids : forall es ks k, (forall x, In x es -> inside e x) -> Forall2 (shows v false) es ks ->
            In k ks -> line_of k (SDir chain kids) ->
            v_ext v d = None /\ v_compact v = true /\ exists ces, inside e (EDir d [EDir c ces])).
  { intros es ks k Hes HF Hin Hk.
    assert (exists x, In x es /\ shows v false x k) as (x & Hx & Hs).
    { clear -HF Hin. induction HF as [|x y es ks Hxy HF IHF]; [destruct Hin|].
      destruct Hin as [->|Hin]; [exists x; split; [now left|exact Hxy]|].
      destruct (IHF Hin) as (x' & Hx' & Hs). exists x'. split; [now right|exact Hs]. }
    destruct (IH x (Hes x Hx) false k Hs d c) as (H1 & H2 & ces & Hce); [exists chain, kids; auto|].
    split; [exact H1|]. split; [exact H2|]. exists ces.
    assert (Htrans : forall a b z, inside a b -> inside b z -> inside a z).
    { clear. intros a b z Hab. induction Hab as [da esa xa Hin|da esa ya xa Hin Hy IHy]; intro Hbz.
      - eapply inside_deeper; eauto.
      - eapply inside_deeper; eauto. }
    destruct Hce as [Hce|[_ ->]]; [eapply Htrans; [apply Hes; exact Hx|exact Hce]|now apply Hes]. }
  inversion H as [| | |t d0 es ks Ht HF|e' ds es ks Hc Hch HF]; subst; try (inversion Hl; fail).
  - inversion Hl as [|? ? k ? Hin Hk]; subst.
    + exfalso. destruct Ha as (l1 & l2 & E). destruct l1 as [|? [|? ?]]; discriminate.
    + edestruct Hkids as (H1 & H2 & ces & H3); try eassumption; [intros; now apply inside_child|].
      eauto.
  - inversion Hl as [|? ? k ? Hin Hk]; subst.
    + clear -Hc Hch Ha. induction Hch as [d0 es Hn|d0 c0 ds es Hm Hch IHc].
      * exfalso. destruct Ha as (l1 & l2 & E). destruct l1 as [|? [|? ?]]; discriminate.
      * destruct Hm as (Hx & c1 & E & Hd). injection E as <-. destruct c0 as [cd ces| | |]; try contradiction.
        apply adjacent_cons in Ha. destruct Ha as [[-> [r Er]]|Ha].
        -- split; [exact Hx|]. split; [exact Hc|]. apply chain_of_head in Hch.
           destruct Hch as (d' & es' & E & r' & ->). injection E as <- <-. injection Er as -> _.
           exists ces. right. auto.
        -- destruct (IHc Ha) as (H1 & H2 & ces' & H3). split; [exact H1|]. split; [exact H2|].
           exists ces'. left. destruct H3 as [H3|[_ ->]]; [eapply inside_deeper; eauto; now left|].
           apply inside_child. now left.
    + edestruct Hkids as (H1 & H2 & ces & H3); try eassumption.
      * intros; eapply chain_smaller; eauto.
      * eauto.
Qed.

(** Conversely. *)
Lemma Forall2_in_l {A B} (R : A -> B -> Prop) l l' x : Forall2 R l l' -> In x l -> exists y, In y l' /\ R x y.
Proof.
  induction 1 as [|a b l l' Hab HF IH]; intros Hin; [destruct Hin|].
  destruct Hin as [->|Hin]; [exists b; split; [now left|exact Hab]|].
  destruct (IH Hin) as (y & Hy & HR). exists y. split; [now right|exact HR].
Qed.

Lemma merged_below s chain kids k d c : s = SDir chain kids -> In k kids -> merged_on k d c -> merged_on s d c.
Proof.
  intros -> Hin (ch & ks & Hl & Ha). exists ch, ks. split; [|exact Ha]. eapply line_below; eauto.
Qed.

Lemma inside_merged v e : v_compact v = true -> forall top s, shows v top e s -> forall d c ces,
  v_ext v d = None ->
  inside e (EDir d [EDir c ces]) \/ (top = false /\ e = EDir d [EDir c ces]) ->
  merged_on s d c.
Proof.
  intro Hcomp. induction e as [e IH] using entry_inside_ind. intros top s H d c ces Hext Hin.
  inversion H as [t f k|t d0|t n|t d0 es ks Ht HF|e' ds es ks Hc Hch HF]; subst;
    try (destruct Hin as [Hin|[_ Hin]]; [inversion Hin|discriminate]).
  - destruct Ht as [->|Hf]; [|congruence].
    destruct Hin as [Hin|[Hf _]]; [|discriminate].
    inversion Hin as [? ? ? Hx|? ? y ? Hy Hyx]; subst.
    + destruct (Forall2_in_l _ _ _ _ HF Hx) as (k & Hk & Hs).
      eapply merged_below; [reflexivity|exact Hk|]. eapply (IH _ (inside_child _ _ _ Hx) false k Hs); eauto.
    + destruct (Forall2_in_l _ _ _ _ HF Hy) as (k & Hk & Hs).
      eapply merged_below; [reflexivity|exact Hk|]. eapply (IH _ (inside_child _ _ _ Hy) false k Hs); eauto.
  - (* a chain: either the pair is adjacent in the chain, or it lies in its entries *)
    assert (Hcase : adjacent ds d c \/ exists x, In x es /\ (x = EDir d [EDir c ces] \/ inside x (EDir d [EDir c ces]))).
    { assert (Hin' : inside e (EDir d [EDir c ces]) \/ e = EDir d [EDir c ces]) by tauto.
      clear -Hin' Hch Hext. induction Hch as [d0 es Hn|d0 c0 ds es Hm Hch IHc].
      - destruct Hin' as [Hin|E].
        + right. inversion Hin as [? ? ? Hx|? ? y ? Hy Hyx]; subst; eauto.
        + exfalso. injection E as -> ->. apply Hn. split; [exact Hext|]. exists (EDir c ces). split; [reflexivity|exact I].
      - destruct Hin' as [Hin|E].
        + assert (Hc0 : inside c0 (EDir d [EDir c ces]) \/ c0 = EDir d [EDir c ces]).
          { inversion Hin as [? ? ? Hx|? ? y ? Hy Hyx]; subst.
            - destruct Hx as [->|[]]. auto.
            - destruct Hy as [->|[]]. auto. }
          destruct (IHc Hc0) as [(l1 & l2 & ->)|Hr]; [left; exists (d0 :: l1), l2; reflexivity|right; exact Hr].
        + left. injection E as -> ->. apply chain_of_head in Hch. destruct Hch as (d' & es' & E & r & ->).
          injection E as <- <-. exists [], r. reflexivity. }
    destruct Hcase as [Ha|(x & Hx & Hxx)].
    + exists ds, ks. split; [apply line_self|exact Ha].
    + destruct (Forall2_in_l _ _ _ _ HF Hx) as (k & Hk & Hs).
      eapply merged_below; [reflexivity|exact Hk|]. eapply IH; [eapply chain_smaller; eauto|exact Hs|exact Hext|].
      destruct Hxx as [->|Hxx]; auto.
Qed.

(** ** Line count *)

Lemma rows_below_length ks : length (rows_below ks) = list_sum (map (fun k => length (rows k)) ks).
Proof.
  induction ks as [|k ks IH]; [reflexivity|]. destruct ks as [|k' ks].
  - rewrite rows_below_one, map_length. simpl. lia.
  - rewrite rows_below_cons, app_length, map_length, IH. reflexivity.
Qed.

Lemma shows_plain_count v e : v_compact v = false -> forall top s, shows v top e s ->
  length (rows (labelled v s)) = entry_count e.
Proof.
  intro Hc. induction e as [d es IH|f k|d|n] using entry_ind'; intros top s H; inversion H; subst; try reflexivity; try congruence.
  cbn [labelled]. rewrite rows_eq. cbn [length entry_count]. f_equal. rewrite rows_below_length, map_map. f_equal.
  match goal with HF : Forall2 _ _ _ |- _ => revert IH; induction HF as [|x k es ks Hxk HF IHF]; intro IH end; [reflexivity|].
  inversion IH as [|a b Hx Hl]; subst. cbn [map]. f_equal; [eapply Hx; eauto|].
  apply IHF; auto. econstructor; eauto.
Qed.

Lemma text_line_count tf t : distinguishable tf -> labels_on_one_line t ->
  length (split_on c_nl (text tf t)) = length (rows t).
Proof.
  intros Hd Ht. unfold text. rewrite split_on_join; [apply map_length| |].
  - pose proof (rows_nonempty t). destruct (rows t); simpl; congruence.
  - apply Forall_map, Forall_forall. intros r Hr. unfold row_text. rewrite in_app_iff.
    intros [Hi|Hi]; [revert Hi; now apply row_prefix_nl_free|revert Hi; now apply Ht].
Qed.

(** ** Emojis *)

Lemma add_emoji_under em p b r : add_emoji em p (under b r) = under b (add_emoji em p r).
Proof. destruct p as [p|]; [|reflexivity]. simpl. destruct (em p); reflexivity. Qed.

Definition zip_emoji em (ps : list (option path)) (rs : list row) : list row :=
  map (fun pr => add_emoji em (fst pr) (snd pr)) (combine ps rs).

Lemma zip_emoji_app em p1 r1 p2 r2 : length p1 = length r1 ->
  zip_emoji em (p1 ++ p2) (r1 ++ r2) = zip_emoji em p1 r1 ++ zip_emoji em p2 r2.
Proof.
  revert r1. induction p1 as [|p p1 IH]; intros [|r r1] H; try discriminate; [reflexivity|].
  unfold zip_emoji in *. cbn [app combine map]. f_equal. apply IH. now injection H.
Qed.

Lemma zip_emoji_under em b ps rs : zip_emoji em ps (map (under b) rs) = map (under b) (zip_emoji em ps rs).
Proof.
  revert rs. induction ps as [|p ps IH]; intros [|r rs]; try reflexivity.
  unfold zip_emoji in *. cbn [map combine fst snd]. rewrite add_emoji_under. f_equal. apply IH.
Qed.

Lemma labelled_rows_length v s : length (rows (labelled v s)) = length (line_paths s).
Proof.
  induction s as [c ks IH|f k|] using shown_ind'; try reflexivity.
  cbn [labelled line_paths]. rewrite rows_eq. cbn [length]. f_equal.
  rewrite rows_below_length, map_map. induction IH as [|k ks Hk Hks IHks]; [reflexivity|].
  cbn [map flat_map]. rewrite app_length, <- Hk, <- IHks. reflexivity.
Qed.

Lemma labelled_emoji v s :
  rows (labelled v s) = zip_emoji (v_emoji v) (line_paths s) (rows (labelled (no_emoji v) s)).
Proof.
  induction s as [c ks IH|f k|] using shown_ind'.
  - cbn [labelled line_paths]. rewrite !rows_eq. unfold zip_emoji at 1. cbn [combine map fst snd]. f_equal.
    + unfold add_emoji, emoji_str. cbn [no_emoji v_emoji v_ext fst snd app].
      destruct (v_emoji v (last c (mkPath true []))); [|reflexivity]. now rewrite <- app_assoc.
    + fold (zip_emoji (v_emoji v) (flat_map line_paths ks) (rows_below (map (labelled (no_emoji v)) ks))).
      induction IH as [|k ks Hk Hks IHks]; [reflexivity|].
      destruct ks as [|k' ks].
      * cbn [map flat_map]. rewrite !rows_below_one, app_nil_r, Hk. now rewrite zip_emoji_under.
      * cbn [map flat_map]. rewrite !rows_below_cons. cbn [map flat_map] in IHks. rewrite IHks, Hk.
        rewrite zip_emoji_app, zip_emoji_under; [reflexivity|].
        rewrite map_length. symmetry. apply labelled_rows_length.
  - cbn. unfold zip_emoji, add_emoji, emoji_str. cbn. destruct (v_emoji v f); [|reflexivity].
    unfold under; cbn. now rewrite <- app_assoc.
  - reflexivity.
Qed.

(** ** Extensions only end labels *)

Lemma add_ext_under em p b r : add_ext em p (under b r) = under b (add_ext em p r).
Proof. destruct p as [p|]; [|reflexivity]. simpl. destruct (em p); reflexivity. Qed.

Definition zip_ext em (ps : list (option path)) (rs : list row) : list row :=
  map (fun pr => add_ext em (fst pr) (snd pr)) (combine ps rs).

Lemma zip_ext_app em p1 r1 p2 r2 : length p1 = length r1 ->
  zip_ext em (p1 ++ p2) (r1 ++ r2) = zip_ext em p1 r1 ++ zip_ext em p2 r2.
Proof.
  revert r1. induction p1 as [|p p1 IH]; intros [|r r1] H; try discriminate; [reflexivity|].
  unfold zip_ext in *. cbn [app combine map]. f_equal. apply IH. now injection H.
Qed.

Lemma zip_ext_under em b ps rs : zip_ext em ps (map (under b) rs) = map (under b) (zip_ext em ps rs).
Proof.
  revert rs. induction ps as [|p ps IH]; intros [|r rs]; try reflexivity.
  unfold zip_ext in *. cbn [map combine fst snd]. rewrite add_ext_under. f_equal. apply IH.
Qed.

Lemma labelled_ext v s :
  rows (labelled v s) = zip_ext (v_ext v) (line_paths s) (rows (labelled (no_ext v) s)).
Proof.
  induction s as [c ks IH|f k|] using shown_ind'.
  - cbn [labelled line_paths]. rewrite !rows_eq. unfold zip_ext at 1. cbn [combine map fst snd]. f_equal.
    + unfold add_ext, emoji_str, opt_str. cbn [no_ext v_emoji v_ext fst snd app].
      destruct (v_ext v (last c (mkPath true []))); [|reflexivity]. now rewrite <- !app_assoc.
    + fold (zip_ext (v_ext v) (flat_map line_paths ks) (rows_below (map (labelled (no_ext v)) ks))).
      induction IH as [|k ks Hk Hks IHks]; [reflexivity|].
      destruct ks as [|k' ks].
      * cbn [map flat_map]. rewrite !rows_below_one, app_nil_r, Hk. now rewrite zip_ext_under.
      * cbn [map flat_map]. rewrite !rows_below_cons. cbn [map flat_map] in IHks. rewrite IHks, Hk.
        rewrite zip_ext_app, zip_ext_under; [reflexivity|].
        rewrite map_length. symmetry. apply labelled_rows_length.
  - cbn [labelled line_paths]. rewrite !rows_eq. unfold zip_ext, add_ext, emoji_str, opt_str. cbn [map combine fst snd no_ext v_ext v_emoji].
    destruct (v_ext v f); [|reflexivity]. f_equal. now rewrite <- !app_assoc.
  - reflexivity.
Qed.
