(** * Reading globs in general *)

From Verif Require Import SpecGlob PathFacts RenderFacts LayoutFacts MatcherFacts PointFacts GlobFacts GlobMatchFacts.
From Coq Require Import Lia.
Close Scope Z_scope.

Definition same_item (i j : gitem) : Prop := forall s, in_item i s <-> in_item j s.

Lemma same_items l l' : Forall2 same_item l l' -> forall s, in_items l s <-> in_items l' s.
Proof.
  induction 1 as [|i j l l' Hi Hl IH]; intro s; [tauto|]. split; intro H; inversion H as [|? ? a b Ha Hb]; subst; constructor;
    try (now apply Hi); now apply IH.
Qed.

Lemma same_refl i : same_item i i.
Proof. intro s. tauto. Qed.

Lemma same_alt alts alts' : Forall2 (Forall2 same_item) alts alts' -> same_item (GAlt alts) (GAlt alts').
Proof.
  intros H s. split; intro Hs; inversion Hs as [| | | | | |? l ? Hl Hin]; subst.
  - induction H as [|x y xs ys Hx Hxs IH]; [destruct Hl|]. destruct Hl as [->|Hl].
    + apply (ii_alt (y :: ys) y); [now left|]. now apply (same_items _ _ Hx).
    + specialize (IH (ii_alt xs l s Hl Hin) Hl). inversion IH as [| | | | | |? l' ? Hl' Hin']; subst. apply (ii_alt (y :: ys) l'); [now right|exact Hin'].
  - induction H as [|x y xs ys Hx Hxs IH]; [destruct Hl|]. destruct Hl as [->|Hl].
    + apply (ii_alt (x :: xs) x); [now left|]. now apply (same_items _ _ Hx).
    + specialize (IH (ii_alt ys l s Hl Hin) Hl). inversion IH as [| | | | | |? l' ? Hl' Hin']; subst. apply (ii_alt (x :: xs) l'); [now right|exact Hin'].
Qed.

Lemma same_class neg r r' : (forall c, in_ranges r c = in_ranges r' c) -> same_item (GClass neg r) (GClass neg r').
Proof.
  assert (A : forall q q', (forall c, in_ranges q c = in_ranges q' c) -> forall s, in_item (GClass neg q) s -> in_item (GClass neg q') s).
  { intros q q' H s Hs. inversion Hs as [| | | |? c a b Hc Hin Hab|? c Hc Hout|]; subst.
    - assert (E : in_ranges q' c = true) by (rewrite <- H; apply in_ranges_spec; eauto). apply in_ranges_spec in E. destruct E as (a' & b' & E1 & E2).
      econstructor; eauto.
    - constructor; [exact Hc|]. intros a b Hin Hab. assert (E : in_ranges q c = true) by (rewrite H; apply in_ranges_spec; eauto).
      apply in_ranges_spec in E. destruct E as (a' & b' & E1 & E2). exact (Hout a' b' E1 E2). }
  intros H s. split; apply A; [exact H|]. intro c. now rewrite H.
Qed.

(** ** Classes *)
Lemma class_step c s st acc : class_char c -> parse_class (c :: s) st acc = let (st', acc') := class_unit c st acc in parse_class s st' acc'.
Proof.
  intro H. unfold class_char in H. destruct c as [|p]; [reflexivity|].
  do 7 (try (destruct p as [p|p|]; try reflexivity)); exfalso; apply H; cbn; tauto.
Qed.

Lemma class_range a b s acc : class_char b -> (a <= b)%N -> parse_class (45%N :: b :: s) (From a) acc = parse_class s (After b) ((a, b) :: acc).
Proof.
  intros H Hab. unfold class_char in H.
  assert (E : (b <? a)%N = false) by (apply N.ltb_ge; exact Hab).
  transitivity (if (b <? a)%N then None else parse_class s (After b) ((a, b) :: acc)); [|now rewrite E]. clear E Hab.
  destruct b as [|p]; [reflexivity|]. do 7 (try (destruct p as [p|p|]; try reflexivity)); exfalso; apply H; cbn; tauto.
Qed.

Lemma class_new c st acc : ~ low_half c -> class_unit c st acc = (From c, (c, c) :: acc).
Proof.
  intro H. apply is_low_false in H. unfold class_unit. destruct st, acc as [|[? ?] ?]; try reflexivity; now rewrite H, andb_false_r.
Qed.

Lemma far_class c : (128 <= c)%N -> class_char c.
Proof. intros H Hin. cbn in Hin. intuition (subst; lia). Qed.

Lemma pairs_far h d : pairs h d = true -> (128 <= h)%N /\ (128 <= d)%N /\ ~ low_half h.
Proof. intro H. apply pairs_iff in H as [H1 H2]. unfold high_half, low_half in *. lia. Qed.

Lemma class_one c u s st acc : character c u -> class_char c -> exists st', parse_class (u ++ s) st acc = parse_class s st' ((c, c) :: acc).
Proof.
  intros H Hc. apply character_cases in H as [[-> H]|(h & d & -> & E & -> & _)].
  - exists (From c). cbn [app]. rewrite (class_step c _ _ _ Hc), class_new by apply H. reflexivity.
  - exists FromPair. destruct (pairs_far _ _ E) as (F1 & F2 & F3). cbn [app]. rewrite (class_step h _ _ _ (far_class _ F1)), (class_new h _ _ F3).
    rewrite (class_step d _ _ _ (far_class _ F2)). cbn [class_unit]. unfold pairs in E. now rewrite E.
Qed.

Lemma class_until a b u s acc : character b u -> class_char b -> (a <= b)%N -> (b < 65536 \/ a < 55296)%N ->
  exists st', parse_class (45%N :: u ++ s) (From a) acc = parse_class s st' ((a, b) :: acc).
Proof.
  intros H Hb Hab Hs. apply character_cases in H as [[-> H]|(h & d & -> & E & -> & B)].
  - exists (After b). cbn [app]. now apply class_range.
  - exists (AfterPair d). destruct (pairs_far _ _ E) as (F1 & F2 & F3). cbn [app]. rewrite (class_range a h _ _ (far_class _ F1)).
    + rewrite (class_step d _ _ _ (far_class _ F2)). cbn [class_unit]. unfold pairs in E. now rewrite E.
    + apply pairs_iff in E as [E _]. unfold high_half in E. lia.
Qed.

Lemma in_ranges_app r r' c : in_ranges (r ++ r') c = in_ranges r c || in_ranges r' c.
Proof. apply existsb_app. Qed.

Lemma read_class r t : class_text r t -> forall s st acc, exists r', parse_class (t ++ 93%N :: s) st acc = Some (rev acc ++ r', s) /\
  (forall c, in_ranges r' c = in_ranges r c) /\ (r <> [] -> r' <> []).
Proof.
  induction 1 as [|c u r t Hu Hc Ht IH|a b u r t Hua Ha Hu Hb Hab Hs Ht IH]; intros s st acc.
  - exists []. rewrite app_nil_r. repeat split; auto.
  - rewrite <- app_assoc. destruct (class_one c u (t ++ 93%N :: s) st acc Hu Hc) as (st' & ->). destruct (IH s st' ((c, c) :: acc)) as (r' & -> & H1 & _).
    exists ((c, c) :: r'). cbn [rev]. rewrite <- app_assoc. split; [reflexivity|]. split; [|discriminate]. intro x. unfold in_ranges in *. cbn [existsb]. now rewrite H1.
  - assert (Wa : ~ low_half a) by (apply character_cases in Hua as [[_ W]|(? & ? & E & _)]; [apply W|discriminate]).
    cbn [app]. rewrite <- app_assoc, (class_step a _ _ _ Ha), (class_new a _ _ Wa).
    destruct (class_until a b u (t ++ 93%N :: s) ((a, a) :: acc) Hu Hb Hab Hs) as (st' & ->).
    destruct (IH s st' ((a, b) :: (a, a) :: acc)) as (r' & -> & H1 & _).
    exists ((a, a) :: (a, b) :: r'). cbn [rev]. rewrite <- !app_assoc. split; [reflexivity|]. split; [|discriminate]. intro x.
    unfold in_ranges in *. cbn [existsb fst snd]. rewrite H1. destruct (N.leb_spec a x), (N.leb_spec x a), (N.leb_spec x b); cbn; try reflexivity; lia.
Qed.

Lemma class_first r t : r <> [] -> class_text r t -> exists c t', t = c :: t' /\ class_char c.
Proof.
  intros Hr H. inversion H as [|? u ? ? Hu Hc|]; subst; [now contradict Hr| |eauto].
  apply character_cases in Hu as [[-> _]|(h & d & -> & E & _)]; cbn [app]; [eauto|]. eexists _, _. split; [reflexivity|]. apply far_class. apply (pairs_far _ _ E).
Qed.

Lemma read_bracket neg r t s : r <> [] -> class_text r t -> exists r',
  parse_bracket ((if neg : bool then [33%N] else []) ++ t ++ 93%N :: s) = Some (GClass neg r', s) /\ same_item (GClass neg r') (GClass neg r).
Proof.
  intros Hr Ht. destruct (read_class r t Ht s NoStart []) as (r' & E & H1 & H2). specialize (H2 Hr). cbn [rev app] in E.
  destruct (class_first r t Hr Ht) as (c & t' & -> & Hc). cbn [app] in E. exists r'. split; [|now apply same_class].
  assert (Eb : forall n, match c :: t' ++ 93%N :: s with
    | 45%N :: s' => match parse_class s' NoStart [(45, 45)%N] with Some (ranges, s') => match ranges with [] => None | _ => Some (GClass n ranges, s') end | None => None end
    | _ => match parse_class (c :: t' ++ 93%N :: s) NoStart [] with Some (ranges, s') => match ranges with [] => None | _ => Some (GClass n ranges, s') end | None => None end
    end = Some (GClass n r', s)).
  { intro n. assert (Hm : match parse_class (c :: t' ++ 93%N :: s) NoStart [] with Some (ranges, s') => match ranges with [] => None | _ => Some (GClass n ranges, s') end | None => None end = Some (GClass n r', s)).
    { rewrite E. destruct r'; [now contradict H2|reflexivity]. }
    clear E. unfold class_char in Hc. destruct c as [|p]; [exact Hm|].
    do 6 (try (destruct p as [p|p|]; try exact Hm)). exfalso. apply Hc. cbn. tauto. }
  destruct neg; [exact (Eb true)|]. cbn [app].
  transitivity (match c :: t' ++ 93%N :: s with
    | 45%N :: s' => match parse_class s' NoStart [(45, 45)%N] with Some (ranges, s') => match ranges with [] => None | _ => Some (GClass false ranges, s') end | None => None end
    | _ => match parse_class (c :: t' ++ 93%N :: s) NoStart [] with Some (ranges, s') => match ranges with [] => None | _ => Some (GClass false ranges, s') end | None => None end
    end); [|apply Eb]. clear Eb E. unfold class_char in Hc. destruct c as [|p]; [reflexivity|].
  do 7 (try (destruct p as [p|p|]; try reflexivity)); exfalso; apply Hc; cbn; tauto.
Qed.

(** ** Items *)
Definition add_items (l : list gitem) (p : partial) : partial := fold_left (fun p i => add_item i p) l p.

Lemma read_char c f s p : ~ glob_special c -> (pa_group p <> None -> c <> 44%N /\ c <> 125%N) ->
  parse_glob (S f) (c :: s) p = parse_glob f s (add_item (GLit c) p).
Proof.
  intros H Hg. destruct p as [items [alts|]].
  - destruct (Hg ltac:(discriminate)) as [H1 H2]. unfold glob_special in H. destruct c as [|p]; [reflexivity|].
    do 7 (try (destruct p as [p|p|]; try reflexivity)); exfalso; first [now apply H1|now apply H2|apply H; cbn; tauto].
  - now apply read_plain.
Qed.

Lemma read_name f s p : hd_error s <> Some 42%N -> parse_glob (S f) (42%N :: s) p = parse_glob f s (add_item GName p).
Proof.
  destruct s as [|c s]; [reflexivity|]. intro H. destruct (N.eq_dec c 42) as [->|Hc]; [now contradict H|].
  destruct c as [|q]; [reflexivity|]. do 6 (try (destruct q as [q|q|]; try reflexivity)). now contradict Hc.
Qed.

Lemma add_group i p : pa_group (add_item i p) = None <-> pa_group p = None.
Proof. destruct p as [items [[|cur alts]|]]; cbn; split; congruence. Qed.

(** [reads_plain l' l]: the items [l'] of code units are the items [l]. *)
Inductive reads_plain : list gitem -> list gitem -> Prop :=
| rp_end : reads_plain [] []
| rp_unit c l' l : whole_unit c -> reads_plain l' l -> reads_plain (GLit c :: l') (GLit c :: l)
| rp_pair h d l' l : pairs h d = true -> reads_plain l' l -> reads_plain (GLit h :: GLit d :: l') (GLit (to_code_point h d) :: l)
| rp_item i j l' l : match i with GLit _ | GAlt _ => False | _ => True end -> same_item i j -> reads_plain l' l -> reads_plain (i :: l') (j :: l).

Inductive reads : list gitem -> list gitem -> Prop :=
| rd_plain l' l : reads_plain l' l -> reads l' l
| rd_group l1' l1 alts' alts l2' l2 : reads_plain l1' l1 -> Forall2 reads_plain alts' alts -> reads l2' l2 -> reads (l1' ++ GAlt alts' :: l2') (l1 ++ GAlt alts :: l2).

Lemma plain_pairs l' l : reads_plain l' l -> Forall2 same_item (pair_lits l') l.
Proof.
  induction 1 as [|c l' l Hc H IH|h d l' l E H IH|i j l' l Hi Hs H IH]; [constructor| | |].
  - rewrite (pair_solid (GLit c) l' Hc). constructor; [apply same_refl|exact IH].
  - cbn [pair_lits]. unfold pairs in E. rewrite E. constructor; [apply same_refl|exact IH].
  - rewrite (pair_solid i) by (now destruct i). now constructor.
Qed.

Lemma plain_items l' l : reads_plain l' l -> map pair_item (pair_lits l') = pair_lits l'.
Proof.
  induction 1 as [|c l' l Hc H IH|h d l' l E H IH|i j l' l Hi Hs H IH]; [reflexivity| | |].
  - rewrite (pair_solid (GLit c) l' Hc). cbn [map pair_item]. now rewrite IH.
  - cbn [pair_lits]. unfold pairs in E. rewrite E. cbn [map pair_item]. now rewrite IH.
  - rewrite (pair_solid i) by (now destruct i). cbn [map]. rewrite IH. destruct i; try reflexivity. destruct Hi.
Qed.

Lemma plain_until l1' l1 : reads_plain l1' l1 -> forall alts r, pair_lits (l1' ++ GAlt alts :: r) = pair_lits l1' ++ GAlt alts :: pair_lits r.
Proof.
  induction 1 as [|c l' l Hc H IH|h d l' l E H IH|i j l' l Hi Hs H IH]; intros alts r; [reflexivity| | |].
  - cbn [app]. rewrite !(pair_solid (GLit c) _ Hc), IH. reflexivity.
  - cbn [app pair_lits]. unfold pairs in E. rewrite E, IH. reflexivity.
  - cbn [app]. rewrite !(pair_solid i) by (now destruct i). now rewrite IH.
Qed.

Lemma reads_pairs l' l : reads l' l -> Forall2 same_item (pair_items l') l.
Proof.
  unfold pair_items. induction 1 as [l' l H|l1' l1 alts' alts l2' l2 H1 Ha H2 IH].
  - rewrite (plain_items _ _ H). now apply plain_pairs.
  - rewrite (plain_until _ _ H1), map_app, (plain_items _ _ H1). cbn [map pair_item]. apply Forall2_app; [now apply plain_pairs|]. constructor; [|exact IH].
    apply same_alt. clear -Ha. induction Ha as [|x y xs ys Hx Hxs IH]; cbn [map]; constructor; [now apply plain_pairs|exact IH].
Qed.

Lemma far_plain c : (128 <= c)%N -> ~ glob_special c /\ c <> 44%N /\ c <> 125%N.
Proof. intro H. split; [intro Hin; cbn in Hin; intuition (subst; lia)|lia]. Qed.

Lemma read_part grp l g : spells_plain grp l g -> forall f t p, (pa_group p <> None -> grp = true) -> hd_error t <> Some 42%N ->
  length g + length t < f -> exists f' l', length t < f' /\ reads_plain l' l /\ parse_glob f (g ++ t) p = parse_glob f' t (add_items l' p).
Proof.
  induction 1 as [|c u l g Hu Hc Hgr Hl IH|c u l g Hu Hl IH|l g Hl IH|l g Hh Hl IH|l g Hl IH|neg r ct l g Hr Hct Hl IH]; intros f t p Hp Ht Hf.
  - exists f, []. split; [exact Hf|]. split; [constructor|reflexivity].
  - apply character_cases in Hu as [[-> Hu]|(h & d & -> & E & -> & _)]; cbn [app length] in Hf |- *.
    + destruct f as [|f]; [lia|]. rewrite (read_char c) by auto.
      destruct (IH f t (add_item (GLit c) p)) as (f' & l' & H1 & H2 & ->); [rewrite add_group; auto|exact Ht|lia|].
      exists f', (GLit c :: l'). split; [exact H1|]. split; [now constructor|reflexivity].
    + destruct (pairs_far _ _ E) as (F1 & F2 & _). destruct (far_plain _ F1) as [G1 G2]. destruct (far_plain _ F2) as [G3 G4].
      destruct f as [|[|f]]; [lia|lia|]. rewrite (read_char h) by auto. rewrite (read_char d) by auto.
      destruct (IH f t (add_item (GLit d) (add_item (GLit h) p))) as (f' & l' & H1 & H2 & ->); [rewrite !add_group; auto|exact Ht|lia|].
      exists f', (GLit h :: GLit d :: l'). split; [exact H1|]. split; [now constructor|reflexivity].
  - apply character_cases in Hu as [[-> Hu]|(h & d & -> & E & -> & _)]; cbn [app length] in Hf |- *; (destruct f as [|f]; [lia|]).
    + change (parse_glob (S f) (92%N :: c :: (g ++ t)) p) with (parse_glob f (g ++ t) (add_item (GLit c) p)).
      destruct (IH f t (add_item (GLit c) p)) as (f' & l' & H1 & H2 & ->); [rewrite add_group; auto|exact Ht|lia|].
      exists f', (GLit c :: l'). split; [exact H1|]. split; [now constructor|reflexivity].
    + destruct (pairs_far _ _ E) as (F1 & F2 & _). destruct (far_plain _ F2) as [G3 G4].
      change (parse_glob (S f) (92%N :: h :: d :: (g ++ t)) p) with (parse_glob f (d :: (g ++ t)) (add_item (GLit h) p)).
      destruct f as [|f]; [lia|]. rewrite (read_char d) by auto.
      destruct (IH f t (add_item (GLit d) (add_item (GLit h) p))) as (f' & l' & H1 & H2 & ->); [rewrite !add_group; auto|exact Ht|lia|].
      exists f', (GLit h :: GLit d :: l'). split; [exact H1|]. split; [now constructor|reflexivity].
  - cbn in Hf. destruct f as [|f]; [lia|]. cbn [app].
    change (parse_glob (S f) (63%N :: (g ++ t)) p) with (parse_glob f (g ++ t) (add_item GOne p)).
    destruct (IH f t (add_item GOne p)) as (f' & l' & H1 & H2 & ->); [rewrite add_group; auto|exact Ht|lia|].
    exists f', (GOne :: l'). split; [exact H1|]. split; [apply rp_item; [exact I|apply same_refl|exact H2]|reflexivity].
  - cbn in Hf. destruct f as [|f]; [lia|]. cbn [app]. rewrite read_name by (destruct g; [exact Ht|exact Hh]).
    destruct (IH f t (add_item GName p)) as (f' & l' & H1 & H2 & ->); [rewrite add_group; auto|exact Ht|lia|].
    exists f', (GName :: l'). split; [exact H1|]. split; [apply rp_item; [exact I|apply same_refl|exact H2]|reflexivity].
  - cbn in Hf. destruct f as [|f]; [lia|]. cbn [app].
    change (parse_glob (S f) (42%N :: 42%N :: (g ++ t)) p) with (parse_glob f (g ++ t) (add_item GAny p)).
    destruct (IH f t (add_item GAny p)) as (f' & l' & H1 & H2 & ->); [rewrite add_group; auto|exact Ht|lia|].
    exists f', (GAny :: l'). split; [exact H1|]. split; [apply rp_item; [exact I|apply same_refl|exact H2]|reflexivity].
  - cbn [length app] in Hf. rewrite !app_length in Hf. cbn [length] in Hf. destruct f as [|f]; [lia|].
    replace ((91%N :: (if neg then [33%N] else []) ++ ct ++ 93%N :: g) ++ t) with (91%N :: ((if neg then [33%N] else []) ++ ct ++ 93%N :: (g ++ t)))
      by (cbn [app]; now rewrite <- !app_assoc).
    destruct (read_bracket neg r ct (g ++ t) Hr Hct) as (r' & E & Hs).
    assert (Es : forall x, parse_glob (S f) (91%N :: x) p = match parse_bracket x with Some (i, s'') => parse_glob f s'' (add_item i p) | None => None end) by reflexivity.
    rewrite Es, E. destruct (IH f t (add_item (GClass neg r') p)) as (f' & l' & H1 & H2 & ->); [rewrite add_group; auto|exact Ht|lia|].
    exists f', (GClass neg r' :: l'). split; [exact H1|]. split; [apply rp_item; [exact I|exact Hs|exact H2]|reflexivity].
Qed.

Lemma add_items_open l : forall items, add_items l (mkPartial items None) = mkPartial (rev l ++ items) None.
Proof. induction l as [|i l IH]; intro items; [reflexivity|]. unfold add_items in *. cbn. rewrite IH, <- app_assoc. reflexivity. Qed.

Lemma add_items_group l : forall items cur alts, add_items l (mkPartial items (Some (cur :: alts))) = mkPartial items (Some ((rev l ++ cur) :: alts)).
Proof. induction l as [|i l IH]; intros items cur alts; [reflexivity|]. unfold add_items in *. cbn. rewrite IH, <- app_assoc. reflexivity. Qed.

Lemma read_alternatives alts gs : Forall2 (spells_plain true) alts gs -> gs <> [] -> forall f t items before,
  length (join [44%N] gs) + 1 + length t < f -> exists f' alts', length t < f' /\ Forall2 reads_plain alts' alts /\
    parse_glob f (join [44%N] gs ++ 125%N :: t) (mkPartial items (Some ([] :: before))) =
    parse_glob f' t (mkPartial (GAlt (rev (map (@rev gitem) before) ++ alts') :: items) None).
Proof.
  induction 1 as [|l g alts gs Hl Hs IH]; intros Hne f t items before Hf; [now contradict Hne|].
  destruct gs as [|g' gs].
  - cbn [join] in *. inversion Hs; subst.
    destruct (read_part true l g Hl f (125%N :: t) (mkPartial items (Some ([] :: before)))) as (f1 & l' & H1 & H2 & ->); [auto|discriminate|cbn; lia|].
    rewrite add_items_group, app_nil_r. cbn [length] in H1. destruct f1 as [|f1]; [lia|]. exists f1, [l']. split; [lia|]. split; [repeat constructor; exact H2|].
    change (parse_glob (S f1) (125%N :: t) (mkPartial items (Some (rev l' :: before))))
      with (parse_glob f1 t (mkPartial (GAlt (rev (map (@rev gitem) (rev l' :: before))) :: items) None)).
    cbn [map rev]. now rewrite rev_involutive.
  - rewrite join_cons in Hf |- * by discriminate. rewrite !app_length in Hf. cbn [length] in Hf. rewrite <- !app_assoc. cbn [app].
    destruct (read_part true l g Hl f (44%N :: join [44%N] (g' :: gs) ++ 125%N :: t) (mkPartial items (Some ([] :: before)))) as (f1 & l' & H1 & H2 & ->);
      [auto|discriminate|cbn [length]; rewrite app_length; cbn [length]; lia|].
    rewrite add_items_group, app_nil_r. cbn [length] in H1. rewrite app_length in H1. cbn [length] in H1. destruct f1 as [|f1]; [lia|].
    change (parse_glob (S f1) (44%N :: join [44%N] (g' :: gs) ++ 125%N :: t) (mkPartial items (Some (rev l' :: before))))
      with (parse_glob f1 (join [44%N] (g' :: gs) ++ 125%N :: t) (mkPartial items (Some ([] :: rev l' :: before)))).
    destruct (IH ltac:(discriminate) f1 t items (rev l' :: before) ltac:(lia)) as (f2 & alts' & H3 & H4 & ->).
    exists f2, (l' :: alts'). split; [exact H3|]. split; [constructor; assumption|]. cbn [map rev]. rewrite rev_involutive, <- app_assoc. reflexivity.
Qed.

Lemma read_spelled l g : spells l g -> forall f items, length g < f -> exists l', reads l' l /\
  parse_glob f g (mkPartial items None) = Some (rev items ++ l').
Proof.
  induction 1 as [l g Hl|l1 g1 alts gs l2 g2 H1 Hne Hs H2 IH]; intros f items Hf.
  - destruct (read_part false l g Hl f [] (mkPartial items None)) as (f' & l' & Hf' & Hs & E); [now intros []|discriminate|cbn; lia|].
    rewrite app_nil_r in E. exists l'. split; [now apply rd_plain|]. rewrite E, add_items_open. destruct f' as [|f']; [cbn in Hf'; lia|].
    rewrite read_end, rev_app_distr, rev_involutive. reflexivity.
  - rewrite !app_length in Hf. cbn [length] in Hf. cbn [app].
    destruct (read_part false l1 g1 H1 f (123%N :: join [44%N] gs ++ 125%N :: g2) (mkPartial items None)) as (f1 & l1' & Hf1 & Hl1 & ->);
      [now intros []|discriminate|cbn [length]; rewrite app_length; cbn [length]; lia|].
    rewrite add_items_open. cbn [length] in Hf1. rewrite app_length in Hf1. cbn [length] in Hf1. destruct f1 as [|f1]; [lia|].
    change (parse_glob (S f1) (123%N :: join [44%N] gs ++ 125%N :: g2) (mkPartial (rev l1' ++ items) None))
      with (parse_glob f1 (join [44%N] gs ++ 125%N :: g2) (mkPartial (rev l1' ++ items) (Some [[]]))).
    destruct (read_alternatives alts gs Hs Hne f1 g2 (rev l1' ++ items) [] ltac:(lia)) as (f2 & alts' & Hf2 & Ha & ->).
    destruct (IH f2 (GAlt (rev (map (@rev gitem) []) ++ alts') :: rev l1' ++ items) ltac:(lia)) as (l2' & Hl2 & ->).
    exists (l1' ++ GAlt alts' :: l2'). split; [now apply rd_group|].
    cbn [map rev app]. rewrite rev_app_distr, rev_involutive, <- !app_assoc. reflexivity.
Qed.

Lemma among_iff l s : among l s <-> in_items l (points s).
Proof.
  split; [|intro H; exists (points s); split; [apply points_spec|exact H]]. intros (cs & H & Hin). now apply points_of_iff in H as ->.
Qed.

Lemma jdk_spelled l g : spells l g -> exists f, jdk_glob g = Some f /\ forall p, f p = true <-> among l (path_str p).
Proof.
  intro H. unfold jdk_glob, read_glob. destruct (read_spelled l g H (S (length g)) [] ltac:(lia)) as (l' & Hs & ->).
  eexists. split; [reflexivity|]. intro p. rewrite glob_matches_iff, among_iff. cbn [rev app]. apply same_items. now apply reads_pairs.
Qed.

Lemma star_spelled l : spells l s_star -> forall s, ~ In c_slash s -> among l s.
Proof.
  intros H s Hs. destruct (read_spelled l s_star H 3 [] ltac:(cbn; lia)) as (l' & Hl & E). cbn in E. injection E as <-.
  apply among_iff. apply (same_items _ _ (reads_pairs _ _ Hl)). rewrite <- (app_nil_r (points s)).
  apply (is_next GName []); [constructor; now rewrite in_slash|constructor].
Qed.

Theorem name_spelled : forall w h l g, unix_globs w -> spells l g ->
  exists c, pm_name_glob g w h = (Ok c, h) /\ forall p n, ends_with_name p n -> ~ In c_slash n -> tells w c p (among l n).
Proof.
  intros w h l g U H. destruct (jeqb_spec g s_star) as [->|Hs].
  - eexists. split; [reflexivity|]. intros p n _ Hn. exists true. split; [reflexivity|]. split; [intros _|reflexivity]. now apply star_spelled.
  - destruct (jdk_spelled l g H) as (f & E & Hf). destruct (name_glob w h g f U Hs E) as (c & Ec & Hc & _). exists c. split; [exact Ec|].
    intros p n Hp Hn. destruct (Hc p n Hp) as (q & <- & Hq). exists (f q). split; [exact Hq|apply Hf].
Qed.

Theorem absolute_spelled : forall w h l g, unix_globs w -> Forall real_name (jv_cwd (w_jvm w)) -> g <> js "*" -> spells l g ->
  exists c, pm_absolute_path_glob g w h = (Ok c, h) /\
    forall p L, at_names w p L -> p_abs p = true \/ ~ In n_dotdot (p_names (normalize p)) -> tells w c p (among l (c_slash :: slashed L)).
Proof.
  intros w h l g U Hcwd Hs H. destruct (jdk_spelled l g H) as (f & E & Hf). destruct (absolute_glob w h g f U Hcwd Hs E) as (c & Ec & Hc).
  exists c. split; [exact Ec|]. intros p L Hp Ha. exists (f (mkPath true L)). split; [now apply Hc|]. now rewrite Hf, str_absolute.
Qed.

Theorem relative_spelled : forall w h ref R l g, unix_globs w -> at_names w ref R -> g <> js "*" -> spells l g ->
  exists c, pm_relative_path_glob ref g w h = (Ok c, h) /\
    (forall p rest, at_names w p (R ++ rest) -> tells w c p (among l (slashed rest))) /\
    (forall p common x b rest, R = common ++ x :: b -> hd_error rest <> Some x -> at_names w p (common ++ rest) ->
       tells w c p (among l (slashed (map (fun _ => js "..") (x :: b) ++ rest)))).
Proof.
  intros w h ref R l g U Hr Hs H. destruct (jdk_spelled l g H) as (f & E & Hf). destruct (relative_glob w h g f ref R U Hs E Hr) as (c & Ec & Hc).
  exists c. split; [exact Ec|]. split.
  - intros p rest Hp. exists (f (mkPath false (relativize_names R (R ++ rest)))). split; [intro h'; now apply Hc|].
    rewrite Hf, str_relative. replace (relativize_names R (R ++ rest)) with rest; [tauto|].
    clear. induction R as [|x R IH]; [reflexivity|]. cbn. destruct (jeqb_spec x x); [exact IH|congruence].
  - intros p common x b rest -> Hx Hp. exists (f (mkPath false (relativize_names (common ++ x :: b) (common ++ rest)))). split; [intro h'; now apply Hc|].
    rewrite Hf, str_relative. replace (relativize_names (common ++ x :: b) (common ++ rest)) with (map (fun _ => js "..") (x :: b) ++ rest); [tauto|].
    clear -Hx. induction common as [|y common IH]; cbn [app relativize_names].
    + destruct rest as [|z rest]; [reflexivity|]. destruct (jeqb_spec x z); [subst; now contradict Hx|reflexivity].
    + destruct (jeqb_spec y y); [exact IH|congruence].
Qed.

(** ** A group of endings *)
Lemma spells_text grp t : paired t -> verbatim t -> (grp = true -> ~ In 44%N t /\ ~ In 125%N t) -> spells_plain grp (map GLit (points t)) t.
Proof.
  induction 1 as [|c t Hc Hh Hl Ht IH|h d t Hh Hd Ht IH]; intros Hv Hg; [constructor| |].
  - inversion Hv as [|? ? Hc' Hv']; subst. assert (W : whole_unit c) by (repeat split; assumption). rewrite (points_whole c t W). cbn [map].
    apply (sp_char grp c [c]); [|exact Hc'| |].
    + split; [apply pr_unit; try assumption; constructor|]. apply points_of_iff. now rewrite points_whole.
    + intro E. destruct (Hg E) as [H1 H2]. split; intros ->; [apply H1|apply H2]; now left.
    + apply IH; [exact Hv'|]. intro E. destruct (Hg E) as [H1 H2]. split; intro Hin; [apply H1|apply H2]; now right.
  - assert (E : pairs h d = true) by now apply pairs_iff. inversion Hv as [|? ? _ Hv']; subst. inversion Hv' as [|? ? _ Hv'']; subst.
    pose proof (code_point_bounds _ _ E) as B. destruct (far_plain (to_code_point h d) ltac:(lia)) as [G1 G2].
    rewrite (points_pair _ _ _ E). cbn [map]. apply (sp_char grp _ [h; d]); [|exact G1|auto|].
    + split; [apply pr_pair; try assumption; constructor|]. apply points_of_iff. now rewrite (points_pair _ _ _ E).
    + apply IH; [exact Hv''|]. intro Eg. destruct (Hg Eg) as [H1 H2]. split; intro Hin; [apply H1|apply H2]; right; now right.
Qed.

Theorem name_endings : forall w h texts, unix_globs w -> texts <> [] ->
  Forall (fun t => verbatim t /\ paired t /\ ~ In 44%N t /\ ~ In 125%N t) texts ->
  exists c, pm_name_glob (js "*{" ++ join (js ",") texts ++ js "}") w h = (Ok c, h) /\
    forall p n, ends_with_name p n -> ~ In c_slash n -> tells w c p (exists t, In t texts /\ ending n t).
Proof.
  intros w h texts U Hne Ht.
  assert (Hsp : spells ([GName] ++ GAlt (map (fun t => map GLit (points t)) texts) :: []) (js "*" ++ [123%N] ++ join [44%N] texts ++ [125%N] ++ [])).
  { apply sp_group; [apply (sp_name false [] []); [discriminate|constructor]|exact Hne| |apply sp_plain; constructor].
    clear Hne. induction Ht as [|t texts (H1 & H2 & H3 & H4) _ IH]; constructor; [|exact IH]. apply spells_text; auto. }
  destruct (name_spelled w h _ _ U Hsp) as (c & Ec & Hc). exists c. split; [exact Ec|]. intros p n Hp Hn. eapply tells_iff; [|exact (Hc p n Hp Hn)].
  cbn [app]. rewrite among_iff. split.
  - intro H. inversion H as [|? ? a b Ha Hb E1 E2]; subst. inversion Hb as [|? ? a' b' Ha' Hb']; subst. inversion Hb'; subst. rewrite app_nil_r in *.
    inversion Ha' as [| | | | | |? l ? Hl Hin]; subst. apply in_map_iff in Hl. destruct Hl as (t & <- & Hin'). apply in_lits in Hin. subst a'.
    symmetry in E2. apply points_end in E2 as (m & -> & _). exists t. split; [exact Hin'|]. now exists m.
  - intros (t & Hin & m & ->). rewrite Forall_forall in Ht. destruct (Ht t Hin) as (_ & Hpd & _).
    rewrite (points_app _ _ (apart_before m t Hpd)). constructor; [constructor; rewrite in_slash; intro Hs; apply Hn, in_or_app; now left|].
    rewrite <- (app_nil_r (points t)).
    constructor; [|constructor]. apply (ii_alt _ (map GLit (points t))); [now apply (in_map (fun t => map GLit (points t)))|]. now apply in_lits.
Qed.
