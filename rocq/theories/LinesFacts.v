(** * Proofs about two texts that differ by a line *)

From Verif Require Import SpecLines PathFacts RenderFacts TreeFacts ScanFacts ShownFacts ScanPrintFacts MetaFacts.
Close Scope Z_scope.

(** ** Trees of labels *)

Inductive loses (x : dtree) : dtree -> dtree -> Prop :=
| loses_here l k1 k2 : loses x (DT l (k1 ++ x :: k2)) (DT l (k1 ++ k2))
| loses_below l k1 t t' k2 : loses x t t' -> loses x (DT l (k1 ++ t :: k2)) (DT l (k1 ++ t' :: k2)).

Fixpoint kid_rows (l : list dtree) : list row :=
  match l with
  | [] => []
  | [k] => map (under true) (rows k)
  | k :: l' => map (under false) (rows k) ++ kid_rows l'
  end.

Lemma rows_kids l ks : rows (DT l ks) = ([], l) :: kid_rows ks.
Proof. reflexivity. Qed.

Lemma kid_rows_cons k l : l <> [] -> kid_rows (k :: l) = map (under false) (rows k) ++ kid_rows l.
Proof. destruct l; [easy|reflexivity]. Qed.

Lemma kid_rows_app k1 k2 : k2 <> [] -> kid_rows (k1 ++ k2) = flat_map (fun k => map (under false) (rows k)) k1 ++ kid_rows k2.
Proof.
  intro H. induction k1 as [|k k1 IH]; [reflexivity|]. cbn [app flat_map]. rewrite kid_rows_cons by (destruct k1; [exact H|discriminate]). now rewrite IH, app_assoc.
Qed.

Definition one_less (x : dtree) (rs rs' : list row) : Prop :=
  exists a m flags c, rs = a ++ m ++ map (placed flags) (rows x) ++ c /\ rs' = a ++ map (now_last (length flags)) m ++ c /\ flags <> [] /\
    (last flags true = false -> m = []) /\ Forall (fun r => length flags <= length (fst r) /\ nth (length flags - 1) (fst r) true = false) m.

Lemma one_less_pre t x rs rs' : one_less t rs rs' -> one_less t (x ++ rs) (x ++ rs').
Proof.
  intros (a & m & fl & c & -> & -> & H). exists (x ++ a), m, fl, c. rewrite <- !app_assoc. auto.
Qed.

Lemma one_less_post t x rs rs' : one_less t rs rs' -> one_less t (rs ++ x) (rs' ++ x).
Proof.
  intros (a & m & fl & c & -> & -> & H). exists a, m, fl, (c ++ x). rewrite <- !app_assoc. auto.
Qed.

Lemma now_last_under k b r : k <> 0 -> now_last (S k) (under b r) = under b (now_last k r).
Proof. intro H. destruct k; [easy|]. unfold now_last, under. cbn. now rewrite Nat.sub_0_r. Qed.

Lemma one_less_under t b rs rs' : one_less t rs rs' -> one_less t (map (under b) rs) (map (under b) rs').
Proof.
  intros (a & m & fl & c & -> & -> & Hfl & Hm & HF). exists (map (under b) a), (map (under b) m), (b :: fl), (map (under b) c).
  rewrite !map_app. cbn [map length]. split; [rewrite (map_map (placed fl)); reflexivity|]. split.
  { f_equal. f_equal. rewrite !map_map. apply map_ext. intro r. symmetry. apply now_last_under. destruct fl; [easy|discriminate]. }
  split; [discriminate|]. split; [destruct fl as [|x fl]; [easy|]; intro E; rewrite Hm; [reflexivity|exact E]|].
  apply Forall_forall. intros r Hr. apply in_map_iff in Hr. destruct Hr as (r0 & <- & Hr). rewrite Forall_forall in HF. destruct (HF r0 Hr) as [H1 H2].
  unfold under. cbn [fst length]. split; [lia|]. destruct fl as [|x fl]; [easy|]. cbn [length] in *. rewrite !Nat.sub_succ, ?Nat.sub_0_r in *. cbn [nth]. exact H2.
Qed.

Lemma loses_rows x t t' : loses x t t' -> one_less x (rows t) (rows t').
Proof.
  induction 1 as [l k1 k2|l k1 t t' k2 _ IH]; rewrite !rows_kids.
  - assert (Ep : forall b, map (under b) (rows x) = map (placed [b]) (rows x)) by (intro b; apply map_ext; reflexivity). destruct k2 as [|k k2].
    + destruct k1 as [|k k0] using rev_ind; [exists [([], l)], [], [true], []; cbn [app kid_rows]; rewrite Ep, app_nil_r; repeat split; auto; discriminate|]. clear IHk0.
      rewrite app_nil_r, <- app_assoc. cbn [app]. rewrite !kid_rows_app by discriminate. rewrite kid_rows_cons by discriminate. cbn [kid_rows map].
      exists (([], l) :: flat_map (fun k => map (under false) (rows k)) k0), (map (under false) (rows k)), [true], []. cbn [app length].
      split; [rewrite Ep, app_nil_r; reflexivity|]. split; [rewrite app_nil_r, map_map; do 2 f_equal|]. split; [discriminate|]. split; [discriminate|].
      apply Forall_forall. intros r Hr. apply in_map_iff in Hr. destruct Hr as (r0 & <- & _). cbn. split; [lia|reflexivity].
    + rewrite !kid_rows_app by discriminate. rewrite kid_rows_cons by discriminate. rewrite Ep.
      exists (([], l) :: flat_map (fun k => map (under false) (rows k)) k1), [], [false], (kid_rows (k :: k2)). repeat split; auto. discriminate.
  - rewrite !kid_rows_app by discriminate. apply (one_less_pre x (([], l) :: flat_map (fun k => map (under false) (rows k)) k1)).
    destruct k2 as [|k k2]; [now apply one_less_under|]. rewrite !kid_rows_cons by discriminate. now apply one_less_post, one_less_under.
Qed.

(** ** Entries *)

Inductive drops (x : entry) : entry -> entry -> Prop :=
| drops_here d e1 e2 : drops x (EDir d (e1 ++ x :: e2)) (EDir d (e1 ++ e2))
| drops_below d e1 e e' e2 : drops x e e' -> drops x (EDir d (e1 ++ e :: e2)) (EDir d (e1 ++ e' :: e2)).

Definition other (f q : path) : bool := negb (path_eqb f q).

Lemma select_same f e : ~ In f (entry_paths e) -> select (other f) (other f) e = e /\ kept (other f) (other f) e = true.
Proof.
  assert (N : forall q, q <> f -> other f q = true).
  { intros q Hq. unfold other. destruct (path_eqb f q) eqn:E; [|reflexivity]. apply path_eqb_eq in E. now subst. }
  induction e as [d es IH|q k|q|n] using entry_ind'; intro H; cbn [select kept entry_paths] in *.
  - split; [|apply N; intros ->; apply H; now left]. f_equal. assert (H' : ~ In f (flat_map entry_paths es)) by (intro; apply H; now right). clear H.
    induction IH as [|e es He _ IH']; [reflexivity|]. cbn [flat_map map filter] in *.
    destruct He as [E1 E2]; [intro; apply H', in_or_app; now left|]. rewrite E1, E2. f_equal. apply IH'. intro. apply H', in_or_app. now right.
  - split; [reflexivity|]. apply N. intros ->. apply H. now left.
  - now split.
  - now split.
Qed.

Lemma select_same_all f es : ~ In f (flat_map entry_paths es) -> filter (kept (other f) (other f)) (map (select (other f) (other f)) es) = es.
Proof.
  induction es as [|e es IH]; intro H; [reflexivity|]. cbn [flat_map map filter] in *.
  destruct (select_same f e) as [E1 E2]; [intro; apply H, in_or_app; now left|]. rewrite E1, E2. f_equal. apply IH. intro. apply H, in_or_app. now right.
Qed.

Lemma NoDup_part A (a b c : list A) : NoDup (a ++ b ++ c) -> NoDup b.
Proof.
  induction a as [|x a IH]; cbn [app]; intro H; [|inversion H; now apply IH]. induction b as [|y b IH]; [constructor|]. cbn in H. inversion H as [|u l Hy Hb]; subst.
  constructor; [intro; apply Hy, in_or_app; now left|now apply IH].
Qed.

Lemma kept_other f e : entry_path e <> Some f -> kept (other f) (other f) (select (other f) (other f) e) = true.
Proof.
  intro H. assert (N : forall q, q <> f -> other f q = true).
  { intros q Hq. unfold other. destruct (path_eqb f q) eqn:E; [|reflexivity]. apply path_eqb_eq in E. now subst. }
  destruct e as [d es|q k|q|n]; cbn in *; try reflexivity; apply N; congruence.
Qed.

Lemma select_drops f e : NoDup (entry_paths e) -> In f (entry_paths e) -> entry_path e <> Some f ->
  exists x n, entry_path x = Some f /\ at_depth (S n) e x /\ drops x e (select (other f) (other f) e).
Proof.
  induction e as [d es IH|q k|q|n] using entry_ind'; intros Hn Hi Hp; cbn [entry_paths] in *; try now destruct Hi.
  - destruct Hi as [->|Hi]; [easy|]. inversion Hn as [|x l _ Hn']; subst. clear Hn.
    apply in_flat_map in Hi. destruct Hi as (e & He & Hi). apply in_split in He. destruct He as (e1 & e2 & ->).
    rewrite flat_map_app in Hn'. cbn [flat_map] in Hn'. rewrite Forall_forall in IH.
    assert (Hin : In e (e1 ++ e :: e2)) by (apply in_or_app; right; now left).
    assert (N1 : ~ In f (flat_map entry_paths e1)).
    { intro H. apply in_split in Hi. destruct Hi as (u & u' & Hu). rewrite Hu, <- app_assoc in Hn'. cbn in Hn'. rewrite app_assoc in Hn'. apply NoDup_remove_2 in Hn'. apply Hn'. rewrite <- app_assoc.
      apply in_or_app. now left. }
    assert (N2 : ~ In f (flat_map entry_paths e2)).
    { intro H. apply in_split in Hi. destruct Hi as (u & u' & Hu). rewrite Hu, <- app_assoc in Hn'. cbn in Hn'. rewrite app_assoc in Hn'. apply NoDup_remove_2 in Hn'. apply Hn'. rewrite <- app_assoc.
      apply in_or_app. right. apply in_or_app. right. apply in_or_app. now right. }
    assert (Ne : NoDup (entry_paths e)) by (eapply NoDup_part; exact Hn').
    cbn [select]. rewrite map_app, filter_app. cbn [map filter]. rewrite (select_same_all f e1 N1), (select_same_all f e2 N2).
    assert (Dec : entry_path e = Some f \/ entry_path e <> Some f).
    { destruct (entry_path e) as [q|]; [|now right]. destruct (path_eqb q f) eqn:E; [left; apply path_eqb_eq in E; now subst|right; intro E'; injection E' as ->].
      assert (path_eqb f f = true) by now apply path_eqb_eq. congruence. }
    destruct Dec as [Dec|Dec].
    + exists e, 0. split; [exact Dec|]. split; [eapply at_below; [exact Hin|apply at_top]|].
      assert (K : kept (other f) (other f) (select (other f) (other f) e) = false).
      { assert (F : other f f = false) by (unfold other; apply negb_false_iff; now apply path_eqb_eq). destruct e as [q es|q k|q|n]; cbn in Dec |- *; try discriminate; now injection Dec as ->. }
      rewrite K. apply drops_here.
    + destruct (IH e Hin Ne Hi Dec) as (x & n & Hx & Hat & Hd). exists x, (S n). split; [exact Hx|]. split; [eapply at_below; [exact Hin|exact Hat]|].
      rewrite (kept_other f e Dec). now apply drops_below.
  - destruct Hi as [->|[]]. now destruct Hp.
Qed.

(** ** What is displayed *)

Definition apart (v : view) (x : entry) (top : bool) (e : entry) : Prop :=
  forall n d e1 e2, at_depth n e (EDir d (e1 ++ x :: e2)) -> v_compact v = true -> mergeable v d (e1 ++ e2) \/ mergeable v d (e1 ++ x :: e2) -> top = true /\ n = 0.

Lemma Forall2_shows_fun v es : forall ks ks', Forall2 (shows v false) es ks -> Forall2 (shows v false) es ks' -> ks = ks'.
Proof.
  induction es as [|e es IH]; intros ks ks' H H'; inversion H; subst; inversion H'; subst; [reflexivity|]. f_equal; [eapply shows_fun; eauto|now apply IH].
Qed.

Lemma drops_dirs x e e' : drops x e e' -> is_dir_entry e /\ is_dir_entry e'.
Proof. now destruct 1. Qed.

Lemma one_element A (a b : list A) x c : a ++ x :: b = [c] -> a = [] /\ b = [] /\ x = c.
Proof. destruct a as [|y a]; [|destruct a; discriminate]. cbn. intro E. injection E as -> ->. auto. Qed.

Lemma mergeable_drops x v d e1 e e' e2 : drops x e e' -> mergeable v d (e1 ++ e :: e2) <-> mergeable v d (e1 ++ e' :: e2).
Proof.
  intro H. apply drops_dirs in H. destruct H as [D D']. unfold mergeable.
  split; intros (Hx & c & E & Hc); (split; [exact Hx|]); apply one_element in E; destruct E as (-> & -> & ->); eexists; (split; [reflexivity|assumption]).
Qed.

Lemma shows_loses v x sx e e' : shows v false x sx -> drops x e e' -> forall top s s', apart v x top e -> shows v top e s -> shows v top e' s' ->
  exists ds ks ks', s = SDir ds ks /\ s' = SDir ds ks' /\ forall l, loses (labelled v sx) (DT l (map (labelled v) ks)) (DT l (map (labelled v) ks')).
Proof.
  intro Hsx. assert (Here : forall e1 e2 ks ks', Forall2 (shows v false) (e1 ++ x :: e2) ks -> Forall2 (shows v false) (e1 ++ e2) ks' ->
    forall l, loses (labelled v sx) (DT l (map (labelled v) ks)) (DT l (map (labelled v) ks'))).
  { intros e1 e2 ks ks' H H' l. apply Forall2_app_inv_l in H. destruct H as (k1 & k2 & H1 & H2 & ->). inversion H2 as [|x0 y xs ys Hy H3]; subst.
    assert (ks' = k1 ++ ys) as -> by (eapply Forall2_shows_fun; [exact H'|now apply Forall2_app]).
    rewrite (shows_fun v x false y sx Hy Hsx). rewrite !map_app. cbn [map]. apply loses_here. }
  induction 1 as [d e1 e2|d e1 e e' e2 Hd IH]; intros top s s' Ha Hs Hs'.
  - inversion Hs as [| | |top0 d0 es0 ks Ht HF|e0 ds es ks Hc Hch HF]; subst; inversion Hs' as [| | |top1 d1 es1 ks' Ht' HF'|e1' ds' es' ks' Hc' Hch' HF']; subst.
    + exists [d], ks, ks'. split; [reflexivity|]. split; [reflexivity|]. now apply (Here e1 e2).
    + destruct Ht as [Ht|Ht]; [discriminate|congruence].
    + destruct Ht' as [Ht'|Ht']; [discriminate|congruence].
    + inversion Hch as [d0 es0 Hn|d0 c ds0 es0 Hm Hc0]; subst.
      * inversion Hch' as [d0 es0 Hn'|d0 c ds0 es0 Hm Hc0]; subst.
        -- exists [d], ks, ks'. split; [reflexivity|]. split; [reflexivity|]. now apply (Here e1 e2).
        -- exfalso. match goal with X : [c] = e1 ++ e2 |- _ => rewrite X in Hm end. destruct (Ha 0 d e1 e2 (at_top _) Hc (or_introl Hm)). discriminate.
      * exfalso. match goal with X : [c] = e1 ++ x :: e2 |- _ => rewrite X in Hm end. destruct (Ha 0 d e1 e2 (at_top _) Hc (or_intror Hm)). discriminate.
  - assert (Ha' : apart v x false e).
    { intros n q a1 a2 Hat Hc Hm. destruct (Ha (S n) q a1 a2) as [_ E]; auto; [|discriminate]. apply at_below with e; [apply in_or_app; right; now left|exact Hat]. }
    assert (Below : forall ks ks', Forall2 (shows v false) (e1 ++ e :: e2) ks -> Forall2 (shows v false) (e1 ++ e' :: e2) ks' ->
      forall l, loses (labelled v sx) (DT l (map (labelled v) ks)) (DT l (map (labelled v) ks'))).
    { intros ks ks' H H' l. apply Forall2_app_inv_l in H. destruct H as (k1 & k2 & H1 & H2 & ->). inversion H2 as [|x0 y xs ys Hy H3]; subst.
      apply Forall2_app_inv_l in H'. destruct H' as (k1' & k2' & H1' & H2' & ->). inversion H2' as [|x' y' xs' ys' Hy' H3']; subst.
      assert (k1' = k1) as -> by (eapply Forall2_shows_fun; eauto). assert (ys' = ys) as -> by (eapply Forall2_shows_fun; eauto).
      destruct (IH false y y' Ha' Hy Hy') as (ds & ks & ks' & -> & -> & Hl). rewrite !map_app. cbn [map]. apply loses_below. cbn [labelled]. apply Hl. }
    inversion Hs as [| | |top0 d0 es0 ks Ht HF|e0 ds es ks Hc Hch HF]; subst; inversion Hs' as [| | |top1 d1 es1 ks' Ht' HF'|e1' ds' es' ks' Hc' Hch' HF']; subst.
    + exists [d], ks, ks'. split; [reflexivity|]. split; [reflexivity|]. now apply Below.
    + destruct Ht as [Ht|Ht]; [discriminate|congruence].
    + destruct Ht' as [Ht'|Ht']; [discriminate|congruence].
    + pose proof (mergeable_drops x v d e1 e e' e2 Hd) as Hme.
      inversion Hch as [d0 es0 Hn|d0 c ds0 es0 Hm Hc0]; subst; inversion Hch' as [d1 es1 Hn'|d1 c' ds1 es1 Hm' Hc1]; subst.
      * exists [d], ks, ks'. split; [reflexivity|]. split; [reflexivity|]. now apply Below.
      * exfalso. match goal with X : [c'] = _ |- _ => rewrite X in Hm' end. tauto.
      * exfalso. match goal with X : [c] = _ |- _ => rewrite X in Hm end. tauto.
      * match goal with X : [c] = _ |- _ => rename X into E0 end. match goal with X : [c'] = _ |- _ => rename X into E1 end. symmetry in E0, E1. apply one_element in E0. apply one_element in E1. destruct E0 as (-> & -> & <-). destruct E1 as (_ & _ & <-).
        destruct (IH false (SDir ds0 ks) (SDir ds1 ks') Ha') as (ds & k1 & k2 & E1 & E2 & Hl); [now apply shows_compact with es|now apply shows_compact with es'|].
        injection E1 as -> ->. injection E2 as -> ->. exists (d :: ds), k1, k2. auto.
Qed.

Lemma inner_path d es n x : at_depth n (EDir d es) x -> n <> 0 -> forall q, entry_path x = Some q -> In q (flat_map entry_paths es).
Proof.
  assert (G : forall m e y, at_depth m e y -> forall q, entry_path y = Some q -> In q (entry_paths e)).
  { induction 1 as [e|m d0 es0 c y Hc _ IH]; intros q Hq; [destruct e; try discriminate; injection Hq as <-; now left|]. right. apply in_flat_map. eauto. }
  intros H Hn q Hq. inversion H as [|m d0 es0 c y Hc Hat]; subst; [easy|]. apply in_flat_map. exists c. split; [exact Hc|eapply G; eauto].
Qed.

Lemma tree_apart st dk v root f gone x e : distinct_names dk -> roomy st gone dk -> gone f = true -> (forall d n, f = child d n -> gone d = false) -> tree_at st dk 0 root e -> stands_alone st dk v root f -> entry_path x = Some f -> apart v x true e.
Proof.
  intros Hd Hlim Hgf Hgd He [Hm Hm'] Hx n d e1 e2 Hat Hc Hme. split; [reflexivity|].
  pose proof (tree_sub st dk n e 0%Z root d _ He Hat) as Ht. revert Ht. generalize (0 + Z.of_nat n)%Z as d0. intros d0 Ht. inversion Ht as [|d1 p1 Hd1 Hl1 E1|d1 p1 names order es Hd1 Hl1 Hn Ho HF E1 E2 E3]; subst.
  - exfalso. match goal with X : [EMaxDepth _] = _ |- _ => destruct e1 as [|y [|y2 e1]]; cbn in X; [injection X as <- _; discriminate|discriminate|discriminate] end.
  - destruct Ho as [Hpo _].
    assert (P : forall y p, tree_at st dk (d0 + 1) p y -> forall q, entry_path y = Some q -> p = q) by (intros y p Hp q Hq; apply tree_at_path in Hp; congruence).
    assert (D : forall p cp ces, tree_at st dk (d0 + 1) p (EDir cp ces) -> is_dir dk cp) by (intros p cp ces Hp; inversion Hp; subst; assumption).
    assert (Ix : In x es).
    { assert (I : In x (es ++ marker (s_limit st d) order d)) by (rewrite E3; apply in_or_app; right; now left). apply in_app_or in I. destruct I as [I|I]; [exact I|].
      unfold marker in I. destruct (_ && _); [|easy]. destruct I as [<-|[]]. discriminate. }
    assert (Hin : exists nm, f = child d nm /\ In nm names /\ accepts st dk (child d nm) = true).
    { destruct (Forall2_in_r _ _ _ _ _ _ HF Ix) as (c & Hc' & Hcx). rewrite (P _ _ Hcx f Hx) in Hc'.
      assert (I : In f (filter (accepts st dk) (map (child d) names))).
      { eapply Permutation_in; [symmetry; exact Hpo|]. unfold limited in Hc'. destruct (_ <? _)%Z; [exact Hc'|]. rewrite <- (firstn_skipn (Z.to_nat (s_limit st d)) order). apply in_or_app. now left. }
      apply filter_In in I. destruct I as [I Ia]. apply in_map_iff in I. destruct I as (nm & I & In'). exists nm. rewrite I. auto. }
    destruct Hin as (nm & Ef & Hnm & Hacc).
    assert (Hlm : (s_limit st d < 0 \/ Z.of_nat (length order) <= s_limit st d)%Z) by (rewrite <- (Permutation_length Hpo); eapply Hlim; [eapply Hgd; exact Ef|exact Hn|exact Hnm|now rewrite <- Ef|exact Hacc]).
    assert (Hmk : marker (s_limit st d) order d = []).
    { unfold marker. destruct (Z.leb_spec 0 (s_limit st d)); [|reflexivity]. destruct (Z.ltb_spec (s_limit st d) (Z.of_nat (length order))); [lia|reflexivity]. }
    assert (Hli : limited (s_limit st d) order = order).
    { unfold limited. destruct (Z.ltb_spec (s_limit st d) 0); [reflexivity|]. apply firstn_all2. lia. }
    rewrite Hmk, app_nil_r in E3. rewrite Hli in HF. subst es.
    assert (Hroot : v_ext v d = None /\ (d = root \/ v_ext v d <> None)).
    { destruct Hme as [(Hxt & c & E & Hdc)|(Hxt & c & E & Hdc)]; (split; [exact Hxt|]).
      - destruct c as [cp ces|?|?|?]; try contradiction.
        assert (Hor : Permutation order [f; cp] /\ is_dir dk cp).
        { destruct e1 as [|y e1].
          - cbn in E. subst e2. cbn [app] in HF. inversion HF as [|a b la lb Ha H2]; subst. inversion H2 as [|a' b' la' lb' Hb H3]; subst. inversion H3; subst.
            rewrite (P _ _ Ha _ Hx), (P _ _ Hb cp eq_refl). split; [apply Permutation_refl|eauto].
          - cbn in E. injection E as -> E. apply app_eq_nil in E. destruct E as [-> ->]. cbn [app] in HF. inversion HF as [|a b la lb Ha H2]; subst.
            inversion H2 as [|a' b' la' lb' Hb H3]; subst. inversion H3; subst. rewrite (P _ _ Ha cp eq_refl), (P _ _ Hb _ Hx). split; [apply perm_swap|eauto]. }
        destruct Hor as [Hor Hcp]. eapply Hm; [exact Hc|exact Ef|exact Hn|etransitivity; [exact Hpo|exact Hor]|exact Hcp].
      - assert (e1 = [] /\ e2 = [] /\ x = c) as (-> & -> & ->) by (destruct e1 as [|y [|y' e1]]; [injection E as -> ->; auto|discriminate|discriminate]).
        cbn [app] in HF. inversion HF as [|a b la lb Ha H2]; subst. inversion H2; subst. destruct c as [cp ces|?|?|?]; try contradiction. injection Hx as ->.
        eapply Hm'; [exact Hc|eapply D; exact Ha|first [exact Ef|reflexivity]|exact Hn|]. rewrite <- (P _ _ Ha _ eq_refl). exact Hpo. }
    destruct Hroot as [Hxt [->|Hv]]; [|easy].
    destruct n as [|n]; [reflexivity|]. exfalso. pose proof (tree_paths_NoDup _ _ _ Hd _ _ He) as Hnd. pose proof (tree_at_path _ _ _ _ _ He) as Hp.
    destruct e as [q es'|q k'|q|z]; cbn in Hp; try discriminate; [|inversion Hat]. injection Hp as ->. cbn [entry_paths] in Hnd. inversion Hnd as [|a l Hni _]; subst. apply Hni.
    eapply inner_path; [exact Hat|discriminate|reflexivity].
Qed.

Lemma tree_at_sub st dk n e x q : at_depth n e x -> entry_path x = Some q -> forall d p, tree_at st dk d p e -> exists d', tree_at st dk d' q x.
Proof.
  induction 1 as [e|n d0 es c x Hc Hat IH]; intros Hq d p He.
  - exists d. pose proof (tree_at_path _ _ _ _ _ He). assert (p = q) as <- by congruence. exact He.
  - inversion He as [|d1 p1 Hd1 Hl1 E1|d1 p1 names order es0 Hd1 Hl1 Hn Ho HF E1 E2 E3]; subst.
    + destruct Hc as [<-|[]]. inversion Hat; subst. discriminate.
    + apply in_app_or in Hc. destruct Hc as [Hc|Hc].
      * destruct (Forall2_in_r _ _ _ _ _ _ HF Hc) as (y & _ & Hy). eapply IH; [exact Hq|exact Hy].
      * unfold marker in Hc. destruct (_ && _); [|easy]. destruct Hc as [<-|[]]. inversion Hat; subst. discriminate.
Qed.

(** [gone] is [f] and what is below it. *)
Lemma select_below st dk f gone e : (forall q, gone q = true <-> below f q) -> forall d p, tree_at st dk d p e -> gone p = false ->
  select (fun q => negb (gone q)) (fun q => negb (gone q)) e = select (other f) (other f) e.
Proof.
  intro Hg. induction e as [q es IH|q k|q|n] using entry_ind'; intros d p He Hp; try reflexivity.
  inversion He as [|d1 p1 Hd1 Hl1 E1|d1 p1 names order es0 Hd1 Hl1 Hn Ho HF E1 E2 E3]; subst; [reflexivity|].
  cbn [select]. f_equal.
  assert (G : Forall (fun x => match entry_path x with Some c => (gone c = negb (other f c)) /\ (gone c = false -> exists d', tree_at st dk d' c x) | None => forall g, select g g x = x end) (es0 ++ marker (s_limit st q) order q)).
  { apply Forall_app. split.
    - apply Forall_forall. intros x Hx. destruct (Forall2_in_r _ _ _ _ _ _ HF Hx) as (c & Hc & Hxc). rewrite (tree_at_path _ _ _ _ _ Hxc). split; [|eauto].
      unfold other. rewrite negb_involutive. destruct (path_eqb f c) eqn:E.
      + apply path_eqb_eq in E. subst c. apply Hg. exists []. rewrite app_nil_r. now destruct f.
      + destruct (gone c) eqn:Ec; [|reflexivity]. exfalso. apply Hg in Ec. destruct Ec as (ns & Ec).
        assert (Ic : In c (map (child q) names)).
        { assert (I : In c order) by (unfold limited in Hc; destruct (_ <? _)%Z; [exact Hc|rewrite <- (firstn_skipn (Z.to_nat (s_limit st q)) order); apply in_or_app; now left]).
          destruct Ho as [Hpo _]. apply (Permutation_in _ (Permutation_sym Hpo)) in I. now apply filter_In in I. }
        apply in_map_iff in Ic. destruct Ic as (nm & <- & _). destruct ns as [|n0 ns0] using rev_ind.
        * rewrite app_nil_r in Ec. assert (path_eqb f (child q nm) = true) by (apply path_eqb_eq; rewrite Ec; now destruct f). congruence.
        * clear IHns0. pose proof (f_equal p_names Ec) as En. pose proof (f_equal p_abs Ec) as Ea. cbn in En, Ea. rewrite app_assoc in En. apply app_inj_tail in En. destruct En as [En _].
          assert (gone q = true) by (apply Hg; exists ns0; destruct q as [qa qn]; cbn in *; now subst). congruence.
    - unfold marker. destruct (_ && _); repeat constructor. }
  clear - G IH. induction (es0 ++ marker (s_limit st q) order q) as [|x l IHl]; [reflexivity|]. inversion G as [|x' l' Gx Gl]; subst. inversion IH as [|x' l' Ix Il]; subst. cbn [map filter].
  assert (K : forall g, kept g g (select g g x) = match entry_path x with Some c => g c | None => true end) by (intro g; rewrite select_kept; destruct x; reflexivity).
  rewrite !K. rewrite (IHl Il Gl). destruct (entry_path x) as [c|] eqn:Ec.
  - destruct Gx as [Gc Gt]. rewrite Gc, negb_involutive. destruct (other f c) eqn:Eo; [|reflexivity]. f_equal. destruct (Gt Gc) as (d' & Hd'). eapply Ix; [exact Hd'|exact Gc].
  - f_equal. now rewrite !Gx.
Qed.

Lemma one_part o p w1 w2 h out h' v dk1 dk2 st f gone e :
  steady w1 dk1 -> steady w2 dk2 -> w_jvm w1 = w_jvm w2 -> distinct_names dk1 -> distinct_names dk2 ->
  uses w1 o st -> uses w2 o st -> sees w1 o v -> sees w2 o v -> configured_order (s_cmp st) -> roomy st gone dk1 ->
  deleted gone dk1 dk2 -> gone (location w1 p) = false -> gone f = true -> (forall d n, f = child d n -> gone d = false) ->
  (forall e, tree_at st dk1 0 (location w1 p) e -> select (fun q => negb (gone q)) (fun q => negb (gone q)) e = select (other f) (other f) e) ->
  f <> location w1 p -> tree_at st dk1 0 (location w1 p) e -> In f (entry_paths e) ->
  stands_alone st dk1 v (location w1 p) f ->
  pretty_print o p w1 h = (Ok out, h') ->
  exists above beside flags d ef sf below,
    tree_at st dk1 d f ef /\ shows v false ef sf /\
    out = lines (o_tree_format o) (above ++ beside ++ map (placed flags) (rows (labelled v sf)) ++ below) /\
    (forall h2, exists h2', pretty_print o p w2 h2 = (Ok (lines (o_tree_format o) (above ++ map (now_last (length flags)) beside ++ below)), h2')) /\
    flags <> [] /\ (last flags true = false -> beside = []) /\
    Forall (fun r => length flags <= length (fst r) /\ nth (length flags - 1) (fst r) true = false) beside.
Proof.
  intros Hw1 Hw2 Hj Hd1 Hd2 Hu1 Hu2 Hs1 Hs2 Hc Hl Hdel Hg Hgf Hgd Hsel Hf He0 Hin Hm H.
  destruct (C131_lemma o p w1 w2 h out h' v dk1 dk2 st gone Hw1 Hw2 Hj Hd2 Hu1 Hu2 Hs1 Hs2 Hc Hl Hdel Hg H) as (e' & s & s' & He & Hs & -> & Hs' & H2).
  assert (e' = e) as -> by exact (tree_unique st dk1 dk1 Hc Hd1 (same_disk dk1) _ _ _ _ He He0). clear He0.
  rewrite (Hsel e He) in Hs'.
  assert (Hp : entry_path e <> Some f) by (rewrite (tree_at_path _ _ _ _ _ He); intro E; injection E; auto).
  destruct (select_drops f e (tree_paths_NoDup _ _ _ Hd1 _ _ He) Hin Hp) as (x & n & Hx & Hat & Hk).
  destruct (tree_at_sub _ _ _ _ _ _ Hat Hx _ _ He) as (d & Hd). assert (Hsf : exists sf, shows v false x sf) by (eexists; apply group_shows). destruct Hsf as (sf & Hsf).
  destruct (shows_loses v x sf e _ Hsf Hk true s s' (tree_apart st dk1 v _ f gone x e Hd1 Hl Hgf Hgd He Hm Hx) Hs Hs') as (ds & ks & ks' & -> & -> & Hlo).
  destruct (loses_rows _ _ _ (Hlo (emoji_str v (last ds (mkPath true [])) ++ concat (map (fun d => last_name d ++ js "/") ds) ++ opt_str (v_ext v (last ds (mkPath true []))))))
    as (a & m & fl & c & E1 & E2 & H3 & H4 & H5).
  exists a, m, fl, d, x, sf, c. split; [exact Hd|]. split; [exact Hsf|]. split; [unfold text, lines; cbn [labelled]; now rewrite E1|].
  split; [intro h2; destruct (H2 h2) as (h2' & H2'); exists h2'; rewrite H2'; unfold text, lines; cbn [labelled]; now rewrite E2|]. auto.
Qed.

Lemma one_block o p w1 w2 h out h' v dk1 dk2 st f gone e :
  steady w1 dk1 -> steady w2 dk2 -> w_jvm w1 = w_jvm w2 -> distinct_names dk1 -> distinct_names dk2 ->
  uses w1 o st -> uses w2 o st -> sees w1 o v -> sees w2 o v -> configured_order (s_cmp st) -> roomy st gone dk1 ->
  (forall q, gone q = true <-> below f q) -> deleted gone dk1 dk2 ->
  f <> location w1 p -> tree_at st dk1 0 (location w1 p) e -> In f (entry_paths e) ->
  stands_alone st dk1 v (location w1 p) f ->
  pretty_print o p w1 h = (Ok out, h') ->
  exists above beside flags d ef sf below,
    tree_at st dk1 d f ef /\ shows v false ef sf /\
    out = lines (o_tree_format o) (above ++ beside ++ map (placed flags) (rows (labelled v sf)) ++ below) /\
    (forall h2, exists h2', pretty_print o p w2 h2 = (Ok (lines (o_tree_format o) (above ++ map (now_last (length flags)) beside ++ below)), h2')) /\
    flags <> [] /\ (last flags true = false -> beside = []) /\
    Forall (fun r => length flags <= length (fst r) /\ nth (length flags - 1) (fst r) true = false) beside.
Proof.
  intros Hw1 Hw2 Hj Hd1 Hd2 Hu1 Hu2 Hs1 Hs2 Hc Hl Hg Hdel Hf He Hin Hm H.
  assert (Hr : exists d, reach st dk1 0 (location w1 p) d f) by (eapply tree_paths_reach; eauto).
  assert (Hgl : gone (location w1 p) = false).
  { destruct (gone (location w1 p)) eqn:E; [|reflexivity]. exfalso. apply Hf. apply Hg in E. destruct Hr as (d & Hr). apply reach_below in Hr. destruct E as (ns & E), Hr as (ms & Hr).
    rewrite E in Hr. cbn in Hr. pose proof (f_equal (fun q => length (p_names q)) Hr) as L. cbn in L. rewrite !app_length in L. destruct ns; [|cbn in L; lia]. rewrite app_nil_r in E. rewrite E. now destruct f. }
  apply (one_part o p w1 w2 h out h' v dk1 dk2 st f gone e); auto.
  - apply Hg. exists []. rewrite app_nil_r. now destruct f.
  - intros d n E. destruct (gone d) eqn:Ed; [|reflexivity]. apply Hg in Ed. destruct Ed as (ns & Ed). exfalso. rewrite Ed in E. apply (f_equal (fun q => length (p_names q))) in E. cbn in E. rewrite !app_length in E. cbn in E. lia.
  - intros e0 He0. eapply select_below; eauto.
Qed.

Lemma one_line o p w1 w2 h out h' v dk1 dk2 st f e :
  steady w1 dk1 -> steady w2 dk2 -> w_jvm w1 = w_jvm w2 -> distinct_names dk1 -> distinct_names dk2 ->
  uses w1 o st -> uses w2 o st -> sees w1 o v -> sees w2 o v -> configured_order (s_cmp st) -> roomy st (path_eqb f) dk1 ->
  deleted (path_eqb f) dk1 dk2 -> f <> location w1 p -> tree_at st dk1 0 (location w1 p) e -> In f (entry_paths e) -> ~ is_dir dk1 f ->
  merges_nothing st dk1 v (location w1 p) f ->
  pretty_print o p w1 h = (Ok out, h') ->
  exists above beside flags k below,
    d_attr dk1 f = Some k /\
    out = lines (o_tree_format o) (above ++ beside ++ (flags, emoji_str v f ++ last_name f ++ kind_mark k ++ opt_str (v_ext v f)) :: below) /\
    (forall h2, exists h2', pretty_print o p w2 h2 = (Ok (lines (o_tree_format o) (above ++ map (now_last (length flags)) beside ++ below)), h2')) /\
    flags <> [] /\ (last flags true = false -> beside = []) /\
    Forall (fun r => length flags <= length (fst r) /\ nth (length flags - 1) (fst r) true = false) beside.
Proof.
  intros Hw1 Hw2 Hj Hd1 Hd2 Hu1 Hu2 Hs1 Hs2 Hc Hl Hdel Hf He Hin Hnd Hm H.
  assert (Hg : path_eqb f (location w1 p) = false) by (destruct (path_eqb f (location w1 p)) eqn:E; [apply path_eqb_eq in E; easy|reflexivity]).
  assert (Hgf : path_eqb f f = true) by now apply path_eqb_eq.
  assert (Hgd : forall d n, f = child d n -> path_eqb f d = false).
  { intros d n E. destruct (path_eqb f d) eqn:Ed; [|reflexivity]. apply path_eqb_eq in Ed. exfalso. subst d. apply (f_equal (fun q => length (p_names q))) in E. cbn in E. rewrite app_length in E. cbn in E. lia. }
  destruct (one_part o p w1 w2 h out h' v dk1 dk2 st f (path_eqb f) e Hw1 Hw2 Hj Hd1 Hd2 Hu1 Hu2 Hs1 Hs2 Hc Hl Hdel Hg Hgf Hgd (fun e _ => eq_refl) Hf He Hin (conj Hm (fun _ Hd => False_ind _ (Hnd Hd))) H)
    as (a & m & fl & d & ef & sf & c & Hd & Hsf & E1 & R).
  inversion Hd as [d0 p0 k _ Hk| |]; subst; try contradiction. inversion Hsf; subst; [|match goal with X : chain_of _ (EFile _ _) _ _ |- _ => inversion X end]. exists a, m, fl, k, c. split; [exact Hk|]. split; [|exact R].
  cbn [labelled rows map app] in *. unfold placed. cbn [fst snd]. now rewrite app_nil_r.
Qed.
