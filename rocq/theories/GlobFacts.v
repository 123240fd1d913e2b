(** * Facts about the glob language of the JDK *)

From Verif Require Import SpecGlob PathFacts RenderFacts LayoutFacts MatcherFacts PointFacts.
From Coq Require Import Lia.
Close Scope Z_scope.

(** ** Matching *)

Lemma gitem_ind' (Q : gitem -> Prop) :
  (forall c, Q (GLit c)) -> Q GOne -> Q GName -> Q GAny -> (forall n r, Q (GClass n r)) ->
  (forall alts, Forall (Forall Q) alts -> Q (GAlt alts)) -> forall i, Q i.
Proof.
  intros Hl Ho Hn Ha Hc Hg. fix IH 1. intros [c| | | |n r|alts]; [apply Hl|exact Ho|exact Hn|exact Ha|apply Hc|].
  apply Hg. induction alts as [|l alts IHa]; constructor; [|exact IHa].
  induction l as [|i l IHl]; constructor; [apply IH|exact IHl].
Qed.

Lemma remainders_spec ok r : forall s, In r (remainders ok s) <-> exists a, s = a ++ r /\ Forall (fun c => ok c = true) a.
Proof.
  induction s as [|c s IH]; cbn.
  - split.
    + intros [<-|[]]. exists []. now split.
    + intros ([|x a] & E & _); [left; exact E|discriminate].
  - split.
    + intros [<-|H]; [exists []; now split|]. destruct (ok c) eqn:Ec; [|destruct H]. apply IH in H as (a & -> & Ha). exists (c :: a).
      split; [reflexivity|]. now constructor.
    + intros ([|x a] & E & Ha); [left; exact E|]. injection E as <- ->. inversion Ha as [|? ? Hc Ha']; subst. right. rewrite Hc. apply IH.
      exists a. now split.
Qed.

Lemma not_slash_iff c : not_slash c = true <-> c <> c_slash.
Proof. unfold not_slash. rewrite negb_true_iff, N.eqb_neq. reflexivity. Qed.

Lemma not_slashes s : Forall (fun c => not_slash c = true) s <-> ~ In c_slash s.
Proof.
  rewrite Forall_forall. split.
  - intros H Hin. apply H in Hin. now apply not_slash_iff in Hin.
  - intros H c Hc. apply not_slash_iff. intros ->. contradiction.
Qed.

Lemma in_ranges_spec ranges c : in_ranges ranges c = true <-> exists a b, In (a, b) ranges /\ (a <= c <= b)%N.
Proof.
  unfold in_ranges. rewrite existsb_exists. split.
  - intros ([a b] & H & Hc). cbn in Hc. apply andb_true_iff in Hc as [H1 H2]. apply N.leb_le in H1, H2. exists a, b. repeat split; assumption.
  - intros (a & b & H & H1 & H2). exists (a, b). split; [exact H|]. cbn. apply andb_true_iff. split; now apply N.leb_le.
Qed.

Definition item_ok (i : gitem) : Prop := forall s r, In r (after_item i s) <-> exists a, s = a ++ r /\ in_item i a.

Lemma items_ok l : Forall item_ok l -> forall s r, In r (after_items l s) <-> exists a, s = a ++ r /\ in_items l a.
Proof.
  induction 1 as [|i l Hi Hl IH]; intros s r.
  - cbn. split.
    + intros [<-|[]]. exists []. split; [reflexivity|constructor].
    + intros (a & -> & H). inversion H; subst. now left.
  - cbn [after_items]. rewrite in_flat_map. split.
    + intros (t & Ht & Hr). apply Hi in Ht as (a & -> & Ha). apply IH in Hr as (b & -> & Hb). exists (a ++ b). split; [apply app_assoc|].
      now constructor.
    + intros (ab & -> & H). inversion H as [|? ? a b Ha Hb]; subst. exists (b ++ r). split; [apply Hi; exists a; split; [now rewrite app_assoc|exact Ha]|].
      apply IH. exists b. now split.
Qed.

Lemma after_alt alts s : after_item (GAlt alts) s = flat_map (fun l => after_items l s) alts.
Proof. reflexivity. Qed.

Lemma all_items_ok : forall i, item_ok i.
Proof.
  induction i as [c| | | |n ranges|alts H] using gitem_ind'; intros s r.
  - cbn. split.
    + destruct s as [|x s]; [intros []|]. destruct (N.eqb_spec x c) as [->|]; [|intros []]. intros [<-|[]]. exists [c]. split; [reflexivity|constructor].
    + intros (a & -> & H). inversion H; subst. cbn. rewrite N.eqb_refl. now left.
  - cbn. split.
    + destruct s as [|x s]; [intros []|]. destruct (not_slash x) eqn:E; [|intros []]. intros [<-|[]]. exists [x]. split; [reflexivity|].
      constructor. now apply not_slash_iff.
    + intros (a & -> & H). inversion H; subst. cbn. apply not_slash_iff in H0. rewrite H0. now left.
  - cbn [after_item]. rewrite remainders_spec. split; intros (a & -> & H); exists a; (split; [reflexivity|]).
    + constructor. now apply not_slashes.
    + inversion H; subst. now apply not_slashes.
  - cbn [after_item]. rewrite remainders_spec. split; intros (a & -> & H); exists a; (split; [reflexivity|]).
    + constructor. eapply Forall_impl; [|exact H]. intros c Hc. now apply negb_true_iff.
    + inversion H as [| | |? Ha| | |]; subst. eapply Forall_impl; [|exact Ha]. intros c Hc. now apply negb_true_iff.
  - cbn. split.
    + destruct s as [|x s]; [intros []|]. destruct (not_slash x && xorb n (in_ranges ranges x)) eqn:E; [|intros []]. intros [<-|[]]. exists [x].
      split; [reflexivity|]. apply andb_true_iff in E as [E1 E2]. apply not_slash_iff in E1. destruct n; cbn in E2.
      * apply ii_out; [exact E1|]. intros a b Hin Hab. destruct (in_ranges ranges x) eqn:Er; [discriminate|].
        assert (in_ranges ranges x = true) by (apply in_ranges_spec; now exists a, b). congruence.
      * assert (in_ranges ranges x = true) as Er by (destruct (in_ranges ranges x); [reflexivity|discriminate]).
        apply in_ranges_spec in Er as (a & b & Hin & Hab). eapply ii_in; eassumption.
    + intros (a & -> & H). inversion H as [| | | |? c x y Hc Hin Hxy|? c Hc Hout|]; subst; cbn; apply not_slash_iff in Hc; rewrite Hc; cbn.
      * assert (in_ranges ranges c = true) as -> by (apply in_ranges_spec; now exists x, y). now left.
      * destruct (in_ranges ranges c) eqn:Er; [|now left]. apply in_ranges_spec in Er as (x & y & Hin & Hxy). now apply Hout in Hxy.
  - rewrite after_alt, in_flat_map. rewrite Forall_forall in H. split.
    + intros (l & Hl & Hr). apply (items_ok l (H l Hl)) in Hr as (a & -> & Ha). exists a. split; [reflexivity|]. eapply ii_alt; eassumption.
    + intros (a & -> & Ha). inversion Ha as [| | | | | |? l ? Hl Hs]; subst. exists l. split; [exact Hl|]. apply (items_ok l (H l Hl)). exists a. now split.
Qed.

Lemma glob_matches_iff l s : glob_matches l s = true <-> in_items l s.
Proof.
  unfold glob_matches. rewrite existsb_exists. split.
  - intros (r & Hr & E). destruct r; [|discriminate]. apply items_ok in Hr as (a & -> & H); [now rewrite app_nil_r|]. apply Forall_forall. intros. apply all_items_ok.
  - intro H. exists []. split; [|reflexivity]. apply items_ok; [apply Forall_forall; intros; apply all_items_ok|]. exists s. now rewrite app_nil_r.
Qed.

Lemma in_items_app l1 l2 s : in_items (l1 ++ l2) s <-> exists a b, s = a ++ b /\ in_items l1 a /\ in_items l2 b.
Proof.
  revert s. induction l1 as [|i l1 IH]; intro s; cbn.
  - split; [intro H; exists [], s; repeat split; [constructor|exact H]|]. intros (a & b & -> & H1 & H2). inversion H1; subst. exact H2.
  - split.
    + intro H. inversion H as [|? ? a b Ha Hb]; subst. apply IH in Hb as (c & d & -> & Hc & Hd). exists (a ++ c), d. split; [apply app_assoc|].
      split; [now constructor|exact Hd].
    + intros (a & b & -> & H1 & H2). inversion H1 as [|? ? x y Hx Hy]; subst. rewrite <- app_assoc. constructor; [exact Hx|]. apply IH. now exists y, b.
Qed.

Lemma in_lits s t : in_items (map GLit s) t <-> t = s.
Proof.
  revert t. induction s as [|c s IH]; intro t; cbn.
  - split; [intro H; inversion H; reflexivity|intros ->; constructor].
  - split.
    + intro H. inversion H as [|? ? a b Ha Hb]; subst. inversion Ha; subst. apply IH in Hb as ->. reflexivity.
    + intros ->. apply (is_next (GLit c) (map GLit s) [c] s); [constructor|now apply IH].
Qed.

(** ** Code points *)

Lemma slash_whole : whole_unit c_slash.
Proof. unfold whole_unit, high_half, low_half, c_slash. lia. Qed.

Lemma in_slash s : In c_slash (points s) <-> In c_slash s.
Proof. apply in_points, slash_whole. Qed.

Lemma term_in s : no_terminator s <-> forall c, In c [10; 13; 133; 8232; 8233]%N -> ~ In c s.
Proof.
  unfold no_terminator. rewrite Forall_forall. split.
  - intros H c Hc Hs. specialize (H c Hs). unfold is_line_terminator in H. assert (existsb (N.eqb c) [10; 13; 133; 8232; 8233]%N = true); [|congruence].
    apply existsb_exists. exists c. split; [exact Hc|apply N.eqb_refl].
  - intros H c Hs. destruct (is_line_terminator c) eqn:E; [|reflexivity]. apply existsb_exists in E as (d & Hd & E). apply N.eqb_eq in E as <-.
    exfalso. exact (H c Hd Hs).
Qed.

Lemma term_points s : no_terminator (points s) <-> no_terminator s.
Proof.
  rewrite !term_in. split; intros H c Hc; specialize (H c Hc); assert (W : whole_unit c)
    by (unfold whole_unit, high_half, low_half; cbn in Hc; intuition (subst; lia)); now rewrite (in_points c W) in *.
Qed.

Lemma pair_lits_lits : forall s, pair_lits (map GLit s) = map GLit (points s).
Proof.
  induction s as [|c d s E IH|c s E IH] using text_ind; [reflexivity| |].
  - rewrite (points_pair _ _ _ E). cbn. unfold pairs in E. rewrite E. cbn. now f_equal.
  - rewrite (points_lone _ _ E). destruct s as [|d s]; [reflexivity|]. cbn [map pair_lits] in *. cbn in E. unfold pairs in E. rewrite E. now f_equal.
Qed.

(** Items that are no half of a character. *)
Definition solid (i : gitem) : Prop := match i with GLit c => whole_unit c | _ => True end.

Lemma pair_lone c l : (match l with GLit d :: _ => pairs c d = false | _ => True end) -> pair_lits (GLit c :: l) = GLit (lone c) :: pair_lits l.
Proof. destruct l as [|[d| | | | |] l]; try reflexivity. intro H. cbn [pair_lits]. unfold pairs in H. now rewrite H. Qed.

Lemma pair_solid i l : solid i -> pair_lits (i :: l) = i :: pair_lits l.
Proof.
  destruct i as [c| | | | |]; try reflexivity. intro H. rewrite pair_lone.
  - now rewrite lone_unit by apply H.
  - destruct l as [|[d| | | | |] l]; try exact I. exact (whole_lone c [d] H).
Qed.

Lemma pair_until : forall s i r, solid i -> pair_lits (map GLit s ++ i :: r) = map GLit (points s) ++ i :: pair_lits r.
Proof.
  induction s as [|c d s E IH|c s E IH] using text_ind; intros i r H.
  - cbn [map app points]. now apply pair_solid.
  - rewrite (points_pair _ _ _ E). cbn [map app pair_lits]. unfold pairs in E. rewrite E. now rewrite IH.
  - rewrite (points_lone _ _ E). cbn [map app]. rewrite pair_lone; [now rewrite IH|]. destruct s as [|d s]; [|exact E].
    cbn [map app]. destruct i as [d| | | | |]; try exact I. exact (apart_whole [c] d [] H [] c d [] eq_refl eq_refl).
Qed.

Lemma pair_item_lits s : map pair_item (map GLit s) = map GLit s.
Proof. rewrite map_map. reflexivity. Qed.

Lemma lits_points s t : in_items (map GLit (points s)) (points t) <-> t = s.
Proof. rewrite in_lits. split; [apply points_inj|now intros ->]. Qed.

(** ** Reading *)

Lemma read_plain c : ~ glob_special c -> forall f s acc,
  parse_glob (S f) (c :: s) (mkPartial acc None) = parse_glob f s (mkPartial (GLit c :: acc) None).
Proof.
  intros H f s acc. unfold glob_special in H.
  destruct c as [|p]; [reflexivity|].
  do 7 (try (destruct p as [p|p|]; try reflexivity)); exfalso; apply H; cbn; tauto.
Qed.

Lemma read_plains s : verbatim s -> forall f t acc,
  parse_glob (length s + f) (s ++ t) (mkPartial acc None) = parse_glob f t (mkPartial (rev (map GLit s) ++ acc) None).
Proof.
  induction 1 as [|c s Hc Hs IH]; intros f t acc; [reflexivity|]. cbn [length app plus]. rewrite (read_plain c Hc), IH. cbn [map rev].
  now rewrite <- app_assoc.
Qed.

Lemma read_escaped s : forall f t acc,
  parse_glob (length s + f) (escaped s ++ t) (mkPartial acc None) = parse_glob f t (mkPartial (rev (map GLit s) ++ acc) None).
Proof.
  induction s as [|c s IH]; intros f t acc; [reflexivity|].
  transitivity (parse_glob (length s + f) (escaped s ++ t) (mkPartial (GLit c :: acc) None)); [reflexivity|]. rewrite IH. cbn [map rev].
  now rewrite <- app_assoc.
Qed.

Lemma read_end f acc : parse_glob (S f) [] (mkPartial acc None) = Some (rev acc).
Proof. reflexivity. Qed.

Lemma read_star f s acc : hd_error s <> Some 42%N ->
  parse_glob (S f) (42%N :: s) (mkPartial acc None) = parse_glob f s (mkPartial (GName :: acc) None).
Proof.
  destruct s as [|c s]; [reflexivity|]. intro H. destruct (N.eq_dec c 42) as [->|Hc]; [now contradict H|].
  destruct c as [|p]; [reflexivity|]. do 6 (try (destruct p as [p|p|]; try reflexivity)). now contradict Hc.
Qed.

Lemma read_stars f s acc :
  parse_glob (S f) (42%N :: 42%N :: s) (mkPartial acc None) = parse_glob f s (mkPartial (GAny :: acc) None).
Proof. reflexivity. Qed.

Fixpoint piece_items (pieces : list jstring) : list gitem :=
  match pieces with
  | [] => []
  | [x] => map GLit x
  | x :: l => map GLit x ++ GName :: piece_items l
  end.

Lemma pair_pieces : forall pieces, pair_items (piece_items pieces) = piece_items (map points pieces).
Proof.
  unfold pair_items. induction pieces as [|x l IH]; [reflexivity|]. destruct l as [|y r].
  - cbn [piece_items map]. now rewrite pair_lits_lits, pair_item_lits.
  - change (piece_items (x :: y :: r)) with (map GLit x ++ GName :: piece_items (y :: r)).
    change (piece_items (map points (x :: y :: r))) with (map GLit (points x) ++ GName :: piece_items (map points (y :: r))).
    rewrite pair_until by exact I. rewrite map_app, pair_item_lits. cbn [map pair_item]. now rewrite IH.
Qed.

Lemma pieces_tail x y r : pieces_ok (x :: y :: r) -> pieces_ok (y :: r) /\ (r <> [] -> y <> []).
Proof.
  intros [H1 H2]. inversion H1 as [|? ? Hx Hr]; subst. split; [split; [exact Hr|]|].
  - intros l a b t E Hl. apply (H2 (x :: l) a b t); [cbn; now rewrite E|discriminate].
  - intro Hne. destruct r as [|z r]; [now contradict Hne|]. apply (H2 [x] y z r); [reflexivity|discriminate].
Qed.

Lemma gaps_points : forall pieces s, pieces_ok pieces -> Forall paired pieces -> with_gaps (map points pieces) (points s) <-> with_gaps pieces s.
Proof.
  induction pieces as [|x l IH]; intros s Hok H; [split; inversion 1|]. assert (Hok' : l <> [] -> pieces_ok l) by (destruct l; [congruence|]; intros _; now apply pieces_tail in Hok).
  inversion H as [|? ? Hx Hl]; subst. cbn [map]. split; intro G.
  - inversion G as [x' E1 E2|x' gap l' t Ht E1 E2]; subst.
    + destruct l; [|discriminate]. apply points_inj in E2 as ->. constructor.
    + symmetry in E2. apply points_start in E2 as (b & -> & E2). apply points_split in E2 as (g & t' & -> & <- & <-). apply fl_more. apply IH; [apply Hok'; intros ->; inversion Ht|exact Hl|exact Ht].
  - inversion G as [x' E1 E2|x' gap l' t Ht E1 E2]; subst; [constructor|].
    rewrite (points_app _ _ (apart_after x _ Hx)). destruct l as [|y l]; [inversion Ht|].
    assert (A : apart gap t).
    { inversion Hl as [|? ? Hy _]; subst. inversion Ht as [y'|y' g' l' t' Ht']; subst; [now apply apart_before|].
      destruct y as [|c y]; [|intros u v d z E1 E2; injection E2 as <- _; now apply (apart_before gap (c :: y) Hy u v c y)].
      destruct (pieces_tail _ _ _ Hok) as [_ Hn]. exfalso. apply Hn; [intros ->; inversion Ht'|reflexivity]. }
    rewrite (points_app _ _ A). apply fl_more. apply IH; [apply Hok'; discriminate|exact Hl|exact Ht].
Qed.

Lemma plain_head s t : verbatim s -> s <> [] -> hd_error (s ++ t) <> Some 42%N.
Proof.
  intros H Hs. destruct s as [|c s]; [now contradict Hs|]. inversion H as [|? ? Hc _]; subst. intro E. injection E as ->. apply Hc. cbn. tauto.
Qed.

Lemma read_pieces : forall pieces, pieces <> [] -> pieces_ok pieces -> forall f acc, length (join [42%N] pieces) < f ->
  parse_glob f (join [42%N] pieces) (mkPartial acc None) = Some (rev acc ++ piece_items pieces).
Proof.
  induction pieces as [|x l IH]; intros Hne Hok f acc Hf; [now contradict Hne|]. destruct l as [|y r].
  - cbn [join piece_items] in *. destruct Hok as [Hp _]. inversion Hp as [|? ? Hx _]; subst.
    replace f with (length x + S (f - S (length x))) by lia. pose proof (read_plains x Hx (S (f - S (length x))) [] acc) as E. rewrite app_nil_r in E. rewrite E, read_end.
    f_equal. rewrite rev_app_distr, rev_involutive. reflexivity.
  - destruct (pieces_tail x y r Hok) as [Hok' Hy]. destruct Hok as [Hp _]. inversion Hp as [|? ? Hx Hp']; subst.
    inversion Hp' as [|? ? Hpy _]; subst.
    change (join [42%N] (x :: y :: r)) with (x ++ 42%N :: join [42%N] (y :: r)) in *. rewrite app_length in Hf. cbn [length] in Hf.
    replace f with (length x + S (f - S (length x))) by lia. rewrite (read_plains x Hx). rewrite read_star.
    + rewrite IH; [|discriminate|exact Hok'|lia]. f_equal. cbn [rev piece_items].
      destruct r; rewrite rev_app_distr, rev_involutive, <- !app_assoc; reflexivity.
    + destruct r as [|z r].
      * cbn [join]. destruct y as [|c y]; [discriminate|]. rewrite <- (app_nil_r (c :: y)). apply plain_head; [exact Hpy|discriminate].
      * apply plain_head; [exact Hpy|]. apply Hy. discriminate.
Qed.

Lemma in_pieces : forall pieces s, pieces <> [] -> ~ In c_slash s -> in_items (piece_items pieces) s <-> with_gaps pieces s.
Proof.
  induction pieces as [|x l IH]; intros s Hne Hs; [now contradict Hne|]. destruct l as [|y r].
  - cbn [piece_items]. rewrite in_lits. split; [intros ->; constructor|]. intro H. inversion H as [|? ? ? ? H']; subst; [reflexivity|inversion H'].
  - change (piece_items (x :: y :: r)) with (map GLit x ++ GName :: piece_items (y :: r)). rewrite in_items_app. split.
    + intros (a & b & -> & Ha & Hb). apply in_lits in Ha as ->. inversion Hb as [|? ? gap t Hg Ht]; subst. apply fl_more. apply IH; [discriminate| |exact Ht].
      intro Hin. apply Hs. rewrite !in_app_iff. tauto.
    + intro H. inversion H as [|? gap ? t Ht]; subst. exists x, (gap ++ t). split; [reflexivity|]. split; [now apply in_lits|]. constructor.
      * constructor. intro Hin. apply Hs. rewrite !in_app_iff. tauto.
      * apply IH; [discriminate| |exact Ht]. intro Hin. apply Hs. rewrite !in_app_iff. tauto.
Qed.

(** ** Globs that need a '/' *)

Lemma reads_slash : forall f s acc l, ~ In 91%N s -> ~ In 123%N s -> parse_glob f s (mkPartial acc None) = Some l ->
  exists l', l = rev acc ++ l' /\ (In 47%N s -> In (GLit 47%N) l').
Proof.
  induction f as [|f IH]; intros s acc l H1 H2 E; [discriminate|].
  assert (add : forall c s', ~ In 91%N s' -> ~ In 123%N s' -> parse_glob f s' (mkPartial (GLit c :: acc) None) = Some l ->
    exists l', l = rev acc ++ l' /\ (47%N = c \/ In 47%N s' -> In (GLit 47%N) l')).
  { intros c s' G1 G2 G. destruct (IH s' (GLit c :: acc) l G1 G2 G) as (l' & -> & Hin). exists (GLit c :: l'). cbn [rev]. rewrite <- app_assoc.
    split; [reflexivity|]. intros [<-|H]; [now left|right; now apply Hin]. }
  assert (skip : forall i s', ~ In 91%N s' -> ~ In 123%N s' -> parse_glob f s' (mkPartial (i :: acc) None) = Some l ->
    exists l', l = rev acc ++ l' /\ (In 47%N s' -> In (GLit 47%N) l')).
  { intros i s' G1 G2 G. destruct (IH s' (i :: acc) l G1 G2 G) as (l' & -> & Hin). exists (i :: l'). cbn [rev]. rewrite <- app_assoc.
    split; [reflexivity|]. intro H. right. now apply Hin. }
  destruct s as [|c s]; [injection E as <-; exists []; rewrite app_nil_r; split; [reflexivity|intros []]|].
  assert (G1 : ~ In 91%N s) by (intro; apply H1; now right). assert (G2 : ~ In 123%N s) by (intro; apply H2; now right).
  destruct (N.eq_dec c 91) as [->|N1]; [exfalso; apply H1; now left|]. destruct (N.eq_dec c 123) as [->|N2]; [exfalso; apply H2; now left|].
  destruct (N.eq_dec c 92) as [->|N3].
  { destruct s as [|d s]; [discriminate|]. destruct (add d s) as (l' & El & Hin); [intro; apply G1; now right|intro; apply G2; now right|exact E|].
    exists l'. split; [exact El|]. intros [H|[H|H]]; [discriminate|apply Hin; left; congruence|apply Hin; now right]. }
  destruct (N.eq_dec c 42) as [->|N4].
  { destruct (hd_error s) as [d|] eqn:Hd; [destruct (N.eq_dec d 42) as [->|]|].
    - destruct s as [|d s]; [discriminate|]. injection Hd as ->. rewrite read_stars in E.
      destruct (skip GAny s) as (l' & El & Hin); [intro; apply G1; now right|intro; apply G2; now right|exact E|].
      exists l'. split; [exact El|]. intros [H|[H|H]]; [discriminate|discriminate|now apply Hin].
    - rewrite read_star in E by congruence. destruct (skip GName s G1 G2 E) as (l' & El & Hin). exists l'. split; [exact El|].
      intros [H|H]; [discriminate|now apply Hin].
    - rewrite read_star in E by congruence. destruct (skip GName s G1 G2 E) as (l' & El & Hin). exists l'. split; [exact El|].
      intros [H|H]; [discriminate|now apply Hin]. }
  destruct (N.eq_dec c 63) as [->|N5].
  { destruct (skip GOne s G1 G2 E) as (l' & El & Hin). exists l'. split; [exact El|]. intros [H|H]; [discriminate|now apply Hin]. }
  rewrite read_plain in E by (cbn; intuition congruence). destruct (add c s G1 G2 E) as (l' & El & Hin). exists l'. split; [exact El|].
  intros [H|H]; apply Hin; [left; congruence|now right].
Qed.

Lemma in_items_lit c l s : In (GLit c) l -> in_items l s -> In c s.
Proof.
  intros Hin H. induction H as [|i l a b Ha Hb IH]; [destruct Hin|]. rewrite in_app_iff. destruct Hin as [->|Hin]; [|right; now apply IH].
  left. inversion Ha; subst. now left.
Qed.

Lemma pair_keeps c l : whole_unit c -> In (GLit c) l -> In (GLit c) (pair_items l).
Proof.
  intros H Hin. unfold pair_items. apply in_map_iff. exists (GLit c). split; [reflexivity|].
  assert (A : forall n l, length l <= n -> In (GLit c) l -> In (GLit c) (pair_lits l)).
  { clear l Hin. induction n as [|n IH]; intros l Hl Hin; [destruct l; [destruct Hin|cbn in Hl; lia]|]. destruct l as [|i l]; [destruct Hin|]. cbn in Hl.
    destruct i as [x| | | | |]; try (destruct Hin as [Hin|Hin]; [discriminate|right; apply IH; [lia|exact Hin]]).
    destruct Hin as [E|Hin]; [injection E as ->; rewrite (pair_solid (GLit c) l H); now left|].
    assert (B : In (GLit c) (GLit (lone x) :: pair_lits l)) by (right; apply IH; [lia|exact Hin]).
    destruct l as [|[d| | | | |] l]; try exact B. cbn [pair_lits] in B |- *. destruct (is_high x && is_low d) eqn:E; [|exact B].
    cbn in Hl. right. apply IH; [lia|]. destruct Hin as [Hin|Hin]; [|exact Hin]. injection Hin as ->. apply andb_true_iff in E as [_ E].
    apply is_low_iff in E. now destruct H as (_ & _ & H). }
  now apply (A (length l)).
Qed.

Lemma needs_slash g f p : In c_slash g -> ~ In 91%N g -> ~ In 123%N g -> jdk_glob g = Some f -> f p = true -> In c_slash (path_str p).
Proof.
  intros Hs H1 H2 E Hf. unfold jdk_glob, read_glob in E. destruct (parse_glob _ g _) as [l|] eqn:El; [|discriminate]. injection E as <-.
  destruct (reads_slash _ _ _ _ H1 H2 El) as (l' & -> & Hin). apply glob_matches_iff in Hf. apply in_slash. eapply in_items_lit; [|exact Hf].
  apply pair_keeps; [exact slash_whole|exact (Hin Hs)].
Qed.


(** ** Names joined by '/' *)

Lemma first_slash a b x y : ~ In c_slash a -> ~ In c_slash x -> a ++ c_slash :: b = x ++ c_slash :: y -> a = x /\ b = y.
Proof.
  revert x. induction a as [|c a IH]; intros [|d x] Ha Hx E; cbn in E.
  - injection E as ->. now split.
  - injection E as <- _. exfalso. apply Hx. now left.
  - injection E as -> _. exfalso. apply Ha. now left.
  - injection E as -> E. destruct (IH x) as [-> ->]; [intro; apply Ha; now right|intro; apply Hx; now right|exact E|]. now split.
Qed.

Lemma slashed_prefix rest : rest <> [] -> Forall good_name rest -> forall names t, Forall good_name names ->
  slashed rest ++ c_slash :: t = slashed names -> exists r, r <> [] /\ names = rest ++ r /\ t = slashed r.
Proof.
  unfold slashed. induction rest as [|x rest IH]; intros Hne Hg names t Hn E; [now contradict Hne|]. inversion Hg as [|? ? [_ Hx] Hr]; subst.
  destruct names as [|y names]; [destruct rest; destruct x; discriminate|]. inversion Hn as [|? ? [_ Hy] Hn']; subst.
  destruct names as [|z names].
  - exfalso. cbn [join] in E. apply Hy. rewrite <- E. destruct rest; rewrite ?join_cons by discriminate; rewrite !in_app_iff; cbn; tauto.
  - rewrite (join_cons _ y) in E by discriminate. cbn [app] in E. destruct rest as [|x' rest].
    + cbn [join] in E. apply first_slash in E as [-> ->]; [|exact Hx|exact Hy]. exists (z :: names). split; [discriminate|]. now split.
    + rewrite (join_cons _ x) in E by discriminate. rewrite <- app_assoc in E. cbn [app] in E. apply first_slash in E as [-> E]; [|exact Hx|exact Hy].
      destruct (IH ltac:(discriminate) Hr (z :: names) t Hn' E) as (r & H1 & H2 & H3). exists r. split; [exact H1|]. split; [cbn; now f_equal|exact H3].
Qed.

Lemma slashed_inj a b : Forall good_name a -> Forall good_name b -> slashed a = slashed b -> a = b.
Proof.
  unfold slashed. revert b. induction a as [|x a IH]; intros [|y b] Ha Hb E; [reflexivity| | |].
  - inversion Hb as [|? ? [Hy _] _]; subst. exfalso. apply Hy. destruct b; [now symmetry|]. rewrite join_cons in E by discriminate. now destruct y.
  - inversion Ha as [|? ? [Hx _] _]; subst. exfalso. apply Hx. destruct a; [exact E|]. rewrite join_cons in E by discriminate. now destruct x.
  - inversion Ha as [|? ? [Hx1 Hx] Ha']; subst. inversion Hb as [|? ? [Hy1 Hy] Hb']; subst. destruct a as [|x' a], b as [|y' b].
    + cbn [join] in E. now subst.
    + rewrite (join_cons _ y) in E by discriminate. cbn [join app] in E. exfalso. apply Hx. rewrite E, in_app_iff. cbn. tauto.
    + rewrite (join_cons _ x) in E by discriminate. cbn [join app] in E. exfalso. apply Hy. rewrite <- E, in_app_iff. cbn. tauto.
    + rewrite !join_cons in E by discriminate. cbn [app] in E. apply first_slash in E as [-> E]; [|exact Hx|exact Hy]. f_equal. now apply IH.
Qed.

Lemma real_good l : Forall real_name l -> Forall good_name l.
Proof. intro H. eapply Forall_impl; [|exact H]. intros n Hn. apply Hn. Qed.

Lemma dots_good (x : list jstring) : Forall good_name (map (fun _ => n_dotdot) x).
Proof. induction x; constructor; [|assumption]. split; [discriminate|]. intros [H|[H|[]]]; discriminate. Qed.

Lemma rel_names R L : exists common x y, R = common ++ x /\ L = common ++ y /\ relativize_names R L = map (fun _ => n_dotdot) x ++ y.
Proof.
  destruct (common_prefix R L) as (c & x & y & -> & -> & H). exists c, x, y. split; [reflexivity|]. split; [reflexivity|]. apply relativize_names_spec. destruct x; exact H.
Qed.

Lemma rel_good R L : Forall real_name L -> Forall good_name (relativize_names R L).
Proof.
  intro H. destruct (rel_names R L) as (c & x & y & -> & -> & ->). apply Forall_app. split; [apply dots_good|]. apply Forall_app in H. now apply real_good.
Qed.

(** What lies below the reference has the remaining names; what does not starts with "..". *)
Lemma rel_under R L rest : (rest = [] \/ exists x l, rest = x :: l /\ x <> n_dotdot) -> relativize_names R L = rest <-> L = R ++ rest.
Proof.
  intro Hd. split; [|intros ->; apply relativize_names_under]. destruct (rel_names R L) as (c & x & y & -> & -> & E). rewrite E. intro H.
  destruct x as [|a x]; [cbn in H; subst y; now rewrite app_nil_r|]. cbn in H. destruct Hd as [->|(z & l & -> & Hz)]; [discriminate|]. now injection H as <- _.
Qed.

(** ** Reading literal globs *)

Lemma read_literal g s : literal g s -> forall f t acc, length g + length t < f ->
  exists f', length t < f' /\ parse_glob f (g ++ t) (mkPartial acc None) = parse_glob f' t (mkPartial (rev (map GLit s) ++ acc) None).
Proof.
  induction 1 as [|c g s Hc Hl IH|c g s Hl IH]; intros f t acc Hf.
  - exists f. split; [exact Hf|reflexivity].
  - cbn in Hf. destruct f as [|f]; [lia|]. cbn [app]. rewrite (read_plain c Hc). destruct (IH f t (GLit c :: acc) ltac:(lia)) as (f' & H1 & ->).
    exists f'. split; [exact H1|]. cbn [map rev]. now rewrite <- app_assoc.
  - cbn in Hf. destruct f as [|f]; [lia|]. change ((92%N :: c :: g) ++ t) with (92%N :: c :: (g ++ t)).
    change (parse_glob (S f) (92%N :: c :: (g ++ t)) (mkPartial acc None)) with (parse_glob f (g ++ t) (mkPartial (GLit c :: acc) None)).
    destruct (IH f t (GLit c :: acc) ltac:(lia)) as (f' & H1 & ->). exists f'. split; [exact H1|]. cbn [map rev]. now rewrite <- app_assoc.
Qed.

Lemma literal_head g s t : literal g s -> g <> [] -> hd_error (g ++ t) <> Some 42%N.
Proof.
  intros H Hne E. inversion H as [|c g' s' Hc _|]; subst; [now contradict Hne| |discriminate]. injection E as ->. apply Hc. cbn. tauto.
Qed.

Lemma literal_star g s : literal g s -> g <> s_star.
Proof. intros H ->. apply (literal_head _ _ [] H); [discriminate|reflexivity]. Qed.

Lemma verbatim_literal s : verbatim s -> literal s s.
Proof. induction 1 as [|c s Hc Hs IH]; constructor; assumption. Qed.

Lemma escaped_literal s : literal (escaped s) s.
Proof. induction s as [|c s IH]; [constructor|]. now apply (lit_escaped c) in IH. Qed.

Lemma jdk_literal g s : literal g s -> exists f, jdk_glob g = Some f /\ forall p, f p = true <-> path_str p = s.
Proof.
  intro H. unfold jdk_glob, read_glob. destruct (read_literal g s H (S (length g)) [] [] ltac:(cbn; lia)) as (f' & Hf & E).
  rewrite app_nil_r in E. rewrite E. destruct f' as [|f']; [cbn in Hf; lia|]. rewrite read_end. eexists. split; [reflexivity|].
  intro p. rewrite glob_matches_iff, app_nil_r, rev_involutive. unfold pair_items. rewrite pair_lits_lits, pair_item_lits. apply lits_points.
Qed.

(** A text and [/**]. *)
Lemma jdk_below g s : literal g s -> exists f, jdk_glob (g ++ js "/**") = Some f /\
  forall p, f p = true <-> exists t, path_str p = s ++ c_slash :: t /\ no_terminator t.
Proof.
  intro H. unfold jdk_glob, read_glob. destruct (read_literal g s H (S (length (g ++ js "/**"))) (js "/**") [] ltac:(rewrite app_length; lia)) as (f' & Hf & E).
  rewrite E. cbn in Hf. do 4 (destruct f' as [|f']; [lia|]).
  change (js "/**") with (47 :: 42 :: [42])%N. rewrite read_plain by (cbn; intuition discriminate). rewrite read_stars, read_end.
  eexists. split; [reflexivity|]. intro p. rewrite glob_matches_iff. cbn [rev]. rewrite <- !app_assoc, app_nil_r, rev_involutive. cbn [app].
  unfold pair_items. rewrite pair_until by exact slash_whole. rewrite map_app, pair_item_lits, in_items_app. cbn [map pair_item pair_lits]. split.
  - intros (a & b & Eq & Ha & Hb). apply in_lits in Ha as ->. apply points_start in Eq as (b' & -> & <-).
    inversion Hb as [|? ? x y Hx Hy E1 E2]; subst. inversion Hx; subst. inversion Hy as [|? ? t z Ht Hz]; subst.
    inversion Hz; subst. inversion Ht; subst. rewrite app_nil_r in *. symmetry in E2. apply points_cons in E2 as (t' & -> & <-); [|exact slash_whole].
    exists t'. split; [reflexivity|now apply term_points].
  - intros (t & -> & Ht). exists (points s), (c_slash :: points t). split; [apply points_at, slash_whole|]. split; [now apply in_lits|].
    apply (is_next (GLit 47%N) _ [47%N] (points t)); [constructor|].
    rewrite <- (app_nil_r (points t)). constructor; [constructor; now apply term_points|constructor].
Qed.

(** The glob [**/*] and a text. *)
Lemma jdk_deep g s : literal g s -> paired s -> exists f, jdk_glob (js "**/*" ++ g) = Some f /\
  forall p, f p = true <-> exists a b, path_str p = a ++ c_slash :: b ++ s /\ no_terminator a /\ ~ In c_slash b.
Proof.
  intros H Hs. unfold jdk_glob, read_glob. change (js "**/*" ++ g) with (42 :: 42 :: 47 :: 42 :: g)%N. rewrite read_stars. cbn [length].
  rewrite read_plain by (cbn; intuition discriminate). rewrite read_star.
  2:{ destruct g as [|c g]; [discriminate|]. rewrite <- (app_nil_r (c :: g)). apply (literal_head _ _ [] H). discriminate. }
  destruct (read_literal g s H (S (S (length g))) [] [GName; GLit 47%N; GAny] ltac:(cbn; lia)) as (f' & Hf & E).
  rewrite app_nil_r in E. rewrite E. destruct f' as [|f']; [cbn in Hf; lia|]. rewrite read_end. eexists. split; [reflexivity|].
  intro p. rewrite glob_matches_iff, rev_app_distr, rev_involutive. cbn [rev app].
  unfold pair_items. cbn [pair_lits]. rewrite pair_lits_lits. cbn [map pair_item]. rewrite pair_item_lits. split.
  - intro K. inversion K as [|? ? a r1 Ha K1 E1 E2]; subst. inversion K1 as [|? ? x r2 Hx K2]; subst. inversion K2 as [|? ? b r3 Hb K3]; subst.
    apply in_lits in K3 as ->. inversion Ha; subst. inversion Hx; subst. inversion Hb; subst.
    symmetry in E2. apply points_split in E2 as (a' & r & -> & <- & E2). apply points_cons in E2 as (r' & -> & E2); [|exact slash_whole].
    apply points_end in E2 as (b' & -> & <-). exists a', b'. split; [reflexivity|]. split; [now apply term_points|now rewrite <- in_slash].
  - intros (a & b & -> & Ha & Hb). rewrite (points_at _ _ _ slash_whole), (points_app _ _ (apart_before b s Hs)).
    apply is_next; [constructor; now apply term_points|]. apply (is_next (GLit 47%N) _ [47%N]); [constructor|].
    apply is_next; [constructor; now rewrite in_slash|]. now apply in_lits.
Qed.

(** A glob of pieces *)
Lemma jdk_pieces pieces : pieces <> [] -> pieces_ok pieces -> Forall paired pieces -> exists f, jdk_glob (join [42%N] pieces) = Some f /\
  forall p, ~ In c_slash (path_str p) -> f p = true <-> with_gaps pieces (path_str p).
Proof.
  intros Hne Hok Hp. unfold jdk_glob, read_glob. rewrite (read_pieces pieces Hne Hok) by lia. eexists. split; [reflexivity|].
  intros p Hs. rewrite glob_matches_iff. cbn [rev app]. rewrite pair_pieces, in_pieces; [now apply gaps_points|now destruct pieces|now rewrite in_slash].
Qed.

(** The glob [**] and a text. *)
Lemma jdk_tail g s : literal g s -> paired s -> exists f, jdk_glob (js "**" ++ g) = Some f /\
  forall p, f p = true <-> exists a, path_str p = a ++ s /\ no_terminator a.
Proof.
  intros H Hs. unfold jdk_glob, read_glob. change (js "**" ++ g) with (42 :: 42 :: g)%N. rewrite read_stars. cbn [length].
  destruct (read_literal g s H (S (S (length g))) [] [GAny] ltac:(cbn; lia)) as (f' & Hf & E).
  rewrite app_nil_r in E. rewrite E. destruct f' as [|f']; [cbn in Hf; lia|]. rewrite read_end. eexists. split; [reflexivity|].
  intro p. rewrite glob_matches_iff, rev_app_distr, rev_involutive. cbn [rev app].
  unfold pair_items. cbn [pair_lits]. rewrite pair_lits_lits. cbn [map pair_item]. rewrite pair_item_lits. split.
  - intro K. inversion K as [|? ? a r1 Ha K1 E1 E2]; subst. apply in_lits in K1 as ->. inversion Ha; subst. symmetry in E2.
    apply points_end in E2 as (a' & -> & <-). exists a'. split; [reflexivity|now apply term_points].
  - intros (a & -> & Ha). rewrite (points_app _ _ (apart_before a s Hs)). apply is_next; [constructor; now apply term_points|]. now apply in_lits.
Qed.
