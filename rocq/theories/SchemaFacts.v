(** * Proofs about the contents of options files *)

From Verif Require Import PathFacts CliFacts.
From Verif Require Export SpecSchema.
Close Scope Z_scope.

(** ** Trees *)

Section TreeInd.
  Variable P : tree -> Prop.
  Hypothesis Hnull : P TNull.
  Hypothesis Hbool : forall b, P (TBool b).
  Hypothesis Hint : forall z, P (TInt z).
  Hypothesis Hfloat : forall z b, P (TFloat z b).
  Hypothesis Hstr : forall s, P (TStr s).
  Hypothesis Harr : forall l, (forall t, In t l -> P t) -> P (TArr l).
  Hypothesis Hobj : forall f, (forall k v, In (k, v) f -> P v) -> P (TObj f).

  Fixpoint tree_rec_in (t : tree) : P t.
  Proof.
    destruct t as [|b|z|z b|s|l|f].
    - exact Hnull.
    - apply Hbool.
    - apply Hint.
    - apply Hfloat.
    - apply Hstr.
    - apply Harr. induction l as [|x l IH]; intros t H; [destruct H|]. destruct H as [<-|H]; [apply tree_rec_in|now apply IH].
    - apply Hobj. induction f as [|[k0 x] f IH]; intros k v H; [destruct H|].
      destruct H as [H|H]; [injection H as _ <-; apply tree_rec_in|now apply (IH k)].
  Qed.
End TreeInd.

Lemma within_trans a b c : within a b -> within b c -> within a c.
Proof. intros H1 H2. induction H2 as [|l x H _ IH|f k x H _ IH]; [exact H1|now apply wi_item with x|now apply wi_field with k x]. Qed.

Lemma within_has t k v : has t k v -> within v t.
Proof. intros (f & -> & H). apply wi_field with (js k) v; [exact H|constructor]. Qed.

(** [v] is a value in [t], not [t] itself. *)
Definition below (v t : tree) : Prop :=
  match t with
  | TArr l => exists x, In x l /\ within v x
  | TObj f => exists k x, In (k, x) f /\ within v x
  | _ => False
  end.

Lemma tree_strong (P : tree -> Prop) : (forall t, (forall v, below v t -> P v) -> P t) -> forall t, P t.
Proof.
  intro H. assert (K : forall t v, within v t -> P v).
  { induction t as [|b|z|z b|s|l IH|f IH] using tree_rec_in; intros v W.
    1-5: inversion W; subst; apply H; intros ? [].
    - inversion W as [|? x Hx Wx|]; subst; [|now apply (IH x)]. apply H. intros y (x & Hx & Wx). now apply (IH x).
    - inversion W as [| |? k x Hx Wx]; subst; [|now apply (IH k x)]. apply H. intros y (k & x & Hx & Wx). now apply (IH k x). }
  intro t. apply (K t). constructor.
Qed.

Lemma below_has t k v : has t k v -> below v t.
Proof. intros (f & -> & H). exists (js k), v. split; [exact H|constructor]. Qed.
Lemma below_list t k l x : has t k (TArr l) -> In x l -> below x t.
Proof. intros (f & -> & H) Hx. exists (js k), (TArr l). split; [exact H|]. apply wi_item with x; [exact Hx|constructor]. Qed.

Lemma unambiguous_within t v : within v t -> unambiguous t -> unambiguous v.
Proof. intros H U f W. apply U. now apply within_trans with v. Qed.
Lemma unambiguous_has t k v : has t k v -> unambiguous t -> unambiguous v.
Proof. intro H. apply unambiguous_within. now apply within_has in H. Qed.
Lemma unambiguous_item l t : In t l -> unambiguous (TArr l) -> unambiguous t.
Proof. intro H. apply unambiguous_within. apply wi_item with t; [exact H|constructor]. Qed.

(** ** Fields *)

Lemma lookup_in {A} k (l : list (jstring * A)) v : lookup k l = Some v -> In (k, v) l.
Proof.
  induction l as [|[k' x] l IH]; simpl; [discriminate|]. destruct (jeqb_spec k k') as [->|]; [intros [= ->]; now left|intro H; right; auto].
Qed.

Lemma lookup_none {A} k (l : list (jstring * A)) : lookup k l = None <-> forall v, ~ In (k, v) l.
Proof.
  induction l as [|[k' x] l IH]; simpl; [split; auto|]. destruct (jeqb_spec k k') as [->|N].
  - split; [discriminate|]. intro H. exfalso. apply (H x). now left.
  - rewrite IH. split; intros H v; [intros [[= -> _]|H']; [congruence|now apply (H v)]|intro H'; apply (H v); now right].
Qed.

Lemma lookup_nodup {A} k (l : list (jstring * A)) v : NoDup (map fst l) -> In (k, v) l -> lookup k l = Some v.
Proof.
  induction l as [|[k' x] l IH]; simpl; [intros _ []|]. intros N H. inversion N as [|? ? N1 N2]; subst.
  destruct (jeqb_spec k k') as [->|D].
  - destruct H as [[= ->]|H]; [reflexivity|]. exfalso. apply N1. apply in_map_iff. exists (k', v). auto.
  - destruct H as [[= -> _]|H]; [congruence|auto].
Qed.

Lemma distinct_keys_iff {A} (l : list (jstring * A)) : distinct_keys l = true <-> NoDup (map fst l).
Proof.
  induction l as [|[k x] l IH]; simpl; [split; [constructor|reflexivity]|]. rewrite andb_true_iff, IH. split.
  - intros [H1 H2]. constructor; [|exact H2]. intro H. apply in_map_iff in H. destruct H as ([k' v] & Hk & H). simpl in Hk. subst k'.
    rewrite (lookup_nodup k l v H2 H) in H1. discriminate.
  - intro H. inversion H as [|? ? N1 N2]; subst. split; [|exact N2]. destruct (lookup k l) as [v|] eqn:E; [|reflexivity].
    exfalso. apply N1. apply lookup_in in E. apply in_map_iff. exists (k, v). auto.
Qed.

Lemma lookup_map {A B} (f : A -> B) k (l : list (jstring * A)) :
  lookup k (map (fun kv => (fst kv, f (snd kv))) l) = option_map f (lookup k l).
Proof. induction l as [|[k' x] l IH]; simpl; [reflexivity|]. now destruct (jeqb k k'). Qed.

Lemma unambiguous_nodup f : unambiguous (TObj f) -> NoDup (map fst f).
Proof. intro U. apply U. constructor. Qed.

(** The only value of a key. *)
Lemma has_lookup f k v : unambiguous (TObj f) -> has (TObj f) k v <-> lookup (js k) f = Some v.
Proof.
  intro U. split.
  - intros (f' & [= <-] & H). apply lookup_nodup; [now apply unambiguous_nodup|exact H].
  - intro H. exists f. split; [reflexivity|now apply lookup_in].
Qed.

Lemma has_unique t k v v' : unambiguous t -> has t k v -> has t k v' -> v = v'.
Proof.
  intros U H H'. assert (exists f, t = TObj f) as [f ->] by (destruct H as (f & -> & _); eauto).
  apply has_lookup in H; [|exact U]. apply has_lookup in H'; [|exact U]. congruence.
Qed.

Lemma blank_lookup f k : unambiguous (TObj f) -> blank (TObj f) k <-> lookup (js k) f = None \/ lookup (js k) f = Some TNull.
Proof.
  intro U. split.
  - intro B. destruct (lookup (js k) f) as [v|] eqn:E; [right|now left]. f_equal. apply B. now apply has_lookup.
  - intros [H|H] v Hv; apply has_lookup in Hv; try exact U; congruence.
Qed.

(** ** Binding *)

Lemma b_ap_bound {A B} (f : bound (A -> B)) x b : b_ap f x = Bound b <-> exists g a, f = Bound g /\ x = Bound a /\ b = g a.
Proof.
  split.
  - destruct f as [g| |], x as [a| |]; simpl; try discriminate. intros [= <-]. eauto.
  - now intros (g & a & -> & -> & ->).
Qed.

Lemma b_map_bound {A B} (f : A -> B) x b : b_map f x = Bound b <-> exists a, x = Bound a /\ b = f a.
Proof.
  unfold b_map. rewrite b_ap_bound. split.
  - intros (g & a & [= <-] & H). eauto.
  - intros (a & -> & ->). eauto.
Qed.

Lemma b_all_bound {A B} (f : A -> bound B) l r : b_all (map f l) = Bound r <-> Forall2 (fun a b => f a = Bound b) l r.
Proof.
  revert r. induction l as [|a l IH]; intro r; simpl.
  - split; [intros [= <-]; constructor|]. intro H. now inversion H.
  - rewrite b_ap_bound. split.
    + intros (g & r' & H1 & H2 & ->). apply b_map_bound in H1. destruct H1 as (b & H1 & ->). constructor; [exact H1|now apply IH].
    + intro H. inversion H as [|? b ? r' H1 H2]; subst. exists (cons b), r'. split; [apply b_map_bound; eauto|]. split; [now apply IH|reflexivity].
Qed.

Lemma bind_matcher_obj f : bind_matcher (TObj f) =
  if distinct_keys f then
    let matchers := b_field (js "matchers") f None (b_list bind_matcher) in
    b_typed f
      [(js "everything", Bound XmTrue); (js "nothing", Bound XmFalse); (js "allOf", b_map XmAllOf matchers); (js "anyOf", b_map XmAnyOf matchers);
       (js "noneOf", b_map XmNoneOf matchers); (js "name", b_map XmName (b_field (js "glob") f None b_str));
       (js "path", b_map XmPath (b_field (js "glob") f None b_str))]
  else Unmodelled.
Proof.
  cbn [bind_matcher]. destruct (distinct_keys f); [|reflexivity].
  set (go := fix go (l : list (jstring * tree)) : list (jstring * bound (option (list xmatcher))) := match l with [] => [] | _ => _ end).
  assert (E : lookup (js "matchers") (go f) = option_map (b_list bind_matcher) (lookup (js "matchers") f)).
  { induction f as [|[k v] f IH]; [reflexivity|]. cbn [go lookup]. fold go. destruct (jeqb (js "matchers") k); [destruct v; reflexivity|exact IH]. }
  rewrite E. unfold b_field. destruct (lookup (js "matchers") f) as [v|]; reflexivity.
Qed.

(** ** What is read is what is written *)

Definition typed_as (t : tree) (s : string) : Prop := has t "type" (TStr (js s)).

Lemma b_typed_bound {A} f (subs : list (jstring * bound A)) a : unambiguous (TObj f) ->
  b_typed f subs = Bound a <-> exists ty, has (TObj f) "type" (TStr ty) /\ lookup ty subs = Some (Bound a).
Proof.
  intro U. unfold b_typed. split.
  - destruct (lookup (js "type") f) as [v|] eqn:E; [|discriminate]. destruct v as [| | | |ty| |]; try discriminate.
    destruct (lookup ty subs) as [r|] eqn:E2; [|discriminate]. intros ->. exists ty. split; [|exact E2]. now apply has_lookup.
  - intros (ty & H & E). apply has_lookup in H; [|exact U]. rewrite H, E. reflexivity.
Qed.

Lemma b_str_some v s : b_str v = Bound (Some s) <-> v = TStr s.
Proof. destruct v; simpl; split; congruence. Qed.
Lemma b_bool_some v s : b_bool v = Bound (Some s) <-> v = TBool s.
Proof. destruct v; simpl; split; congruence. Qed.
Lemma b_int_some v z : b_int v = Bound (Some z) <-> v = TInt z /\ fits_int z.
Proof.
  destruct v as [| |y| | | |]; simpl; split; try (intros [? _]; congruence); try congruence.
  - destruct ((-2147483648 <=? y)%Z && (y <=? 2147483647)%Z) eqn:E; [|discriminate]. intros [= ->]. split; [reflexivity|].
    unfold fits_int. apply andb_prop in E. destruct E as [E1 E2]. apply Z.leb_le in E1. apply Z.leb_le in E2. split; assumption.
  - intros [[= ->] [H1 H2]]. apply Z.leb_le in H1. apply Z.leb_le in H2. now rewrite H1, H2.
Qed.
Lemma b_list_some {A} (f : tree -> bound A) v l : b_list f v = Bound (Some l) <-> exists vs, v = TArr vs /\ Forall2 (fun t a => f t = Bound a) vs l.
Proof.
  unfold b_list. split.
  - destruct v as [| | | | |vs|]; try discriminate. intro H. apply b_map_bound in H. destruct H as (a & H & [= ->]). exists vs. split; [reflexivity|].
    now apply b_all_bound.
  - intros (vs & -> & H). apply b_map_bound. exists l. split; [now apply b_all_bound|reflexivity].
Qed.
Lemma b_nullable_some {A} (f : tree -> bound A) v a : f TNull = Unmodelled -> b_nullable f v = Bound (Some a) <-> f v = Bound a.
Proof.
  intro N. unfold b_nullable. split.
  - destruct v; try discriminate; intro H; apply b_map_bound in H; destruct H as (a' & H & [= ->]); exact H.
  - intro H. destruct v; try (apply b_map_bound; eauto). congruence.
Qed.

(** A field that must be there. *)
Lemma b_field_some {A} f k (g : tree -> bound (option A)) a (P : tree -> Prop) : unambiguous (TObj f) ->
  (forall v, has (TObj f) k v -> g v = Bound (Some a) <-> P v) ->
  b_field (js k) f None g = Bound (Some a) <-> exists v, has (TObj f) k v /\ P v.
Proof.
  intros U H. unfold b_field. split.
  - destruct (lookup (js k) f) as [v|] eqn:E; [|discriminate]. apply has_lookup in E; [|exact U]. intro B. exists v. split; [exact E|]. now apply H.
  - intros (v & Hv & HP). apply H in HP; [|exact Hv]. apply has_lookup in Hv; [|exact U]. now rewrite Hv.
Qed.

Lemma lookup_cons {A} k k' (v : A) l r : lookup k ((k', v) :: l) = Some r <-> (k = k' /\ v = r) \/ (k <> k' /\ lookup k l = Some r).
Proof.
  simpl. destruct (jeqb_spec k k') as [->|N].
  - split; [intros [= ->]; now left|]. intros [[_ ->]|[H _]]; congruence.
  - split; [intro H; now right|]. intros [[H _]|[_ H]]; congruence.
Qed.

Lemma Forall2_iff {A B} (P Q : A -> B -> Prop) l r : (forall a b, In a l -> In b r -> P a b <-> Q a b) -> Forall2 P l r <-> Forall2 Q l r.
Proof.
  intro H. split; intro F; induction F as [|a b l r F1 F2 IH]; constructor; try (apply H; [now left|now left|exact F1]); apply IH;
    intros; apply H; now right.
Qed.

Ltac lookups H :=
  repeat (apply lookup_cons in H; destruct H as [[? H]|[? H]]; [|]); try discriminate H.

Lemma bind_matcher_written t : unambiguous t -> forall m, usable_matcher m -> bind_matcher t = Bound m <-> written_matcher t m.
Proof.
  induction t as [t IH] using tree_strong. intros U m Hm.
  assert (D : (exists f, t = TObj f) \/ ((forall f, t <> TObj f) /\ bind_matcher t <> Bound m)).
  { destruct t; try (left; eauto; fail); right; (split; [discriminate|]); try discriminate. intros [= <-]. inversion Hm. }
  destruct D as [[f ->]|[N N']].
  2: { split; [contradiction|]. intro W. exfalso. inversion W; subst; match goal with H : has _ "type" _ |- _ => destruct H as (? & -> & _) end; now eapply N. }
  rewrite bind_matcher_obj. rewrite (proj2 (distinct_keys_iff f) (unambiguous_nodup f U)). cbv zeta.
  set (M := b_field (js "matchers") f None (b_list bind_matcher)). set (G := b_field (js "glob") f None b_str).
  assert (HM : forall ms, (forall x, In x ms -> usable_matcher x) ->
                 M = Bound (Some ms) <-> exists l, has (TObj f) "matchers" (TArr l) /\ Forall2 written_matcher l ms).
  { intros ms Hms. unfold M. rewrite (b_field_some f "matchers" (b_list bind_matcher) ms (fun v => exists l, v = TArr l /\ Forall2 written_matcher l ms) U).
    - split; [intros (v & H & l & -> & F); eauto|intros (l & H & F); eauto].
    - intros v Hv. rewrite b_list_some.
      assert (K : forall l, v = TArr l -> Forall2 (fun t a => bind_matcher t = Bound a) l ms <-> Forall2 written_matcher l ms).
      { intros l ->. apply Forall2_iff. intros a b Ha Hb. apply IH; [now apply below_list with "matchers"%string l| |auto].
        apply unambiguous_item with l; [exact Ha|]. now apply unambiguous_has with (TObj f) "matchers"%string. }
      split; intros (l & -> & F); exists l; (split; [reflexivity|]); now apply (K l). }
  assert (HG : forall g, G = Bound (Some g) <-> has (TObj f) "glob" (TStr g)).
  { intro g. unfold G. rewrite (b_field_some f "glob" b_str g (fun v => v = TStr g) U) by (intros; apply b_str_some).
    split; [intros (v & H & ->); exact H|eauto]. }
  clearbody M G. rewrite (b_typed_bound f _ m U). split.
  - intros (ty & Ht & E).
    lookups E; subst ty; [injection E as <-; apply wm_everything; exact Ht|injection E as <-; apply wm_nothing; exact Ht|..]; apply b_map_bound in E;
      destruct E as (o & E & ->);
      inversion Hm as [| |l N0 Hl|l N0 Hl|l N0 Hl|g Ng|g Ng]; subst o; first [apply HM in E; [destruct E as (l' & Hl' & F)|exact Hl]|apply HG in E].
    + now apply wm_all with l'.
    + now apply wm_any with l'.
    + now apply wm_none with l'.
    + now apply wm_name.
    + now apply wm_path.
  - intro W. inversion W as [? Ht|? Ht|? l ms Ht Hl F|? l ms Ht Hl F|? l ms Ht Hl F|? g Ht Hg|? g Ht Hg]; subst; eexists;
      (split; [exact Ht|]); cbn [lookup]; unfold jeqb; simpl; try reflexivity; f_equal; apply b_map_bound; eexists;
      (split; [|reflexivity]); try (apply HM; [now inversion Hm|eauto]); now apply HG.
Qed.

Lemma b_field_matcher f k m : unambiguous (TObj f) -> usable_matcher m ->
  b_field (js k) f XmNull bind_matcher = Bound m <-> exists v, has (TObj f) k v /\ written_matcher v m.
Proof.
  intros U Hm. unfold b_field. split.
  - destruct (lookup (js k) f) as [v|] eqn:E; [|intros [= <-]; inversion Hm]. apply has_lookup in E; [|exact U]. intro B. exists v. split; [exact E|].
    apply bind_matcher_written; auto. now apply unambiguous_has with (TObj f) k.
  - intros (v & Hv & W). apply bind_matcher_written in W; [|now apply unambiguous_has with (TObj f) k|exact Hm].
    apply has_lookup in Hv; [|exact U]. now rewrite Hv.
Qed.

Lemma bind_matcher_null t : bind_matcher t = Bound XmNull <-> t = TNull.
Proof.
  split; [|now intros ->]. destruct t as [| | | | | |f]; try discriminate; [reflexivity|]. rewrite bind_matcher_obj.
  destruct (distinct_keys f); [|discriminate]. cbv zeta. unfold b_typed. destruct (lookup (js "type") f) as [v|]; [|discriminate].
  destruct v as [| | | |ty| |]; try discriminate. destruct (lookup ty _) as [r|] eqn:E; [|discriminate]. intros ->.
  lookups E; try discriminate E; apply b_map_bound in E; destruct E as (? & _ & E); discriminate E.
Qed.

Lemma b_field_side f k m : unambiguous (TObj f) -> m = XmNull \/ usable_matcher m ->
  b_field (js k) f XmNull bind_matcher = Bound m <-> written_side (TObj f) k m.
Proof.
  intros U [->|Hm].
  - unfold written_side, b_field. split.
    + intro B. left. split; [|reflexivity]. apply blank_lookup; [exact U|]. destruct (lookup (js k) f) as [v|]; [right|now left].
      apply bind_matcher_null in B. now subst.
    + intros [[B _]|(v & Hv & W)]; [|inversion W]. apply blank_lookup in B; [|exact U]. destruct B as [B|B]; rewrite B; reflexivity.
  - rewrite b_field_matcher; [|exact U|exact Hm]. unfold written_side. split; [auto|]. intros [[_ ->]|H]; [inversion Hm|exact H].
Qed.

Lemma b_field_setting {A} f k (g : tree -> bound (option A)) (P : tree -> A -> Prop) o : unambiguous (TObj f) ->
  (forall v, g v = Bound None <-> v = TNull) ->
  (forall v a, has (TObj f) k v -> o = Some a -> g v = Bound (Some a) <-> P v a) ->
  b_field (js k) f None g = Bound o <-> setting (TObj f) k P o.
Proof.
  intros U N H. destruct o as [a|]; simpl.
  - apply b_field_some; [exact U|]. intros v Hv. now apply H.
  - rewrite blank_lookup by exact U. unfold b_field. destruct (lookup (js k) f) as [v|]; [|split; auto].
    rewrite N. split; [intros ->; auto|]. intros [E|E]; congruence.
Qed.

Lemma record_bound {A} t (g : list (jstring * tree) -> bound A) a : unambiguous t ->
  b_record t g = Bound a <-> exists f, t = TObj f /\ g f = Bound a.
Proof.
  intro U. unfold b_record. split.
  - destruct t as [| | | | | |f]; try discriminate. destruct (distinct_keys f); [eauto|discriminate].
  - intros (f & -> & H). now rewrite (proj2 (distinct_keys_iff f) (unambiguous_nodup f U)).
Qed.

Lemma bind_item_written t n m : unambiguous t -> usable_matcher m ->
  b_nullable bind_item t = Bound (Some (mkXItem (Some n) m)) <-> written_item t (Some (mkXItem (Some n) m)).
Proof.
  intros U Hm. rewrite b_nullable_some by reflexivity. unfold bind_item. rewrite record_bound by exact U. split.
  - intros (f & -> & B). apply b_ap_bound in B. destruct B as (g & a & B1 & B2 & E). apply b_map_bound in B1. destruct B1 as (o & B1 & ->).
    injection E as <- <-.
    apply (b_field_some f "limit" b_int n (fun v => v = TInt n /\ fits_int n) U) in B1; [|intros; apply b_int_some].
    destruct B1 as (v & Hv & -> & Hn). apply b_field_matcher in B2; auto. destruct B2 as (v & Hv' & W). exists n, v, m. auto.
  - intros (n' & v & m' & Hn & Fn & Hv & W & [= <- <-]). destruct (Hn) as (f & -> & _). exists f. split; [reflexivity|].
    apply b_ap_bound. exists (mkXItem (Some n)), m. split; [|split; [|reflexivity]].
    + apply b_map_bound. exists (Some n). split; [|reflexivity].
      apply (b_field_some f "limit" b_int n (fun v => v = TInt n /\ fits_int n) U); [intros; apply b_int_some|eauto].
    + apply b_field_matcher; eauto.
Qed.

Lemma bind_extension_written t s m : unambiguous t -> usable_matcher m ->
  b_nullable bind_extension t = Bound (Some (mkXExtension (Some s) m)) <-> written_extension t (Some (mkXExtension (Some s) m)).
Proof.
  intros U Hm. rewrite b_nullable_some by reflexivity. unfold bind_extension. rewrite record_bound by exact U. split.
  - intros (f & -> & B). apply b_ap_bound in B. destruct B as (g & a & B1 & B2 & E). apply b_map_bound in B1. destruct B1 as (o & B1 & ->).
    injection E as <- <-.
    apply (b_field_some f "extension" b_str s (fun v => v = TStr s) U) in B1; [|intros; apply b_str_some].
    destruct B1 as (v & Hv & ->). apply b_field_matcher in B2; auto. destruct B2 as (v & Hv' & W). exists s, v, m. auto.
  - intros (s' & v & m' & Hs & Hv & W & [= <- <-]). destruct (Hs) as (f & -> & _). exists f. split; [reflexivity|].
    apply b_ap_bound. exists (mkXExtension (Some s)), m. split; [|split; [|reflexivity]].
    + apply b_map_bound. exists (Some s). split; [|reflexivity].
      apply (b_field_some f "extension" b_str s (fun v => v = TStr s) U); [intros; apply b_str_some|eauto].
    + apply b_field_matcher; eauto.
Qed.

Definition acceptable_limit (l : xlimit) : Prop :=
  (exists n, l = XStatic (Some n)) \/
  (exists items, l = XDynamic (Some items) /\ items <> [] /\ forall i, In i items -> exists n m, i = Some (mkXItem (Some n) m) /\ usable_matcher m).

Lemma bind_limit_written t l : unambiguous t -> acceptable_limit l -> bind_limit t = Bound l <-> written_limit t l.
Proof.
  intros U Hl. unfold bind_limit. rewrite record_bound by exact U.
  assert (HS : forall f n, t = TObj f -> b_field (js "limit") f None b_int = Bound (Some n) <-> has t "limit" (TInt n) /\ fits_int n).
  { intros f n ->. rewrite (b_field_some f "limit" b_int n (fun v => v = TInt n /\ fits_int n) U) by (intros; apply b_int_some).
    split; [intros (v & Hv & -> & Hn); auto|intros [H1 H2]; eauto]. }
  assert (HD : forall f items, t = TObj f -> (forall i, In i items -> exists n m, i = Some (mkXItem (Some n) m) /\ usable_matcher m) ->
            b_field (js "limits") f None (b_list (b_nullable bind_item)) = Bound (Some items) <->
            exists vs, has t "limits" (TArr vs) /\ Forall2 written_item vs items).
  { intros f items -> Hi.
    rewrite (b_field_some f "limits" (b_list (b_nullable bind_item)) items (fun v => exists vs, v = TArr vs /\ Forall2 written_item vs items) U).
    - split; [intros (v & H & vs & -> & F); eauto|intros (vs & H & F); eauto].
    - intros v Hv. rewrite b_list_some.
      assert (K : forall vs, v = TArr vs -> Forall2 (fun t a => b_nullable bind_item t = Bound a) vs items <-> Forall2 written_item vs items).
      { intros vs ->. apply Forall2_iff. intros a b Ha Hb. destruct (Hi b Hb) as (n & m & -> & Hm). apply bind_item_written; [|exact Hm].
        apply unambiguous_item with vs; [exact Ha|]. now apply unambiguous_has with (TObj f) "limits"%string. }
      split; intros (vs & -> & F); exists vs; (split; [reflexivity|]); now apply (K vs). }
  split.
  - intros (f & -> & B). apply b_typed_bound in B; [|exact U]. destruct B as (ty & Ht & E). lookups E; subst ty; apply b_map_bound in E;
      destruct E as (o & E & ->); destruct Hl as [[n' Hl]|(items & Hl & _ & Hi)]; try discriminate Hl; injection Hl as ->.
    + apply HS in E; [|reflexivity]. destruct E. now apply wl_static.
    + apply HD in E; [|reflexivity|exact Hi]. destruct E as (vs & H1 & H2). now apply wl_dynamic with vs.
  - intro W. inversion W as [? n Ht Hn Fn|? vs items Ht Hv F]; subst; destruct (Ht) as (f & -> & _); exists f; (split; [reflexivity|]);
      apply b_typed_bound; try exact U; eexists; (split; [exact Ht|]); cbn [lookup]; simpl; f_equal; apply b_map_bound; eexists; (split; [|reflexivity]).
    + apply HS; auto.
    + apply HD; [reflexivity| |eauto]. destruct Hl as [[n' Hl]|(items' & Hl & _ & Hi)]; [discriminate|]. now injection Hl as ->.
Qed.

Lemma bind_filter_written t x : unambiguous t ->
  (xf_dir x = XmNull \/ usable_matcher (xf_dir x)) -> (xf_file x = XmNull \/ usable_matcher (xf_file x)) ->
  bind_filter t = Bound x <-> is_object t /\ written_side t "dir" (xf_dir x) /\ written_side t "file" (xf_file x).
Proof.
  intros U H1 H2. unfold bind_filter. rewrite record_bound by exact U. split.
  - intros (f & -> & B). apply b_ap_bound in B. destruct B as (g & a & B1 & B2 & ->). apply b_map_bound in B1. destruct B1 as (o & B1 & ->).
    simpl in *. split; [now exists f|]. split; now apply b_field_side.
  - intros ([f ->] & W1 & W2). exists f. split; [reflexivity|]. apply b_ap_bound. exists (mkXFilter (xf_dir x)), (xf_file x).
    split; [apply b_map_bound; exists (xf_dir x); split; [now apply b_field_side|reflexivity]|].
    split; [now apply b_field_side|now destruct x].
Qed.

Lemma b_bool_null v : b_bool v = Bound None <-> v = TNull.
Proof. destruct v; simpl; split; congruence. Qed.
Lemma b_int_null v : b_int v = Bound None <-> v = TNull.
Proof. destruct v as [| |z| | | |]; simpl; split; try congruence. destruct (_ && _); discriminate. Qed.
Lemma b_nullable_null {A} (g : tree -> bound A) v : b_nullable g v = Bound None <-> v = TNull.
Proof.
  split; [|now intros ->]. destruct v; simpl; try reflexivity; intro H; apply b_map_bound in H; destruct H as (? & _ & H); discriminate.
Qed.
Lemma b_list_null {A} (g : tree -> bound A) v : b_list g v = Bound None <-> v = TNull.
Proof.
  split; [|now intros ->]. destruct v; simpl; try discriminate; try reflexivity. intro H; apply b_map_bound in H; destruct H as (? & _ & H); discriminate.
Qed.

Lemma bind_options_written t x : unambiguous t -> acceptable x -> bind_options t = Bound x <-> written t x.
Proof.
  intros U [AL AF AE].
  assert (S1 : forall f, t = TObj f -> b_field (js "emojis") f None b_bool = Bound (x_emojis x) <->
                 setting t "emojis" (fun v b => v = TBool b) (x_emojis x)).
  { intros f ->. apply b_field_setting; [exact U|apply b_bool_null|]. intros v a _ _. apply b_bool_some. }
  assert (S2 : forall f, t = TObj f -> b_field (js "compactDirectories") f None b_bool = Bound (x_compact x) <->
                 setting t "compactDirectories" (fun v b => v = TBool b) (x_compact x)).
  { intros f ->. apply b_field_setting; [exact U|apply b_bool_null|]. intros v a _ _. apply b_bool_some. }
  assert (S3 : forall f, t = TObj f -> b_field (js "maxDepth") f None b_int = Bound (x_max_depth x) <->
                 setting t "maxDepth" (fun v n => v = TInt n /\ fits_int n) (x_max_depth x)).
  { intros f ->. apply b_field_setting; [exact U|apply b_int_null|]. intros v a _ _. apply b_int_some. }
  assert (S4 : forall f, t = TObj f -> b_field (js "childLimit") f None (b_nullable bind_limit) = Bound (x_child_limit x) <->
                 setting t "childLimit" written_limit (x_child_limit x)).
  { intros f ->. apply b_field_setting; [exact U|apply b_nullable_null|]. intros v a Hv Ha. rewrite b_nullable_some by reflexivity.
    apply bind_limit_written; [now apply unambiguous_has with (TObj f) "childLimit"%string|now apply AL]. }
  assert (S5 : forall f, t = TObj f -> b_field (js "filter") f None (b_nullable bind_filter) = Bound (x_filter x) <->
                 setting t "filter" (fun v y => is_object v /\ written_side v "dir" (xf_dir y) /\ written_side v "file" (xf_file y)) (x_filter x)).
  { intros f ->. apply b_field_setting; [exact U|apply b_nullable_null|]. intros v a Hv Ha. rewrite b_nullable_some by reflexivity.
    apply bind_filter_written; [now apply unambiguous_has with (TObj f) "filter"%string|now apply AF|now apply AF]. }
  assert (S6 : forall f, t = TObj f -> b_field (js "lineExtensions") f None (b_list (b_nullable bind_extension)) = Bound (x_line_extensions x) <->
                 setting t "lineExtensions" (fun v l => exists vs, v = TArr vs /\ Forall2 written_extension vs l) (x_line_extensions x)).
  { intros f ->. apply b_field_setting; [exact U|apply b_list_null|]. intros v l Hv Hl. rewrite b_list_some.
    assert (K : forall vs, v = TArr vs -> Forall2 (fun t a => b_nullable bind_extension t = Bound a) vs l <-> Forall2 written_extension vs l).
    { intros vs ->. apply Forall2_iff. intros a b Ha Hb. destruct (AE l Hl b Hb) as (s & m & -> & Hm). apply bind_extension_written; [|exact Hm].
      apply unambiguous_item with vs; [exact Ha|]. now apply unambiguous_has with (TObj f) "lineExtensions"%string. }
    split; intros (vs & -> & F); exists vs; (split; [reflexivity|]); now apply (K vs). }
  unfold bind_options. rewrite record_bound by exact U. split.
  - intros (f & -> & B).
    apply b_ap_bound in B. destruct B as (g6 & a6 & B & B6 & E). apply b_ap_bound in B. destruct B as (g5 & a5 & B & B5 & ->).
    apply b_ap_bound in B. destruct B as (g4 & a4 & B & B4 & ->). apply b_ap_bound in B. destruct B as (g3 & a3 & B & B3 & ->).
    apply b_ap_bound in B. destruct B as (g2 & a2 & B & B2 & ->). apply b_map_bound in B. destruct B as (a1 & B1 & ->).
    subst x. cbn [x_emojis x_compact x_max_depth x_child_limit x_filter x_line_extensions] in *.
    constructor; [now exists f|exact (proj1 (S1 f eq_refl) B1)|exact (proj1 (S2 f eq_refl) B2)|exact (proj1 (S3 f eq_refl) B3)|
      exact (proj1 (S4 f eq_refl) B4)|exact (proj1 (S5 f eq_refl) B5)|exact (proj1 (S6 f eq_refl) B6)].
  - intros [[f Hf] W1 W2 W3 W4 W5 W6]. exists f. split; [exact Hf|].
    apply (S1 f Hf) in W1. apply (S2 f Hf) in W2. apply (S3 f Hf) in W3. apply (S4 f Hf) in W4. apply (S5 f Hf) in W5. apply (S6 f Hf) in W6.
    rewrite W1, W2, W3, W4, W5, W6. now destruct x.
Qed.

Lemma read_as_bound t x : read_as t x <-> bind_options t = Bound x.
Proof.
  unfold read_as, reads_as. destruct t; try (split; [intro H; pose proof (proj1 (H LoadFails) I); discriminate|discriminate]).
  - split; [intro H; pose proof (proj1 (H LoadNull) eq_refl); discriminate|discriminate].
  - destruct (bind_options (TObj fields)) as [y| |] eqn:E; split.
    + intro H. pose proof (proj1 (H (LoadDoc y)) eq_refl) as K. now injection K as ->.
    + intros [= ->] r. reflexivity.
    + intro H. pose proof (proj1 (H LoadFails) eq_refl). discriminate.
    + discriminate.
    + intro H. pose proof (proj1 (H LoadFails) I). discriminate.
    + discriminate.
Qed.

Lemma read_what_is_written t x : unambiguous t -> acceptable x -> read_as t x <-> written t x.
Proof. intros U A. rewrite read_as_bound. now apply bind_options_written. Qed.

(** ** The schema *)

Definition field_checks (t : tree) : list (jstring * (schema -> bool)) :=
  match t with TObj f => map (fun kv => (fst kv, conforms (snd kv))) f | _ => [] end.
Definition item_checks (t : tree) : list (schema -> bool) := match t with TArr l => map conforms l | _ => [] end.

Lemma conforms_eq t s : conforms t s =
  satisfies t (field_checks t) (item_checks t) (satisfies t (field_checks t) (item_checks t) false matcher_schema) s.
Proof.
  destruct t as [| | | | | |f]; try reflexivity. cbn [conforms field_checks item_checks].
  set (go := fix go (l : list (jstring * tree)) : list (jstring * (schema -> bool)) := match l with [] => [] | _ => _ end).
  assert (E : go f = map (fun kv => (fst kv, conforms (snd kv))) f).
  { induction f as [|[k v] f IH]; [reflexivity|]. cbn [go map fst snd]. fold go. now rewrite IH. }
  rewrite E. reflexivity.
Qed.

Lemma conforms_ref t : conforms t SRef = conforms t matcher_schema.
Proof. rewrite !conforms_eq. reflexivity. Qed.

Lemma conforms_both t s1 s2 : conforms t (SBoth s1 s2) = true <-> conforms t s1 = true /\ conforms t s2 = true.
Proof. rewrite !conforms_eq. cbn [satisfies]. apply andb_true_iff. Qed.

Lemma conforms_type t ty : conforms t (SType ty) = has_type ty t.
Proof. now rewrite conforms_eq. Qed.

Lemma conforms_object f : forall ps req, conforms (TObj f) (SObject ps req) = true ->
  (forall k v, In (k, v) f -> exists s, lookup k ps = Some s /\ conforms v s = true) /\
  (forall k, In k req -> exists v, In (k, v) f).
Proof.
  intros ps req H. rewrite conforms_eq in H. cbn [satisfies field_checks] in H. apply andb_prop in H. destruct H as [H1 H2]. split.
  - intros k v Hk. rewrite forallb_forall in H1. specialize (H1 (k, conforms v)). cbn [fst snd] in H1.
    destruct (lookup k ps) as [s|]; [exists s; split; [reflexivity|]|exfalso]; [|assert (false = true); [|discriminate]]; apply H1; apply in_map_iff;
      exists (k, v); auto.
  - intros k Hk. rewrite forallb_forall in H2. specialize (H2 k Hk). rewrite lookup_map in H2. destruct (lookup k f) as [v|] eqn:E; [|discriminate].
    exists v. now apply lookup_in.
Qed.

Lemma conforms_items l s : conforms (TArr l) (SItems s) = true -> forall t, In t l -> conforms t s = true.
Proof.
  intros H t Ht. rewrite conforms_eq in H. cbn [satisfies item_checks] in H. rewrite forallb_forall in H. apply (H (conforms t)).
  apply in_map_iff. eauto.
Qed.

Lemma conforms_one_of t l : conforms t (SOneOf l) = true -> exists s, In s l /\ conforms t s = true.
Proof.
  intro H. rewrite conforms_eq in H. cbn [satisfies] in H. apply Nat.eqb_eq in H.
  match type of H with length (filter ?p l) = 1 => destruct (filter p l) as [|s r] eqn:E; [discriminate|]; exists s;
    assert (K : In s (filter p l)) by (rewrite E; now left) end.
  apply filter_In in K. destruct K as [K1 K2]. split; [exact K1|]. now rewrite conforms_eq.
Qed.

(** Which fields an object conforming to [SObject] has. *)
Lemma conforms_const t c : conforms t (SConst c) = true -> t = TStr c.
Proof. rewrite conforms_eq. cbn [satisfies]. destruct t; try discriminate. destruct (jeqb_spec s c) as [->|]; [reflexivity|discriminate]. Qed.

Definition only_keys (t : tree) (l : list string) : Prop := exists f, t = TObj f /\ forall k v, In (k, v) f -> In k (map js l).

(** ** Where empty lists and globs, and big numbers, may be *)

Lemma within_obj_inv v f : within v (TObj f) -> v = TObj f \/ exists k x, In (k, x) f /\ within v x.
Proof. intro W. inversion W; subst; eauto. Qed.
Lemma within_arr_inv v l : within v (TArr l) -> v = TArr l \/ exists x, In x l /\ within v x.
Proof. intro W. inversion W; subst; eauto. Qed.

Lemma filled_obj f : filled (TObj f) <->
  (~ has (TObj f) "glob" (TStr []) /\ ~ has (TObj f) "matchers" (TArr []) /\ ~ has (TObj f) "limits" (TArr [])) /\
  forall k v, In (k, v) f -> filled v.
Proof.
  split.
  - intros [H1 H2]. split; [split; [apply H1; constructor|apply H2; constructor]|]. intros k v Hv.
    split; intros y Wy; [apply H1|apply H2]; now apply wi_field with k v.
  - intros [(A1 & A2 & A3) B]. split; intros v W; apply within_obj_inv in W; destruct W as [->|(k & x & Hx & W)]; auto; now apply (B k x).
Qed.

Lemma filled_arr l : filled (TArr l) <-> forall v, In v l -> filled v.
Proof.
  split.
  - intros [H1 H2] v Hv. split; intros y Wy; [apply H1|apply H2]; now apply wi_item with v.
  - intro B. split; intros v W; apply within_arr_inv in W; destruct W as [->|(x & Hx & W)]; try (now apply (B x)).
    + intros (f & ? & _). discriminate.
    + split; intros (f & ? & _); discriminate.
Qed.

Lemma filled_scalar t : (forall f, t <> TObj f) -> (forall l, t <> TArr l) -> filled t.
Proof.
  intros N1 N2. assert (K : forall v, within v t -> v = t) by (intros v W; inversion W; subst; [reflexivity|now destruct (N2 l)|now destruct (N1 fields)]).
  split; intros v W; rewrite (K v W); [|split]; intros (f & E & _); now apply (N1 f).
Qed.

Lemma fit_obj f : numbers_fit (TObj f) <-> forall k v, In (k, v) f -> numbers_fit v.
Proof.
  split.
  - intros H k v Hv z Wz. apply H. now apply wi_field with k v.
  - intros H z W. apply within_obj_inv in W. destruct W as [W|(k & x & Hx & W)]; [discriminate|]. now apply (H k x).
Qed.
Lemma fit_arr l : numbers_fit (TArr l) <-> forall v, In v l -> numbers_fit v.
Proof.
  split.
  - intros H v Hv z Wz. apply H. now apply wi_item with v.
  - intros H z W. apply within_arr_inv in W. destruct W as [W|(x & Hx & W)]; [discriminate|]. now apply (H x).
Qed.
Lemma fit_int n : numbers_fit (TInt n) <-> fits_int n.
Proof. split; [intro H; apply H; constructor|]. intros H z W. inversion W; subst; exact H. Qed.
Lemma fit_scalar t : (forall f, t <> TObj f) -> (forall l, t <> TArr l) -> (forall n, t <> TInt n) -> numbers_fit t.
Proof. intros N1 N2 N3 z W. inversion W; subst; [now destruct (N3 z)|now destruct (N2 l)|now destruct (N1 fields)]. Qed.

Definition fine (t : tree) : Prop := filled t /\ numbers_fit t.

Lemma fine_within v t : within v t -> fine t -> fine v.
Proof.
  intros W [[H1 H2] H3]. split; [split|]; [intros y Wy; apply H1|intros y Wy; apply H2|intros z Wz; apply H3]; now apply within_trans with v.
Qed.
Lemma fine_obj f : fine (TObj f) <->
  (~ has (TObj f) "glob" (TStr []) /\ ~ has (TObj f) "matchers" (TArr []) /\ ~ has (TObj f) "limits" (TArr [])) /\
  forall k v, In (k, v) f -> fine v.
Proof.
  unfold fine. rewrite filled_obj, fit_obj. split.
  - intros [[H1 H2] H3]. split; [exact H1|]. intros k v H. split; [now apply (H2 k)|now apply (H3 k)].
  - intros [H1 H2]. split; [split; [exact H1|]|]; intros k v H; now apply (H2 k).
Qed.
Lemma fine_arr l : fine (TArr l) <-> forall v, In v l -> fine v.
Proof.
  unfold fine. rewrite filled_arr, fit_arr. split.
  - intros [H2 H3] v H. auto.
  - intros H2. split; intros v H; now apply (H2 v).
Qed.
Lemma fine_scalar t : (forall f, t <> TObj f) -> (forall l, t <> TArr l) -> (forall n, t <> TInt n) -> fine t.
Proof. intros. split; [now apply filled_scalar|now apply fit_scalar]. Qed.
Lemma fine_str s : fine (TStr s).
Proof. now apply fine_scalar. Qed.
Lemma fine_int n : fine (TInt n) <-> fits_int n.
Proof. unfold fine. rewrite fit_int. split; [tauto|]. intro H. split; [now apply filled_scalar|exact H]. Qed.

(** The branches of the definition "matcher". *)
Lemma matcher_branches t : conforms t SRef = true -> exists f, t = TObj f /\
  ((exists s, In s ["everything"; "nothing"]%string /\ conforms t (SObject [type_is s] [js "type"]) = true) \/
   (exists s, In s ["allOf"; "anyOf"; "noneOf"]%string /\ conforms t (SObject [type_is s; matchers_are] [js "type"; js "matchers"]) = true) \/
   (exists s, In s ["name"; "path"]%string /\ conforms t (SObject [type_is s; glob_is] [js "type"; js "glob"]) = true)).
Proof.
  rewrite conforms_ref. unfold matcher_schema. rewrite conforms_both, conforms_type. intros [H1 H2].
  destruct t as [| | | | | |f]; try discriminate H1. exists f. split; [reflexivity|].
  apply conforms_one_of in H2. destruct H2 as (s & Hs & H).
  destruct Hs as [<-|[<-|[<-|[<-|[<-|[<-|[<-|[]]]]]]]].
  - left. eexists. split; [now left|exact H].
  - left. eexists. split; [right; now left|exact H].
  - right. left. eexists. split; [now left|exact H].
  - right. left. eexists. split; [right; now left|exact H].
  - right. left. eexists. split; [right; right; now left|exact H].
  - right. right. eexists. split; [now left|exact H].
  - right. right. eexists. split; [right; now left|exact H].
Qed.

Lemma required f ps req k s : conforms (TObj f) (SObject ps req) = true -> In (js k) req -> lookup (js k) ps = Some s ->
  exists v, has (TObj f) k v /\ conforms v s = true.
Proof.
  intros H Hk E. apply conforms_object in H. destruct H as [H1 H2]. destruct (H2 _ Hk) as [v Hv]. exists v. split; [now exists f|].
  destruct (H1 _ _ Hv) as (s' & E' & C). congruence.
Qed.

Lemma optional f ps req k v s : conforms (TObj f) (SObject ps req) = true -> has (TObj f) k v -> lookup (js k) ps = Some s -> conforms v s = true.
Proof.
  intros H (f' & [= <-] & Hv) E. apply conforms_object in H. destruct H as [H1 _]. destruct (H1 _ _ Hv) as (s' & E' & C). congruence.
Qed.

(** The values of the two or fewer fields of a conforming object. *)
Lemma fields_are f k1 s1 k2 s2 req : conforms (TObj f) (SObject [(js k1, s1); (js k2, s2)] req) = true ->
  forall k v, In (k, v) f -> (k = js k1 /\ has (TObj f) k1 v) \/ (k = js k2 /\ has (TObj f) k2 v).
Proof.
  intros H k v Hk. destruct (proj1 (conforms_object f _ _ H) k v Hk) as (s & E & _). lookups E; subst k.
  - left. split; [reflexivity|now exists f].
  - right. split; [reflexivity|now exists f].
Qed.

Lemma conforming_matcher t : unambiguous t -> conforms t SRef = true ->
  (fine t -> exists m, written_matcher t m /\ usable_matcher m) /\
  (forall m, written_matcher t m -> usable_matcher m -> fine t).
Proof.
  induction t as [t IH] using tree_strong. intros U C. destruct (matcher_branches t C) as (f & -> & [B|[B|B]]); destruct B as (s & Hs & B).
  - destruct (required _ _ _ "type" _ B (or_introl eq_refl) eq_refl) as (v & Hv & Cv). apply conforms_const in Cv. subst v. split.
    + intros _. destruct Hs as [<-|[<-|[]]]; eexists; split; constructor; exact Hv.
    + intros m _ _. assert (K : forall k v, In (k, v) f -> k = js "type" /\ v = TStr (js s)).
      { intros k v Hk. destruct (proj1 (conforms_object f _ _ B) k v Hk) as (s0 & E & C0). lookups E. subst k s0. split; [reflexivity|]. now apply conforms_const. }
      apply fine_obj. split.
      * repeat split; intros (f' & [= <-] & H); apply K in H; destruct H as [H _]; discriminate H.
      * intros k v H. apply K in H. destruct H as [_ ->]. apply fine_str.
  - destruct (required _ _ _ "type" _ B (or_introl eq_refl) eq_refl) as (v & Hv & Cv). apply conforms_const in Cv. subst v.
    destruct (required _ _ _ "matchers" _ B (or_intror (or_introl eq_refl)) eq_refl) as (v & Hl & Cv). apply conforms_both in Cv.
    destruct Cv as [C1 C2]. rewrite conforms_type in C1. destruct v as [| | | | |l|]; try discriminate C1.
    assert (Ul := unambiguous_has _ _ _ Hl U).
    assert (Il : forall x, In x l -> (fine x -> exists m, written_matcher x m /\ usable_matcher m) /\
                                     (forall m, written_matcher x m -> usable_matcher m -> fine x)).
    { intros x Hx. apply IH; [now apply below_list with "matchers"%string l|now apply unambiguous_item with l|now apply (conforms_items l SRef C2)]. }
    split.
    + intro Fi. apply fine_obj in Fi. destruct Fi as [(_ & N & _) Fi]. assert (Fl : fine (TArr l)).
      { destruct Hl as (f' & [= <-] & Hl). now apply (Fi _ _ Hl). }
      assert (Nl : l <> []) by (intros ->; contradiction).
      assert (E : exists ms, Forall2 written_matcher l ms /\ Forall usable_matcher ms).
      { rewrite fine_arr in Fl. clear - Il Fl. induction l as [|x l IHl]; [exists []; split; constructor|].
        destruct IHl as (ms & F1 & F2); [intros y Hy; apply Il; now right|intros y Hy; apply Fl; now right|].
        destruct (proj1 (Il x (or_introl eq_refl)) (Fl x (or_introl eq_refl))) as (m & W & Um). exists (m :: ms). split; constructor; assumption. }
      destruct E as (ms & F1 & F2). rewrite Forall_forall in F2. assert (Nm : ms <> []) by (intros ->; inversion F1; congruence).
      destruct Hs as [<-|[<-|[<-|[]]]].
      * exists (XmAllOf (Some ms)). split; [now apply wm_all with l|now constructor].
      * exists (XmAnyOf (Some ms)). split; [now apply wm_any with l|now constructor].
      * exists (XmNoneOf (Some ms)). split; [now apply wm_none with l|now constructor].
    + intros m W Um.
      assert (E : exists ms, Forall2 written_matcher l ms /\ ms <> [] /\ forall x, In x ms -> usable_matcher x).
      { inversion W as [? Ht|? Ht|? l' ms Ht Hl' F|? l' ms Ht Hl' F|? l' ms Ht Hl' F|? g Ht Hg|? g Ht Hg]; subst; pose proof (has_unique _ _ _ _ U Ht Hv) as Es;
          try (destruct Hs as [<-|[<-|[<-|[]]]]; discriminate Es);
          pose proof (has_unique _ _ _ _ U Hl' Hl) as El; injection El as ->; exists ms; (split; [exact F|]); inversion Um; auto. }
      destruct E as (ms & F & Nm & Hms). apply fine_obj. pose proof (fields_are _ _ _ _ _ _ B) as K. split; [split; [|split]|].
      * intros (f' & [= <-] & H). destruct (K _ _ H) as [[E _]|[E _]]; discriminate E.
      * intro H. pose proof (has_unique _ _ _ _ U H Hl) as El. injection El as <-. inversion F; subst. congruence.
      * intros (f' & [= <-] & H). destruct (K _ _ H) as [[E _]|[E _]]; discriminate E.
      * intros k v H. destruct (K _ _ H) as [[_ Hk]|[_ Hk]].
        -- rewrite (has_unique _ _ _ _ U Hk Hv). apply fine_str.
        -- rewrite (has_unique _ _ _ _ U Hk Hl). apply fine_arr. clear - Il F Hms. induction F as [|x m l ms Wx F IHF]; [intros ? []|].
           intros v [<-|Hv]; [apply (proj2 (Il x (or_introl eq_refl)) m Wx); apply Hms; now left|].
           apply IHF; [intros y Hy; apply Il; now right|intros y Hy; apply Hms; now right|exact Hv].
  - destruct (required _ _ _ "type" _ B (or_introl eq_refl) eq_refl) as (v & Hv & Cv). apply conforms_const in Cv. subst v.
    destruct (required _ _ _ "glob" _ B (or_intror (or_introl eq_refl)) eq_refl) as (v & Hg & Cv). rewrite conforms_type in Cv.
    destruct v as [| | | |g| |]; try discriminate Cv. split.
    + intro Fi. apply fine_obj in Fi. destruct Fi as [(N & _) _]. assert (Ng : g <> []) by (intros ->; contradiction).
      destruct Hs as [<-|[<-|[]]]; [exists (XmName (Some g))|exists (XmPath (Some g))]; (split; [|now constructor]); [now apply wm_name|now apply wm_path].
    + intros m W Um. assert (Ng : g <> []).
      { inversion W as [? Ht|? Ht|? l' ms Ht Hl' F|? l' ms Ht Hl' F|? l' ms Ht Hl' F|? g' Ht Hg'|? g' Ht Hg']; subst; pose proof (has_unique _ _ _ _ U Ht Hv) as Es;
          try (destruct Hs as [<-|[<-|[]]]; discriminate Es); pose proof (has_unique _ _ _ _ U Hg' Hg) as El; injection El as <-; now inversion Um. }
      apply fine_obj. pose proof (fields_are _ _ _ _ _ _ B) as K. split; [split; [|split]|].
      * intro H. pose proof (has_unique _ _ _ _ U H Hg) as El. injection El as <-. congruence.
      * intros (f' & [= <-] & H). destruct (K _ _ H) as [[E _]|[E _]]; discriminate E.
      * intros (f' & [= <-] & H). destruct (K _ _ H) as [[E _]|[E _]]; discriminate E.
      * intros k v H. destruct (K _ _ H) as [[_ Hk]|[_ Hk]]; [rewrite (has_unique _ _ _ _ U Hk Hv)|rewrite (has_unique _ _ _ _ U Hk Hg)]; apply fine_str.
Qed.

(** What is written in a value that conforms, if nothing is empty or too big; and conversely. *)
Definition gives {A} (v : tree) (W : tree -> A -> Prop) (ok : A -> Prop) : Prop :=
  (fine v -> exists a, W v a /\ ok a) /\ (forall a, W v a -> ok a -> fine v).

Lemma gives_list {A} (W : tree -> A -> Prop) (ok : A -> Prop) l : (forall v, In v l -> gives v W ok) ->
  (fine (TArr l) -> exists r, Forall2 W l r /\ Forall ok r) /\ (forall r, Forall2 W l r -> Forall ok r -> fine (TArr l)).
Proof.
  intro H. rewrite fine_arr. split.
  - intro F. induction l as [|v l IH]; [exists []; split; constructor|].
    destruct IH as (r & F1 & F2); [intros y Hy; apply H; now right|intros y Hy; apply F; now right|].
    destruct (proj1 (H v (or_introl eq_refl)) (F v (or_introl eq_refl))) as (a & Wa & Oa). exists (a :: r). split; constructor; assumption.
  - intros r F O. apply fine_arr. induction F as [|v a l r Wa F IH]; [intros ? []|]. inversion O as [|? ? O1 O2]; subst. intros y [<-|Hy].
    + now apply (proj2 (H v (or_introl eq_refl)) a).
    + apply IH; auto. intros z Hz. apply H. now right.
Qed.

Lemma gives_setting {A} f k (W : tree -> A -> Prop) (ok : A -> Prop) : unambiguous (TObj f) ->
  (forall v, has (TObj f) k v -> v <> TNull /\ gives v W ok) ->
  ((forall v, has (TObj f) k v -> fine v) -> exists o, setting (TObj f) k W o /\ forall a, o = Some a -> ok a) /\
  (forall o, setting (TObj f) k W o -> (forall a, o = Some a -> ok a) -> forall v, has (TObj f) k v -> fine v).
Proof.
  intros U H. split.
  - intro F. destruct (lookup (js k) f) as [v|] eqn:E.
    + apply has_lookup in E; [|exact U]. destruct (proj1 (proj2 (H v E)) (F v E)) as (a & Wa & Oa). exists (Some a). split; [now exists v|].
      now intros ? [= <-].
    + exists None. split; [|discriminate]. apply blank_lookup; auto.
  - intros o S O v Hv. destruct o as [a|]; simpl in S.
    + destruct S as (v' & Hv' & Wa). rewrite (has_unique _ _ _ _ U Hv Hv'). apply (proj2 (proj2 (H v' Hv')) a Wa). now apply O.
    + rewrite (S v Hv). now apply fine_scalar.
Qed.

Lemma gives_side f k : unambiguous (TObj f) ->
  (forall v, has (TObj f) k v -> v <> TNull /\ gives v written_matcher usable_matcher) ->
  ((forall v, has (TObj f) k v -> fine v) -> exists m, written_side (TObj f) k m /\ (m = XmNull \/ usable_matcher m)) /\
  (forall m, written_side (TObj f) k m -> (m = XmNull \/ usable_matcher m) -> forall v, has (TObj f) k v -> fine v).
Proof.
  intros U H. destruct (gives_setting f k written_matcher usable_matcher U H) as [H1 H2]. split.
  - intro F. destruct (H1 F) as ([m|] & S & O).
    + exists m. split; [right; exact S|right; now apply O].
    + exists XmNull. split; [left; auto|now left].
  - intros m [[B ->]|(v' & Hv' & W)] O v Hv.
    + now apply (H2 None).
    + apply (H2 (Some m)); [now exists v'| |exact Hv]. intros ? [= <-]. destruct O as [->|O]; [inversion W|exact O].
Qed.

Lemma matcher_gives v : unambiguous v -> conforms v SRef = true -> gives v written_matcher usable_matcher.
Proof. exact (conforming_matcher v). Qed.

Lemma conforms_not_null v : conforms v SRef = true -> v <> TNull.
Proof. intros C ->. vm_compute in C. discriminate C. Qed.

(** An integer. *)
Lemma conforms_int v : plain_numbers v -> conforms v (SType JInteger) = true -> exists n, v = TInt n.
Proof.
  rewrite conforms_type. intros P C. destruct v as [| |n|z []| | |]; try discriminate C; [eauto|]. exfalso. apply (P z true). constructor.
Qed.

Lemma plain_within v t : within v t -> plain_numbers t -> plain_numbers v.
Proof. intros W P z b H. apply (P z b). now apply within_trans with v. Qed.
Lemma plain_has t k v : has t k v -> plain_numbers t -> plain_numbers v.
Proof. intro H. apply plain_within. now apply within_has in H. Qed.
Lemma plain_item l t : In t l -> plain_numbers (TArr l) -> plain_numbers t.
Proof. intro H. apply plain_within. apply wi_item with t; [exact H|constructor]. Qed.

Definition ok_item (i : option xitem) : Prop := exists n m, i = Some (mkXItem (Some n) m) /\ usable_matcher m.
Definition ok_extension (e : option xextension) : Prop := exists s m, e = Some (mkXExtension (Some s) m) /\ usable_matcher m.

Lemma no_key f k1 s1 k2 s2 req k v : conforms (TObj f) (SObject [(js k1, s1); (js k2, s2)] req) = true ->
  js k <> js k1 -> js k <> js k2 -> ~ has (TObj f) k v.
Proof. intros C N1 N2 (f' & [= <-] & H). destruct (fields_are _ _ _ _ _ _ C _ _ H) as [[E _]|[E _]]; contradiction. Qed.

(** A record of two required fields. *)
Lemma fine_pair f k1 s1 v1 k2 s2 v2 req : unambiguous (TObj f) -> conforms (TObj f) (SObject [(js k1, s1); (js k2, s2)] req) = true ->
  has (TObj f) k1 v1 -> has (TObj f) k2 v2 -> js "glob" <> js k1 -> js "glob" <> js k2 ->
  js "matchers" <> js k1 -> js "matchers" <> js k2 -> js "limits" <> js k1 -> (js "limits" = js k2 -> v2 <> TArr []) ->
  fine (TObj f) <-> fine v1 /\ fine v2.
Proof.
  intros U C H1 H2 N1 N2 N3 N4 N5 N6. rewrite fine_obj. split.
  - intros [_ F]. destruct H1 as (f' & [= <-] & H1). destruct H2 as (f' & [= <-] & H2). split; [now apply (F _ _ H1)|now apply (F _ _ H2)].
  - intros [F1 F2]. split.
    + split; [now apply (no_key f k1 s1 k2 s2 req)|]. split; [now apply (no_key f k1 s1 k2 s2 req)|].
      intro H. destruct H as (f' & [= <-] & H). destruct (fields_are _ _ _ _ _ _ C _ _ H) as [[E _]|[E Hk]]; [contradiction|].
      apply (N6 E). exact (has_unique _ _ _ _ U H2 Hk).
    + intros k v H. destruct (fields_are _ _ _ _ _ _ C _ _ H) as [[_ Hk]|[_ Hk]].
      * now rewrite (has_unique _ _ _ _ U Hk H1).
      * now rewrite (has_unique _ _ _ _ U Hk H2).
Qed.

Lemma item_gives v : unambiguous v -> plain_numbers v ->
  conforms v (SBoth (SType JObject)
     (SObject [(js "limit", SBoth (SType JInteger) (SMinimum (-1))); (js "matcher", SRef)] [js "limit"; js "matcher"])) = true ->
  gives v written_item ok_item.
Proof.
  intros U P C. apply conforms_both in C. destruct C as [C1 C]. rewrite conforms_type in C1. destruct v as [| | | | | |f]; try discriminate C1.
  destruct (required _ _ _ "limit" _ C (or_introl eq_refl) eq_refl) as (v1 & H1 & C2). apply conforms_both in C2. destruct C2 as [C2 _].
  destruct (conforms_int v1 (plain_has _ _ _ H1 P) C2) as [n ->].
  destruct (required _ _ _ "matcher" _ C (or_intror (or_introl eq_refl)) eq_refl) as (v2 & H2 & C3).
  destruct (matcher_gives v2 (unambiguous_has _ _ _ H2 U) C3) as [M1 M2]. clear C2 C3.
  assert (K : fine (TObj f) <-> fine (TInt n) /\ fine v2) by (eapply fine_pair; try exact C; eauto; discriminate).
  rewrite fine_int in K. split.
  - intro F. apply K in F. destruct F as [Fn F2]. destruct (M1 F2) as (m & W & Um). exists (Some (mkXItem (Some n) m)).
    split; [exists n, v2, m; auto|exists n, m; auto].
  - intros a (n' & v' & m' & A1 & A2 & A3 & A4 & ->) (n0 & m & [= <- <-] & Um). apply K.
    pose proof (has_unique _ _ _ _ U A1 H1) as E. injection E as ->. split; [exact A2|]. rewrite (has_unique _ _ _ _ U A3 H2) in A4. now apply (M2 m').
Qed.

Lemma extension_gives v : unambiguous v ->
  conforms v (SBoth (SType JObject) (SObject [(js "extension", SType JString); (js "matcher", SRef)] [js "extension"; js "matcher"])) = true ->
  gives v written_extension ok_extension.
Proof.
  intros U C. apply conforms_both in C. destruct C as [C1 C]. rewrite conforms_type in C1. destruct v as [| | | | | |f]; try discriminate C1.
  destruct (required _ _ _ "extension" _ C (or_introl eq_refl) eq_refl) as (v1 & H1 & C2). rewrite conforms_type in C2.
  destruct v1 as [| | | |s| |]; try discriminate C2.
  destruct (required _ _ _ "matcher" _ C (or_intror (or_introl eq_refl)) eq_refl) as (v2 & H2 & C3).
  destruct (matcher_gives v2 (unambiguous_has _ _ _ H2 U) C3) as [M1 M2]. clear C3.
  assert (K : fine (TObj f) <-> fine (TStr s) /\ fine v2) by (eapply fine_pair; try exact C; eauto; discriminate). split.
  - intro F. apply K in F. destruct F as [_ F2]. destruct (M1 F2) as (m & W & Um). exists (Some (mkXExtension (Some s) m)).
    split; [exists s, v2, m; auto|exists s, m; auto].
  - intros a (n' & v' & m' & A1 & A2 & A3 & ->) (n0 & m & [= <- <-] & Um). apply K. split; [apply fine_str|].
    rewrite (has_unique _ _ _ _ U A2 H2) in A3. now apply (M2 m').
Qed.

Lemma limit_gives v : unambiguous v -> plain_numbers v -> conforms v limit_schema = true -> v <> TNull /\ gives v written_limit acceptable_limit.
Proof.
  intros U P C. assert (O : exists f, v = TObj f).
  { destruct v as [| | | | | |f]; [vm_compute in C; discriminate C..|eauto]. }
  destruct O as [f ->]. split; [discriminate|]. apply conforms_one_of in C. destruct C as (s & [<-|[<-|[]]] & C).
  - destruct (required _ _ _ "type" _ C (or_introl eq_refl) eq_refl) as (v0 & H0 & C0). apply conforms_const in C0. subst v0.
    destruct (required _ _ _ "limit" _ C (or_intror (or_introl eq_refl)) eq_refl) as (v1 & H1 & C1).
    destruct (conforms_int v1 (plain_has _ _ _ H1 P) C1) as [n ->].
    assert (K : fine (TObj f) <-> fine (TStr (js "static")) /\ fine (TInt n)) by (eapply fine_pair; try exact C; eauto; discriminate).
    rewrite fine_int in K. split.
    + intro F. apply K in F. destruct F as [_ F]. exists (XStatic (Some n)). split; [now apply wl_static|left; eauto].
    + intros a W _. apply K. split; [apply fine_str|]. inversion W as [? n' A1 A2 A3|? l items A1 A2 A3]; subst.
      * pose proof (has_unique _ _ _ _ U A2 H1) as E. now injection E as <-.
      * pose proof (has_unique _ _ _ _ U A1 H0) as E. discriminate E.
  - destruct (required _ _ _ "type" _ C (or_introl eq_refl) eq_refl) as (v0 & H0 & C0). apply conforms_const in C0. subst v0.
    destruct (required _ _ _ "limits" _ C (or_intror (or_introl eq_refl)) eq_refl) as (v1 & H1 & C1).
    apply conforms_both in C1. destruct C1 as [C1 C2]. rewrite conforms_type in C1. destruct v1 as [| | | | |l|]; try discriminate C1.
    pose proof (unambiguous_has _ _ _ H1 U) as Ul. pose proof (plain_has _ _ _ H1 P) as Pl.
    destruct (gives_list written_item ok_item l) as [G1 G2].
    { intros x Hx. apply item_gives; [now apply unambiguous_item with l|now apply plain_item with l|]. now apply (conforms_items l _ C2). }
    assert (K : l <> [] -> fine (TObj f) <-> fine (TStr (js "dynamic")) /\ fine (TArr l)).
    { intro N. eapply fine_pair; try exact C; eauto; try discriminate. intros _ [= ->]. now apply N. }
    split.
    + intro F. assert (N : l <> []) by (intros ->; apply fine_obj in F; destruct F as [(_ & _ & F) _]; contradiction).
      apply (K N) in F. destruct F as [_ F]. destruct (G1 F) as (r & F1 & F2). exists (XDynamic (Some r)). split; [now apply wl_dynamic with l|].
      right. exists r. split; [reflexivity|]. split; [intros ->; inversion F1; congruence|]. intros i Hi. rewrite Forall_forall in F2. exact (F2 i Hi).
    + intros a W A. inversion W as [? n' A1 A2 A3|? l' items A1 A2 A3]; subst; [pose proof (has_unique _ _ _ _ U A1 H0) as E; discriminate E|].
      pose proof (has_unique _ _ _ _ U A2 H1) as E. injection E as ->.
      destruct A as [[n' A]|(items' & [= <-] & N & A)]; [discriminate|]. apply K; [intros ->; inversion A3; congruence|]. split; [apply fine_str|].
      apply (G2 items A3). now apply Forall_forall.
Qed.

Definition ok_filter (x : xfilter) : Prop := (xf_dir x = XmNull \/ usable_matcher (xf_dir x)) /\ (xf_file x = XmNull \/ usable_matcher (xf_file x)).

Lemma filter_gives v : unambiguous v ->
  conforms v (SBoth (SType JObject) (SObject [(js "dir", SRef); (js "file", SRef)] [])) = true ->
  gives v (fun v y => is_object v /\ written_side v "dir" (xf_dir y) /\ written_side v "file" (xf_file y)) ok_filter.
Proof.
  intros U C. apply conforms_both in C. destruct C as [C1 C]. rewrite conforms_type in C1. destruct v as [| | | | | |f]; try discriminate C1.
  destruct (gives_side f "dir" U) as [D1 D2].
  { intros v Hv. pose proof (optional _ _ _ _ _ _ C Hv eq_refl) as Cv. split; [now apply conforms_not_null|].
    apply matcher_gives; [now apply unambiguous_has with (TObj f) "dir"%string|exact Cv]. }
  destruct (gives_side f "file" U) as [E1 E2].
  { intros v Hv. pose proof (optional _ _ _ _ _ _ C Hv eq_refl) as Cv. split; [now apply conforms_not_null|].
    apply matcher_gives; [now apply unambiguous_has with (TObj f) "file"%string|exact Cv]. }
  split.
  - intro F. apply fine_obj in F. destruct F as [_ F].
    destruct D1 as (m1 & W1 & O1); [intros v (f' & [= <-] & Hv); now apply (F _ _ Hv)|].
    destruct E1 as (m2 & W2 & O2); [intros v (f' & [= <-] & Hv); now apply (F _ _ Hv)|].
    exists (mkXFilter m1 m2). split; [|now split]. split; [now exists f|now split].
  - intros y (_ & W1 & W2) [O1 O2]. apply fine_obj. split.
    + split; [|split]; apply (no_key f "dir" SRef "file" SRef []); try exact C; discriminate.
    + intros k v H. destruct (fields_are _ _ _ _ _ _ C _ _ H) as [[_ Hk]|[_ Hk]]; [now apply (D2 (xf_dir y))|now apply (E2 (xf_file y))].
Qed.

Lemma bool_gives v : conforms v (SType JBoolean) = true -> v <> TNull /\ gives v (fun v b => v = TBool b) (fun _ => True).
Proof.
  rewrite conforms_type. destruct v; try discriminate. intros _. split; [discriminate|]. split; [eauto|]. intros. now apply fine_scalar.
Qed.

Lemma int_gives v : plain_numbers v -> conforms v (SType JInteger) = true ->
  v <> TNull /\ gives v (fun v n => v = TInt n /\ fits_int n) (fun _ => True).
Proof.
  intros P C. destruct (conforms_int v P C) as [n ->]. split; [discriminate|]. unfold gives. rewrite fine_int. split; [eauto|].
  intros a [[= <-] H] _. now apply fine_int.
Qed.

Lemma options_gives t : unambiguous t -> plain_numbers t -> conforms t options_schema = true -> gives t written acceptable.
Proof.
  intros U P C. apply conforms_both in C. destruct C as [C1 C]. rewrite conforms_type in C1. destruct t as [| | | | | |f]; try discriminate C1.
  assert (Uh := fun k v (H : has (TObj f) k v) => unambiguous_has _ _ _ H U). assert (Ph := fun k v (H : has (TObj f) k v) => plain_has _ _ _ H P).
  destruct (gives_setting f "emojis" (fun v b => v = TBool b) (fun _ => True) U) as [A1 B1].
  { intros v Hv. apply bool_gives. exact (optional _ _ _ _ _ _ C Hv eq_refl). }
  destruct (gives_setting f "compactDirectories" (fun v b => v = TBool b) (fun _ => True) U) as [A2 B2].
  { intros v Hv. apply bool_gives. exact (optional _ _ _ _ _ _ C Hv eq_refl). }
  destruct (gives_setting f "maxDepth" (fun v n => v = TInt n /\ fits_int n) (fun _ => True) U) as [A3 B3].
  { intros v Hv. apply int_gives; [eauto|]. exact (optional _ _ _ _ _ _ C Hv eq_refl). }
  destruct (gives_setting f "childLimit" written_limit acceptable_limit U) as [A4 B4].
  { intros v Hv. apply limit_gives; [eauto|eauto|]. exact (optional _ _ _ _ _ _ C Hv eq_refl). }
  destruct (gives_setting f "filter" (fun v y => is_object v /\ written_side v "dir" (xf_dir y) /\ written_side v "file" (xf_file y)) ok_filter U) as [A5 B5].
  { intros v Hv. pose proof (optional _ _ _ _ _ _ C Hv eq_refl) as Cv. split; [intros ->; vm_compute in Cv; discriminate Cv|].
    apply filter_gives; [eauto|exact Cv]. }
  destruct (gives_setting f "lineExtensions" (fun v l => exists vs, v = TArr vs /\ Forall2 written_extension vs l) (Forall ok_extension) U) as [A6 B6].
  { intros v Hv. pose proof (optional _ _ _ _ _ _ C Hv eq_refl) as Cv. apply conforms_both in Cv. destruct Cv as [C2 C3]. rewrite conforms_type in C2.
    destruct v as [| | | | |l|]; try discriminate C2. split; [discriminate|].
    destruct (gives_list written_extension ok_extension l) as [G1 G2].
    { intros x Hx. apply extension_gives; [apply unambiguous_item with l; eauto|now apply (conforms_items l _ C3)]. }
    split; [intro F; destruct (G1 F) as (r & F1 & F2); eauto|]. intros r (vs & [= <-] & F) O. now apply (G2 r). }
  split.
  - intro F. apply fine_obj in F. destruct F as [_ F].
    assert (Fh : forall k v, has (TObj f) k v -> fine v) by (intros k v (f' & [= <-] & Hv); now apply (F _ _ Hv)).
    destruct A1 as (o1 & S1 & O1); [eauto|]. destruct A2 as (o2 & S2 & O2); [eauto|]. destruct A3 as (o3 & S3 & O3); [eauto|].
    destruct A4 as (o4 & S4 & O4); [eauto|]. destruct A5 as (o5 & S5 & O5); [eauto|]. destruct A6 as (o6 & S6 & O6); [eauto|].
    exists (mkXOptions o1 o2 o3 o4 o5 o6). split; [constructor; try assumption; now exists f|].
    constructor; simpl; [exact O4|exact O5|]. intros l Hl e He. specialize (O6 l Hl). rewrite Forall_forall in O6. exact (O6 e He).
  - intros x [_ S1 S2 S3 S4 S5 S6] [O4 O5 O6]. apply fine_obj.
    assert (K : forall k v, In (k, v) f -> In k (map js ["emojis"; "compactDirectories"; "maxDepth"; "childLimit"; "filter"; "lineExtensions"]%string)).
    { intros k v H. destruct (proj1 (conforms_object f _ _ C) k v H) as (s & E & _). lookups E; subst k; simpl; tauto. }
    split.
    + split; [|split]; intros (f' & [= <-] & H); apply K in H; simpl in H; repeat (destruct H as [H|H]; [discriminate H|]); exact H.
    + intros k v H. pose proof (K k v H) as Hk.
      destruct Hk as [<-|[<-|[<-|[<-|[<-|[<-|[]]]]]]].
      * apply (B1 (x_emojis x)); auto. now exists f.
      * apply (B2 (x_compact x)); auto. now exists f.
      * apply (B3 (x_max_depth x)); auto. now exists f.
      * apply (B4 (x_child_limit x)); auto. now exists f.
      * apply (B5 (x_filter x)); auto. now exists f.
      * apply (B6 (x_line_extensions x)); auto; [|now exists f]. intros l Hl. apply Forall_forall. exact (O6 l Hl).
Qed.

Lemma conforming_accepted t : unambiguous t -> plain_numbers t -> conforms t options_schema = true ->
  (exists x, read_as t x /\ acceptable x) <-> filled t /\ numbers_fit t.
Proof.
  intros U P C. destruct (options_gives t U P C) as [G1 G2]. split.
  - intros (x & R & A). apply read_what_is_written in R; auto. exact (G2 x R A).
  - intro F. destruct (G1 F) as (x & W & A). exists x. split; [now apply read_what_is_written|exact A].
Qed.

(** ** What reading a conforming file gives is certain *)

Definition certain {A} (r : bound A) : Prop := r <> Unmodelled.

Lemma certain_ap {A B} (f : bound (A -> B)) x : certain f -> certain x -> certain (b_ap f x).
Proof. unfold certain. destruct f, x; simpl; congruence. Qed.
Lemma certain_map {A B} (f : A -> B) x : certain x -> certain (b_map f x).
Proof. intro H. apply certain_ap; [discriminate|exact H]. Qed.
Lemma certain_all {A} (g : tree -> bound A) l : (forall v, In v l -> certain (g v)) -> certain (b_all (map g l)).
Proof.
  induction l as [|v l IH]; intro H; simpl; [discriminate|]. apply certain_ap; [apply certain_map, H; now left|]. apply IH. intros; apply H; now right.
Qed.
Lemma certain_list {A} (g : tree -> bound A) l : (forall v, In v l -> certain (g v)) -> certain (b_list g (TArr l)).
Proof. intro H. now apply certain_map, certain_all. Qed.
Lemma certain_field {A} k f (a : A) g : (forall v, has (TObj f) k v -> certain (g v)) -> certain (b_field (js k) f a g).
Proof.
  intro H. unfold b_field. destruct (lookup (js k) f) as [v|] eqn:E; [|discriminate]. apply H. exists f. split; [reflexivity|now apply lookup_in].
Qed.
Lemma certain_nullable {A} (g : tree -> bound A) v : certain (g v) -> certain (b_nullable g v).
Proof. intro H. destruct v; try (now apply certain_map). discriminate. Qed.
Lemma certain_int n : certain (b_int (TInt n)).
Proof. unfold certain. simpl. destruct (_ && _); discriminate. Qed.

Lemma certain_typed {A} f ty (subs : list (jstring * bound A)) : unambiguous (TObj f) -> has (TObj f) "type" (TStr ty) ->
  (forall r, lookup ty subs = Some r -> certain r) -> certain (b_typed f subs).
Proof.
  intros U H C. apply has_lookup in H; [|exact U]. unfold b_typed. rewrite H. destruct (lookup ty subs) as [r|]; [now apply C|discriminate].
Qed.

Lemma certain_matcher t : unambiguous t -> conforms t SRef = true -> certain (bind_matcher t).
Proof.
  induction t as [t IH] using tree_strong. intros U C. destruct (matcher_branches t C) as (f & -> & B).
  rewrite bind_matcher_obj. rewrite (proj2 (distinct_keys_iff f) (unambiguous_nodup f U)). cbv zeta.
  destruct B as [B|[B|B]]; destruct B as (s & Hs & B); destruct (required _ _ _ "type" _ B (or_introl eq_refl) eq_refl) as (v & Hv & Cv);
    apply conforms_const in Cv; subst v; apply (certain_typed _ _ _ U Hv); intros r E.
  - lookups E; subst r; try discriminate;
      match goal with H : js s = _ |- _ => destruct Hs as [<-|[<-|[]]]; discriminate H end.
  - lookups E; subst r; try discriminate; try match goal with H : js s = _ |- _ => destruct Hs as [<-|[<-|[<-|[]]]]; discriminate H end;
      apply certain_map, certain_field; intros v Hl; pose proof (optional _ _ _ _ _ _ B Hl eq_refl) as Cv; apply conforms_both in Cv;
      destruct Cv as [C1 C2]; rewrite conforms_type in C1; destruct v as [| | | | |l|]; try discriminate C1;
      apply certain_list; intros v Hx; (apply IH; [now apply below_list with "matchers"%string l| |now apply (conforms_items l SRef C2)]);
      apply unambiguous_item with l; try exact Hx; now apply unambiguous_has with (TObj f) "matchers"%string.
  - lookups E; subst r; try discriminate; try match goal with H : js s = _ |- _ => destruct Hs as [<-|[<-|[]]]; discriminate H end;
      apply certain_map, certain_field; intros v Hl; pose proof (optional _ _ _ _ _ _ B Hl eq_refl) as Cv; rewrite conforms_type in Cv;
      destruct v; try discriminate Cv; discriminate.
Qed.

Lemma certain_record {A} f (g : list (jstring * tree) -> bound A) : unambiguous (TObj f) -> certain (g f) -> certain (b_record (TObj f) g).
Proof. intros U H. unfold b_record. now rewrite (proj2 (distinct_keys_iff f) (unambiguous_nodup f U)). Qed.

Lemma certain_number v : plain_numbers v -> conforms v (SType JInteger) = true -> certain (b_int v).
Proof. intros P C. destruct (conforms_int v P C) as [n ->]. apply certain_int. Qed.

Lemma certain_matcher_field f k a ps req : unambiguous (TObj f) -> conforms (TObj f) (SObject ps req) = true -> lookup (js k) ps = Some SRef ->
  certain (b_field (js k) f a bind_matcher).
Proof.
  intros U C E. apply certain_field. intros v Hv. apply certain_matcher; [now apply unambiguous_has with (TObj f) k|].
  exact (optional _ _ _ _ _ _ C Hv E).
Qed.

Lemma certain_options t : unambiguous t -> plain_numbers t -> conforms t options_schema = true -> certain (bind_options t).
Proof.
  intros U P C. apply conforms_both in C. destruct C as [C1 C]. rewrite conforms_type in C1. destruct t as [| | | | | |f]; try discriminate C1.
  assert (Uh := fun k v (H : has (TObj f) k v) => unambiguous_has _ _ _ H U). assert (Ph := fun k v (H : has (TObj f) k v) => plain_has _ _ _ H P).
  apply certain_record; [exact U|]. repeat apply certain_ap; [discriminate|..]; apply certain_field; intros v Hv;
    pose proof (optional _ _ _ _ _ _ C Hv eq_refl) as Cv.
  - rewrite conforms_type in Cv. destruct v; discriminate.
  - rewrite conforms_type in Cv. destruct v; discriminate.
  - apply certain_number; eauto.
  - apply certain_nullable. assert (O : exists g, v = TObj g).
    { destruct v as [| | | | | |g]; [vm_compute in Cv; discriminate Cv..|eauto]. }
    destruct O as [g ->]. assert (Ug := Uh _ _ Hv). assert (Pg := Ph _ _ Hv). apply certain_record; [exact Ug|].
    apply conforms_one_of in Cv. destruct Cv as (s & [<-|[<-|[]]] & D);
      destruct (required _ _ _ "type" _ D (or_introl eq_refl) eq_refl) as (v0 & H0 & C0); apply conforms_const in C0; subst v0;
      apply (certain_typed _ _ _ Ug H0); intros r E; cbn [lookup] in E; simpl in E; injection E as <-; apply certain_map, certain_field; intros v1 H1;
      pose proof (optional _ _ _ _ _ _ D H1 eq_refl) as Cv1.
    + apply certain_number; [now apply plain_has with (TObj g) "limit"%string|exact Cv1].
    + apply conforms_both in Cv1. destruct Cv1 as [C2 C3]. rewrite conforms_type in C2. destruct v1 as [| | | | |l|]; try discriminate C2.
      apply certain_list. intros i Hi. apply certain_nullable. pose proof (conforms_items l _ C3 i Hi) as Ci. apply conforms_both in Ci.
      destruct Ci as [Ci1 Ci]. rewrite conforms_type in Ci1. destruct i as [| | | | | |fi]; try discriminate Ci1.
      assert (Ui : unambiguous (TObj fi)).
      { apply unambiguous_item with l; [exact Hi|]. now apply unambiguous_has with (TObj g) "limits"%string. }
      assert (Pi : plain_numbers (TObj fi)).
      { apply plain_item with l; [exact Hi|]. now apply plain_has with (TObj g) "limits"%string. }
      apply certain_record; [exact Ui|]. apply certain_ap; [apply certain_map, certain_field; intros v2 H2|].
      * pose proof (optional _ _ _ _ _ _ Ci H2 eq_refl) as C4. apply conforms_both in C4. destruct C4 as [C4 _].
        apply certain_number; [now apply plain_has with (TObj fi) "limit"%string|exact C4].
      * now apply (certain_matcher_field fi "matcher" _ _ _ Ui Ci).
  - apply certain_nullable. assert (Uv := Uh _ _ Hv). apply conforms_both in Cv. destruct Cv as [C2 C3]. rewrite conforms_type in C2.
    destruct v as [| | | | | |g]; try discriminate C2. apply certain_record; [exact Uv|].
    apply certain_ap; [apply certain_map|]; now apply (certain_matcher_field g _ _ _ _ Uv C3).
  - assert (Uv := Uh _ _ Hv). apply conforms_both in Cv. destruct Cv as [C2 C3]. rewrite conforms_type in C2.
    destruct v as [| | | | |l|]; try discriminate C2. apply certain_list. intros e He. apply certain_nullable.
    pose proof (conforms_items l _ C3 e He) as Ce. apply conforms_both in Ce. destruct Ce as [Ce1 Ce]. rewrite conforms_type in Ce1.
    destruct e as [| | | | | |fe]; try discriminate Ce1. assert (Ue := unambiguous_item _ _ He Uv). apply certain_record; [exact Ue|].
    apply certain_ap; [apply certain_map, certain_field; intros v2 H2|now apply (certain_matcher_field fe "matcher" _ _ _ Ue Ce)].
    pose proof (optional _ _ _ _ _ _ Ce H2 eq_refl) as C4. rewrite conforms_type in C4. destruct v2; discriminate.
Qed.

(** Whatever is read. *)
Lemma C100_reading t r : unambiguous t -> plain_numbers t -> conforms t options_schema = true -> reads_as t r ->
  (filled t /\ numbers_fit t -> exists x, r = LoadDoc x /\ acceptable x /\ written t x) /\
  (forall x, r = LoadDoc x -> acceptable x -> filled t /\ numbers_fit t).
Proof.
  intros U P C R. pose proof (certain_options t U P C) as K. split.
  - intro F. apply (conforming_accepted t U P C) in F. destruct F as (x & Rx & A). exists x. split; [now apply Rx|]. split; [exact A|]. now apply read_what_is_written.
  - intros x -> A. apply (conforming_accepted t U P C). exists x. split; [|exact A]. apply read_as_bound.
    assert (exists f, t = TObj f) as [f ->].
    { apply conforms_both in C. destruct C as [C _]. rewrite conforms_type in C. destruct t as [| | | | | |f]; try discriminate C. eauto. }
    cbn [reads_as] in R. destruct (bind_options (TObj f)) as [y| |]; [now injection R as ->|discriminate R|now destruct K].
Qed.

(** ** Keys nobody reads *)

Lemma known_in k : existsb (jeqb k) known_keys = true -> In k known_keys.
Proof. intro H. apply existsb_exists in H. destruct H as (x & Hx & E). destruct (jeqb_spec k x) as [->|]; [exact Hx|discriminate]. Qed.

Lemma same_lookup f f' k : NoDup (map fst f) -> NoDup (map fst f') ->
  (forall k v, In k known_keys -> In (k, v) f -> exists v', In (k, v') f' /\ same_settings v v') ->
  (forall k v', In k known_keys -> In (k, v') f' -> exists v, In (k, v) f) -> In k known_keys ->
  (lookup k f = None /\ lookup k f' = None) \/
  exists v v', lookup k f = Some v /\ lookup k f' = Some v' /\ same_settings v v' /\ In (k, v) f.
Proof.
  intros N N' H1 H2 Hk. destruct (lookup k f) as [v|] eqn:E.
  - right. apply lookup_in in E. destruct (H1 k v Hk E) as (v' & Hv' & S). exists v, v'. split; [reflexivity|]. split; [now apply lookup_nodup|auto].
  - left. split; [reflexivity|]. apply lookup_none. intros v' Hv'. destruct (H2 k v' Hk Hv') as [v Hv]. rewrite lookup_none in E. now apply (E v).
Qed.

Lemma same_field {A} f f' k (a : A) g : NoDup (map fst f) -> NoDup (map fst f') ->
  (forall k v, In k known_keys -> In (k, v) f -> exists v', In (k, v') f' /\ same_settings v v') ->
  (forall k v', In k known_keys -> In (k, v') f' -> exists v, In (k, v) f) -> In (js k) known_keys ->
  (forall v v', In (js k, v) f -> same_settings v v' -> g v = g v') -> b_field (js k) f a g = b_field (js k) f' a g.
Proof.
  intros N N' H1 H2 Hk G. unfold b_field. destruct (same_lookup f f' (js k) N N' H1 H2 Hk) as [[-> ->]|(v & v' & -> & -> & S & Hv)]; [reflexivity|].
  now apply G.
Qed.

Lemma same_bool v v' : same_settings v v' -> b_bool v = b_bool v'.
Proof. intro S. inversion S; reflexivity. Qed.
Lemma same_int v v' : same_settings v v' -> b_int v = b_int v'.
Proof. intro S. inversion S; reflexivity. Qed.
Lemma same_str v v' : same_settings v v' -> b_str v = b_str v'.
Proof. intro S. inversion S; reflexivity. Qed.
Lemma same_all {A} (g : tree -> bound A) l l' : (forall v v', In v l -> same_settings v v' -> g v = g v') -> Forall2 same_settings l l' ->
  b_all (map g l) = b_all (map g l').
Proof.
  intros G F. induction F as [|v v' l l' S F IH]; [reflexivity|]. simpl. rewrite (G v v') by (simpl; auto). rewrite IH; [reflexivity|].
  intros; apply G; [now right|assumption].
Qed.
Lemma same_list {A} (g : tree -> bound A) v v' : (forall l x x', v = TArr l -> In x l -> same_settings x x' -> g x = g x') -> same_settings v v' ->
  b_list g v = b_list g v'.
Proof.
  intros G S. inversion S as [|l l' F|]; subst; try reflexivity. cbn [b_list]. f_equal. apply same_all; [|exact F]. intros x x' Hx. now apply (G l).
Qed.
Lemma same_nullable {A} (g : tree -> bound A) v v' : same_settings v v' -> g v = g v' -> b_nullable g v = b_nullable g v'.
Proof. intros S E. inversion S as [|l l' F|f f' N N' H1 H2]; subst; try reflexivity; cbn [b_nullable]; now f_equal. Qed.
Lemma same_typed {A} f f' (subs : list (jstring * bound A)) : NoDup (map fst f) -> NoDup (map fst f') ->
  (forall k v, In k known_keys -> In (k, v) f -> exists v', In (k, v') f' /\ same_settings v v') ->
  (forall k v', In k known_keys -> In (k, v') f' -> exists v, In (k, v) f) -> b_typed f subs = b_typed f' subs.
Proof.
  intros N N' H1 H2. unfold b_typed.
  destruct (same_lookup f f' (js "type") N N' H1 H2) as [[-> ->]|(v & v' & -> & -> & S & _)]; [now apply known_in|reflexivity|].
  inversion S; reflexivity.
Qed.

Ltac known := apply known_in; reflexivity.

Lemma same_matcher t t' : same_settings t t' -> bind_matcher t = bind_matcher t'.
Proof.
  revert t'. induction t as [t IH] using tree_strong. intros t' S. inversion S as [|l l' F|f f' N N' H1 H2]; subst; try reflexivity.
  rewrite !bind_matcher_obj. rewrite (proj2 (distinct_keys_iff f) N), (proj2 (distinct_keys_iff f') N'). cbv zeta.
  rewrite (same_typed f f' _ N N' H1 H2).
  rewrite (same_field f f' "glob" None b_str N N' H1 H2) by (solve [known] || (intros; now apply same_str)).
  rewrite (same_field f f' "matchers" None (b_list bind_matcher) N N' H1 H2); [reflexivity|known|].
  intros v v' Hv Sv. apply same_list; [|exact Sv]. intros l x x' -> Hx Sx. apply IH; [|exact Sx].
  apply below_list with "matchers"%string l; [now exists f|exact Hx].
Qed.

Lemma same_record {A} t t' (g : list (jstring * tree) -> bound A) : same_settings t t' ->
  (forall f f', NoDup (map fst f) -> NoDup (map fst f') ->
    (forall k v, In k known_keys -> In (k, v) f -> exists v', In (k, v') f' /\ same_settings v v') ->
    (forall k v', In k known_keys -> In (k, v') f' -> exists v, In (k, v) f) -> g f = g f') ->
  b_record t g = b_record t' g.
Proof.
  intros S G. inversion S as [|l l' F|f f' N N' H1 H2]; subst; try reflexivity. cbn [b_record].
  rewrite (proj2 (distinct_keys_iff f) N), (proj2 (distinct_keys_iff f') N'). now apply G.
Qed.

Lemma same_item t t' : same_settings t t' -> bind_item t = bind_item t'.
Proof.
  intro S. apply same_record; [exact S|]. intros f f' N N' H1 H2.
  rewrite (same_field f f' "limit" None b_int N N' H1 H2) by (solve [known] || (intros; now apply same_int)).
  rewrite (same_field f f' "matcher" XmNull bind_matcher N N' H1 H2) by (solve [known] || (intros; now apply same_matcher)). reflexivity.
Qed.
Lemma same_extension t t' : same_settings t t' -> bind_extension t = bind_extension t'.
Proof.
  intro S. apply same_record; [exact S|]. intros f f' N N' H1 H2.
  rewrite (same_field f f' "extension" None b_str N N' H1 H2) by (solve [known] || (intros; now apply same_str)).
  rewrite (same_field f f' "matcher" XmNull bind_matcher N N' H1 H2) by (solve [known] || (intros; now apply same_matcher)). reflexivity.
Qed.
Lemma same_filter t t' : same_settings t t' -> bind_filter t = bind_filter t'.
Proof.
  intro S. apply same_record; [exact S|]. intros f f' N N' H1 H2.
  rewrite (same_field f f' "dir" XmNull bind_matcher N N' H1 H2) by (solve [known] || (intros; now apply same_matcher)).
  rewrite (same_field f f' "file" XmNull bind_matcher N N' H1 H2) by (solve [known] || (intros; now apply same_matcher)). reflexivity.
Qed.
Lemma same_limit t t' : same_settings t t' -> bind_limit t = bind_limit t'.
Proof.
  intro S. apply same_record; [exact S|]. intros f f' N N' H1 H2. rewrite (same_typed f f' _ N N' H1 H2).
  rewrite (same_field f f' "limit" None b_int N N' H1 H2) by (solve [known] || (intros; now apply same_int)).
  rewrite (same_field f f' "limits" None (b_list (b_nullable bind_item)) N N' H1 H2); [reflexivity|known|].
  intros v v' _ Sv. apply same_list; [|exact Sv]. intros l x x' _ _ Sx. apply same_nullable; [exact Sx|now apply same_item].
Qed.
Lemma same_options t t' : same_settings t t' -> bind_options t = bind_options t'.
Proof.
  intro S. apply same_record; [exact S|]. intros f f' N N' H1 H2.
  rewrite (same_field f f' "emojis" None b_bool N N' H1 H2) by (solve [known] || (intros; now apply same_bool)).
  rewrite (same_field f f' "compactDirectories" None b_bool N N' H1 H2) by (solve [known] || (intros; now apply same_bool)).
  rewrite (same_field f f' "maxDepth" None b_int N N' H1 H2) by (solve [known] || (intros; now apply same_int)).
  rewrite (same_field f f' "childLimit" None (b_nullable bind_limit) N N' H1 H2)
    by (solve [known] || (intros; apply same_nullable; [assumption|now apply same_limit])).
  rewrite (same_field f f' "filter" None (b_nullable bind_filter) N N' H1 H2)
    by (solve [known] || (intros; apply same_nullable; [assumption|now apply same_filter])).
  rewrite (same_field f f' "lineExtensions" None (b_list (b_nullable bind_extension)) N N' H1 H2); [reflexivity|known|].
  intros v v' _ Sv. apply same_list; [|exact Sv]. intros l x x' _ _ Sx. apply same_nullable; [exact Sx|now apply same_extension].
Qed.

Lemma same_reading t t' : same_settings t t' -> forall r, reads_as t r <-> reads_as t' r.
Proof.
  intros S r. pose proof (same_options t t' S) as E. inversion S as [|l l' F|f f' N N' H1 H2]; subst; try reflexivity; cbn [reads_as]; rewrite E; reflexivity.
Qed.
