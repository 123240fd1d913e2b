(** * Facts about the text block of an object *)

From Verif Require Import SpecCli.
From Coq Require Import Lia Sorting.Sorted.
Close Scope Z_scope.

Lemma value_ind' (Q : value -> Prop) :
  Q VNull -> (forall cls l, Forall (fun nx => Q (snd nx)) l -> Q (VRecord cls l)) -> (forall l, Forall Q l -> Q (VColl l)) ->
  (forall s, Q (VString s)) -> (forall s, Q (VOther s)) -> forall v, Q v.
Proof.
  intros Hn Hr Hc Hs Ho. fix IH 1. intros [|cls l|l|s|s]; [exact Hn| | |apply Hs|apply Ho].
  - apply Hr. induction l as [|[n x] l IHl]; constructor; [apply IH|exact IHl].
  - apply Hc. induction l as [|x l IHl]; constructor; [apply IH|exact IHl].
Qed.

(** ** Parts, from the outside in *)

Inductive rpart : option jstring -> value -> list nat -> option jstring -> value -> Prop :=
| rp_here nm v : rpart nm v [] nm v
| rp_component nm cls l i n x k nm' y : nth_error l i = Some (n, x) -> rpart (Some n) x k nm' y -> rpart nm (VRecord cls l) (i :: k) nm' y
| rp_item nm l i x k nm' y : nth_error l i = Some x ->
    rpart (Some (js "[" ++ n_str (N.of_nat i) ++ js "]")) x k nm' y -> rpart nm (VColl l) (i :: k) nm' y.

Lemma rpart_snoc_record nm v k name cls l i n x : rpart nm v k name (VRecord cls l) -> nth_error l i = Some (n, x) ->
  rpart nm v (k ++ [i]) (Some n) x.
Proof.
  intro H. remember (VRecord cls l) as y eqn:Ey. induction H; intro Hi; cbn [app].
  - subst v. eapply rp_component; [exact Hi|constructor].
  - eapply rp_component; [eassumption|]. now apply IHrpart.
  - eapply rp_item; [eassumption|]. now apply IHrpart.
Qed.
Lemma rpart_snoc_coll nm v k name l i x : rpart nm v k name (VColl l) -> nth_error l i = Some x ->
  rpart nm v (k ++ [i]) (Some (js "[" ++ n_str (N.of_nat i) ++ js "]")) x.
Proof.
  intro H. remember (VColl l) as y eqn:Ey. induction H; intro Hi; cbn [app].
  - subst v. eapply rp_item; [exact Hi|constructor].
  - eapply rp_component; [eassumption|]. now apply IHrpart.
  - eapply rp_item; [eassumption|]. now apply IHrpart.
Qed.

Lemma part_rpart v k nm x : part v k nm x -> rpart None v k nm x.
Proof.
  induction 1; [constructor|eapply rpart_snoc_record; eassumption|eapply rpart_snoc_coll; eassumption].
Qed.

Lemma rpart_part_gen v0 nm v k nm' x : rpart nm v k nm' x -> forall k0, part v0 k0 nm v -> part v0 (k0 ++ k) nm' x.
Proof.
  induction 1; intros k0 Hk0.
  - now rewrite app_nil_r.
  - replace (k0 ++ i :: k) with ((k0 ++ [i]) ++ k) by now rewrite <- app_assoc. apply IHrpart. eapply part_component; eassumption.
  - replace (k0 ++ i :: k) with ((k0 ++ [i]) ++ k) by now rewrite <- app_assoc. apply IHrpart. eapply part_item; eassumption.
Qed.
Lemma rpart_part v k nm x : rpart None v k nm x -> part v k nm x.
Proof. intro H. exact (rpart_part_gen v None v k nm x H [] (part_root v)). Qed.

(** ** Lines with their keys *)

Definition item_name (i : nat) : option jstring := Some (js "[" ++ n_str (N.of_nat i) ++ js "]").
Definition push (i : nat) (e : list nat * jstring) : list nat * jstring := (i :: fst e, snd e).

Fixpoint klines (d : nat) (name : option jstring) (v : value) : list (list nat * jstring) :=
  match v with
  | VNull => []
  | VRecord cls l =>
      ([], record_head (spaces (2 * d)) name cls) ::
      (fix go (i : nat) (l : list (jstring * value)) :=
         match l with [] => [] | (n, x) :: l' => map (push i) (klines (S d) (Some n) x) ++ go (S i) l' end) 0 l
  | VColl l =>
      ([], coll_head (spaces (2 * d)) name) ::
      (fix go (i : nat) (l : list value) :=
         match l with [] => [] | x :: l' => map (push i) (klines (S d) (item_name i) x) ++ go (S i) l' end) 0 l ++
      [([length l], spaces (2 * d) ++ js "]")]
  | VString s => [([], spaces (2 * d) ++ name_str name ++ js ": " ++ [34%N] ++ s ++ [34%N])]
  | VOther s => [([], spaces (2 * d) ++ name_str name ++ js ": " ++ s)]
  end.

Definition kcomps (d : nat) := fix go (i : nat) (l : list (jstring * value)) : list (list nat * jstring) :=
  match l with [] => [] | (n, x) :: l' => map (push i) (klines (S d) (Some n) x) ++ go (S i) l' end.
Definition kitems (d : nat) := fix go (i : nat) (l : list value) : list (list nat * jstring) :=
  match l with [] => [] | x :: l' => map (push i) (klines (S d) (item_name i) x) ++ go (S i) l' end.

Lemma klines_record d nm cls l : klines d nm (VRecord cls l) = ([], record_head (spaces (2 * d)) nm cls) :: kcomps d 0 l.
Proof. reflexivity. Qed.
Lemma klines_coll d nm l : klines d nm (VColl l) =
  ([], coll_head (spaces (2 * d)) nm) :: kitems d 0 l ++ [([length l], spaces (2 * d) ++ js "]")].
Proof. reflexivity. Qed.

Lemma spaces_S d : spaces (2 * d) ++ text_indent = spaces (2 * S d).
Proof.
  unfold spaces. replace (2 * S d) with (2 * d + 2) by lia. rewrite repeat_app. reflexivity.
Qed.

Lemma push_snd i l : map snd (map (push i) l) = map snd l.
Proof. rewrite map_map. reflexivity. Qed.

Lemma klines_lines v : forall d nm, text_lines (spaces (2 * d)) nm v = map snd (klines d nm v).
Proof.
  apply (value_ind' (fun v => forall d nm, text_lines (spaces (2 * d)) nm v = map snd (klines d nm v))); try reflexivity; clear v.
  - intros cls l HF d nm. rewrite klines_record. cbn [text_lines map snd]. f_equal.
    rewrite spaces_S. set (sh := spaces (2 * S d)).
    generalize 0 as i. induction HF as [|[n x] l Hx HF IH]; intro i; [reflexivity|]. cbn [kcomps]. rewrite map_app, push_snd, <- (IH (S i)).
    specialize (Hx (S d) (Some n)). fold sh in Hx. cbn [snd] in Hx. now rewrite Hx.
  - intros l HF d nm. rewrite klines_coll. cbn [text_lines map snd]. f_equal. rewrite map_app. f_equal.
    rewrite spaces_S. set (sh := spaces (2 * S d)).
    generalize 0 as i. induction HF as [|x l Hx HF IH]; intro i; [reflexivity|]. cbn [kitems]. rewrite map_app, push_snd, <- (IH (S i)).
    specialize (Hx (S d) (item_name i)). fold sh in Hx. unfold item_name in Hx at 1. now rewrite Hx.
Qed.

(** *** Order *)
Definition entry_before (a b : list nat * jstring) : Prop := key_before (fst a) (fst b).

Lemma sorted_app {A} (R : A -> A -> Prop) l1 l2 : StronglySorted R l1 -> StronglySorted R l2 ->
  (forall a b, In a l1 -> In b l2 -> R a b) -> StronglySorted R (l1 ++ l2).
Proof.
  intros H1 H2 H. induction H1 as [|a l1 H1 IH F]; [exact H2|]. cbn. constructor.
  - apply IH. intros. apply H; [now right|assumption].
  - apply Forall_app. split; [exact F|]. apply Forall_forall. intros b Hb. apply H; [now left|exact Hb].
Qed.

Lemma sorted_push i l : StronglySorted entry_before l -> StronglySorted entry_before (map (push i) l).
Proof.
  induction 1 as [|a l H IH F]; [constructor|]. cbn. constructor; [exact IH|].
  rewrite Forall_map. eapply Forall_impl; [|exact F]. intros b Hb. now apply kb_same.
Qed.

Lemma kcomps_keys d l : forall i e, In e (kcomps d i l) -> exists a k, fst e = a :: k /\ i <= a.
Proof.
  induction l as [|[n x] l IH]; intros i e He; [destruct He|]. cbn [kcomps] in He. apply in_app_or in He. destruct He as [He|He].
  - apply in_map_iff in He. destruct He as (e' & <- & _). now exists i, (fst e').
  - destruct (IH (S i) e He) as (a & k & E & H). exists a, k. split; [exact E|lia].
Qed.
Lemma kitems_keys d l : forall i e, In e (kitems d i l) -> exists a k, fst e = a :: k /\ i <= a < i + length l.
Proof.
  induction l as [|x l IH]; intros i e He; [destruct He|]. cbn [kitems] in He. apply in_app_or in He. destruct He as [He|He].
  - apply in_map_iff in He. destruct He as (e' & <- & _). exists i, (fst e'). split; [reflexivity|]. cbn. lia.
  - destruct (IH (S i) e He) as (a & k & E & H). exists a, k. split; [exact E|]. cbn. lia.
Qed.

Lemma klines_sorted v : forall d nm, StronglySorted entry_before (klines d nm v).
Proof.
  apply (value_ind' (fun v => forall d nm, StronglySorted entry_before (klines d nm v))); clear v; try (intros; repeat constructor).
  - assert (K : forall i, StronglySorted entry_before (kcomps d i l)).
    { induction H as [|[n x] l Hx HF IH]; intro i; [constructor|]. cbn [kcomps]. apply sorted_app; [apply sorted_push, Hx|apply IH|].
      intros a b Ha Hb. apply in_map_iff in Ha. destruct Ha as (e & <- & _). destruct (kcomps_keys _ _ _ _ Hb) as (a & k & E & L).
      unfold entry_before. rewrite E. apply kb_less. lia. }
    apply K.
  - apply Forall_forall. intros e He. destruct (kcomps_keys d l 0 e He) as (a & k & E & _). unfold entry_before. rewrite E. constructor.
  - assert (K : forall i, StronglySorted entry_before (kitems d i l)).
    { induction H as [|x l Hx HF IH]; intro i; [constructor|]. cbn [kitems]. apply sorted_app; [apply sorted_push, Hx|apply IH|].
      intros a b Ha Hb. apply in_map_iff in Ha. destruct Ha as (e & <- & _). destruct (kitems_keys _ _ _ _ Hb) as (a & k & E & L).
      unfold entry_before. rewrite E. apply kb_less. lia. }
    apply sorted_app; [apply K|repeat constructor|]. intros a b Ha [<-|[]]. destruct (kitems_keys d l 0 a Ha) as (a' & k & E & L).
    unfold entry_before. rewrite E. apply kb_less. lia.
  - apply Forall_forall. intros e He. apply in_app_or in He. destruct He as [He|[<-|[]]]; [|constructor].
    destruct (kitems_keys d l 0 e He) as (a & k & E & _). unfold entry_before. rewrite E. constructor.
Qed.

(** *** Contents *)
Definition rline (d : nat) (nm : option jstring) (v : value) (k : list nat) (t : jstring) : Prop :=
  (exists nm' x u, rpart nm v k nm' x /\ announced nm' x u /\ t = spaces (2 * (d + length k)) ++ u) \/
  (exists k' nm' l, rpart nm v k' nm' (VColl l) /\ k = k' ++ [length l] /\ t = spaces (2 * (d + length k')) ++ js "]").

Lemma rline_nil d nm v t : rline d nm v [] t <-> exists u, announced nm v u /\ t = spaces (2 * d) ++ u.
Proof.
  split.
  - intros [(nm' & x & u & H & Ha & E)|(k' & nm' & l & H & E & _)].
    + inversion H; subst. exists u. split; [exact Ha|]. now rewrite Nat.add_0_r.
    + destruct k'; discriminate.
  - intros (u & Ha & ->). left. exists nm, v, u. split; [constructor|]. split; [exact Ha|]. now rewrite Nat.add_0_r.
Qed.

Lemma rline_cons d nm v i k t : rline d nm v (i :: k) t <->
  (exists cls l n x, v = VRecord cls l /\ nth_error l i = Some (n, x) /\ rline (S d) (Some n) x k t) \/
  (exists l x, v = VColl l /\ nth_error l i = Some x /\ rline (S d) (item_name i) x k t) \/
  (exists l, v = VColl l /\ i = length l /\ k = [] /\ t = spaces (2 * d) ++ js "]").
Proof.
  split.
  - intros [(nm' & x & u & H & Ha & E)|(k' & nm' & l & H & E & Et)].
    + inversion H; subst.
      * left. do 4 eexists. split; [reflexivity|]. split; [eassumption|]. left. do 3 eexists. split; [eassumption|]. split; [eassumption|].
        cbn [length]. now rewrite Nat.add_succ_r.
      * right; left. do 2 eexists. split; [reflexivity|]. split; [eassumption|]. left. do 3 eexists. split; [eassumption|]. split; [eassumption|].
        cbn [length]. now rewrite Nat.add_succ_r.
    + inversion H; subst.
      * right; right. cbn in E. injection E as -> ->. eexists. split; [reflexivity|]. split; [reflexivity|]. split; [reflexivity|].
        cbn [length]. now rewrite Nat.add_0_r.
      * cbn in E. injection E as -> ->. left. do 4 eexists. split; [reflexivity|]. split; [eassumption|]. right. do 3 eexists.
        split; [eassumption|]. split; [reflexivity|]. cbn [length]. now rewrite Nat.add_succ_r.
      * cbn in E. injection E as -> ->. right; left. do 2 eexists. split; [reflexivity|]. split; [eassumption|]. right. do 3 eexists.
        split; [eassumption|]. split; [reflexivity|]. cbn [length]. now rewrite Nat.add_succ_r.
  - intros [(cls & l & n & x & -> & Hi & [(nm' & y & u & H & Ha & ->)|(k' & nm' & l' & H & -> & ->)])|
           [(l & x & -> & Hi & [(nm' & y & u & H & Ha & ->)|(k' & nm' & l' & H & -> & ->)])|(l & -> & -> & -> & ->)]].
    + left. do 3 eexists. split; [eapply rp_component; eassumption|]. split; [eassumption|]. cbn [length]. now rewrite Nat.add_succ_r.
    + right. exists (i :: k'), nm', l'. split; [eapply rp_component; eassumption|]. split; [reflexivity|]. cbn [length]. now rewrite Nat.add_succ_r.
    + left. do 3 eexists. split; [eapply rp_item; eassumption|]. split; [eassumption|]. cbn [length]. now rewrite Nat.add_succ_r.
    + right. exists (i :: k'), nm', l'. split; [eapply rp_item; eassumption|]. split; [reflexivity|]. cbn [length]. now rewrite Nat.add_succ_r.
    + right. exists [], nm, l. split; [constructor|]. split; [reflexivity|]. cbn [length]. now rewrite Nat.add_0_r.
Qed.

Lemma in_push i k t l : In (k, t) (map (push i) l) <-> exists k', k = i :: k' /\ In (k', t) l.
Proof.
  rewrite in_map_iff. split.
  - intros ([k' t'] & E & H). injection E as <- <-. eauto.
  - intros (k' & -> & H). exists (k', t). now split.
Qed.

Lemma kcomps_in d l : forall i k t, In (k, t) (kcomps d i l) <->
  exists a n x k', nth_error l a = Some (n, x) /\ k = (i + a) :: k' /\ In (k', t) (klines (S d) (Some n) x).
Proof.
  induction l as [|[n x] l IH]; intros i k t; cbn [kcomps].
  - split; [intros []|]. intros ([|a] & n & x & k' & E & _); discriminate.
  - rewrite in_app_iff, in_push, IH. split.
    + intros [(k' & -> & H)|(a & n' & x' & k' & E & -> & H)].
      * exists 0, n, x, k'. split; [reflexivity|]. now rewrite Nat.add_0_r.
      * exists (S a), n', x', k'. split; [exact E|]. split; [f_equal; lia|exact H].
    + intros ([|a] & n' & x' & k' & E & -> & H).
      * injection E as <- <-. left. exists k'. now rewrite Nat.add_0_r.
      * right. exists a, n', x', k'. split; [exact E|]. split; [f_equal; lia|exact H].
Qed.
Lemma kitems_in d l : forall i k t, In (k, t) (kitems d i l) <->
  exists a x k', nth_error l a = Some x /\ k = (i + a) :: k' /\ In (k', t) (klines (S d) (item_name (i + a)) x).
Proof.
  induction l as [|x l IH]; intros i k t; cbn [kitems].
  - split; [intros []|]. intros ([|a] & x & k' & E & _); discriminate.
  - rewrite in_app_iff, in_push, IH. split.
    + intros [(k' & -> & H)|(a & x' & k' & E & -> & H)].
      * exists 0, x, k'. split; [reflexivity|]. now rewrite Nat.add_0_r.
      * exists (S a), x', k'. split; [exact E|]. rewrite <- plus_n_Sm. now split.
    + intros ([|a] & x' & k' & E & -> & H).
      * injection E as <-. left. exists k'. now rewrite Nat.add_0_r in *.
      * right. exists a, x', k'. split; [exact E|]. rewrite <- plus_n_Sm in *. now split.
Qed.

Lemma announced_record nm cls l u : announced nm (VRecord cls l) u <-> forall sh, sh ++ u = record_head sh nm cls.
Proof.
  split.
  - inversion 1; subst; reflexivity.
  - intro H. specialize (H []). cbn in H. subst u. destruct nm; constructor.
Qed.
Lemma announced_coll nm l u : announced nm (VColl l) u <-> forall sh, sh ++ u = coll_head sh nm.
Proof.
  split.
  - inversion 1; subst; reflexivity.
  - intro H. specialize (H []). cbn [app] in H. subst u. destruct nm; constructor.
Qed.

Lemma klines_in v : forall d nm k t, In (k, t) (klines d nm v) <-> rline d nm v k t.
Proof.
  apply (value_ind' (fun v => forall d nm k t, In (k, t) (klines d nm v) <-> rline d nm v k t)); clear v.
  - intros d nm k t. split; [intros []|]. destruct k as [|i k].
    + rewrite rline_nil. intros (u & H & _). inversion H.
    + rewrite rline_cons. intros [(cls & l & n & x & E & _)|[(l & x & E & _)|(l & E & _)]]; discriminate.
  - intros cls l HF d nm k t. rewrite klines_record. destruct k as [|i k].
    + rewrite rline_nil. split.
      * intros [E|H].
        -- injection E as <-. exists (record_head [] nm cls). split; [apply announced_record; now destruct nm|now destruct nm].
        -- destruct (kcomps_keys _ _ _ _ H) as (? & ? & E & _). discriminate.
      * intros (u & Ha & ->). left. now rewrite (proj1 (announced_record _ _ _ _) Ha).
    + rewrite rline_cons. split.
      * intros [E|H]; [discriminate|]. apply kcomps_in in H. destruct H as (a & n & x & k' & E & Ek & H). injection Ek as -> ->.
        left. exists cls, l, n, x. split; [reflexivity|]. split; [exact E|]. rewrite Forall_forall in HF.
        apply (HF (n, x)); [eapply nth_error_In, E|exact H].
      * intros [(cls' & l' & n & x & Ev & E & H)|[(l' & x & Ev & _)|(l' & Ev & _)]]; try discriminate. injection Ev as <- <-. right.
        apply kcomps_in. exists i, n, x, k. split; [exact E|]. split; [reflexivity|]. rewrite Forall_forall in HF.
        apply (HF (n, x)); [eapply nth_error_In, E|exact H].
  - intros l HF d nm k t. rewrite klines_coll. destruct k as [|i k].
    + rewrite rline_nil. split.
      * intros [E|H].
        -- injection E as <-. exists (coll_head [] nm). split; [apply announced_coll; now destruct nm|now destruct nm].
        -- apply in_app_or in H. destruct H as [H|[E|[]]]; [|discriminate].
           destruct (kitems_keys _ _ _ _ H) as (? & ? & E & _). discriminate.
      * intros (u & Ha & ->). left. now rewrite (proj1 (announced_coll _ _ _) Ha).
    + rewrite rline_cons. split.
      * intros [E|H]; [discriminate|]. apply in_app_or in H. destruct H as [H|[E|[]]].
        -- apply kitems_in in H. destruct H as (a & x & k' & E & Ek & H). injection Ek as -> ->.
           right; left. exists l, x. split; [reflexivity|]. split; [exact E|]. rewrite Forall_forall in HF.
           apply (HF x); [eapply nth_error_In, E|exact H].
        -- injection E as <- <- <-. right; right. now exists l.
      * intros [(cls' & l' & n & x & Ev & E & H)|[(l' & x & Ev & E & H)|(l' & Ev & -> & -> & ->)]]; try discriminate; injection Ev as <-; right;
        apply in_or_app; [left|right; now left].
        apply kitems_in. exists i, x, k. split; [exact E|]. split; [reflexivity|]. rewrite Forall_forall in HF.
        apply (HF x); [eapply nth_error_In, E|exact H].
  - intros s d nm k t. cbn [klines In]. destruct k as [|i k].
    + rewrite rline_nil. split.
      * intros [E|[]]. injection E as <-. eexists. split; [|reflexivity]. destruct nm; constructor.
      * intros (u & Ha & ->). left. inversion Ha; subst; reflexivity.
    + rewrite rline_cons. split; [intros [E|[]]; discriminate|].
      intros [(cls & l & n & x & E & _)|[(l & x & E & _)|(l & E & _)]]; discriminate.
  - intros s d nm k t. cbn [klines In]. destruct k as [|i k].
    + rewrite rline_nil. split.
      * intros [E|[]]. injection E as <-. eexists. split; [|reflexivity]. destruct nm; constructor.
      * intros (u & Ha & ->). left. inversion Ha; subst; reflexivity.
    + rewrite rline_cons. split; [intros [E|[]]; discriminate|].
      intros [(cls & l & n & x & E & _)|[(l & x & E & _)|(l & E & _)]]; discriminate.
Qed.

Lemma rline_line_for v k t : rline 0 None v k t <-> line_for v k t.
Proof.
  split.
  - intros [(nm & x & u & H & Ha & ->)|(k' & nm & l & H & -> & ->)].
    + eapply lf_part; [apply rpart_part, H|exact Ha].
    + eapply lf_end. apply rpart_part, H.
  - intros [k' nm x u H Ha|k' nm l H].
    + left. exists nm, x, u. split; [apply part_rpart, H|]. now split.
    + right. exists k', nm, l. split; [apply part_rpart, H|]. now split.
Qed.

Theorem C58_lemma : forall linesep v, v <> VNull ->
  exists lines, to_text_block linesep v = join linesep (map snd lines) /\
    StronglySorted (fun a b => key_before (fst a) (fst b)) lines /\
    forall k t, In (k, t) lines <-> line_for v k t.
Proof.
  intros ls v Hv. exists (klines 0 None v). split; [|split].
  - rewrite <- klines_lines. unfold to_text_block. now destruct v.
  - apply klines_sorted.
  - intros k t. rewrite klines_in. apply rline_line_for.
Qed.

Lemma key_before_irrefl k : ~ key_before k k.
Proof. induction k as [|i k IH]; intro H; inversion H; subst; [lia|contradiction]. Qed.

(** ** The text block of a document *)

Inductive located (x : xoptions) : list nat -> option jstring -> value -> Prop :=
| lo_root : located x [] None (v_options x)
| lo_null k name : located x k name VNull
| lo_other k n s : says x k (n ++ js ": " ++ s) -> located x k (Some n) (VOther s)
| lo_string k n s : says x k (n ++ js ": " ++ [34%N] ++ s ++ [34%N]) -> located x k (Some n) (VString s)
| lo_limit l : x_child_limit x = Some l -> located x [3] (Some (js "childLimit")) (v_limit l)
| lo_limits l : x_child_limit x = Some (XDynamic (Some l)) -> located x [3; 0] (Some (js "limits")) (VColl (map (v_opt v_item) l))
| lo_item l i it : x_child_limit x = Some (XDynamic (Some l)) -> nth_error l i = Some (Some it) ->
    located x [3; 0; i] (Some (js "[" ++ n_str (N.of_nat i) ++ js "]")) (v_item it)
| lo_filter f : x_filter x = Some f -> located x [4] (Some (js "filter")) (v_filter f)
| lo_extensions l : x_line_extensions x = Some l -> located x [5] (Some (js "lineExtensions")) (VColl (map (v_opt v_extension) l))
| lo_extension l i e : x_line_extensions x = Some l -> nth_error l i = Some (Some e) ->
    located x [5; i] (Some (js "[" ++ n_str (N.of_nat i) ++ js "]")) (v_extension e)
| lo_matcher k name m : holds_matcher x k name m -> located x k (Some name) (v_matcher m)
| lo_matchers k name l m : holds_matcher x k name m -> m = XmAllOf (Some l) \/ m = XmAnyOf (Some l) \/ m = XmNoneOf (Some l) ->
    located x (k ++ [0]) (Some (js "matchers")) (VColl (map v_matcher l)).

Lemma located_part x k name y : part (v_options x) k name y -> located x k name y.
Proof.
  intro H. remember (v_options x) as v eqn:Ev. induction H as [|k name cls l i n z H IH Hi|k name l i z H IH Hi]; subst.
  - constructor.
  - inversion IH; subst.
    + destruct i as [|[|[|[|[|[|i]]]]]]; cbn in Hi; [| | | | | |destruct i; discriminate]; injection Hi as <- <-.
      * destruct (x_emojis x) as [b|] eqn:E; cbn; constructor. now apply sy_emojis.
      * destruct (x_compact x) as [b|] eqn:E; cbn; constructor. now apply sy_compact.
      * destruct (x_max_depth x) as [b|] eqn:E; cbn; constructor. now apply sy_depth.
      * destruct (x_child_limit x) as [b|] eqn:E; cbn; constructor. exact E.
      * destruct (x_filter x) as [b|] eqn:E; cbn; constructor. exact E.
      * destruct (x_line_extensions x) as [b|] eqn:E; cbn; constructor. exact E.
    + destruct l0 as [[m|]|[m|]]; injection H0 as <- <-; (destruct i as [|i]; [|destruct i; discriminate]); cbn in Hi; injection Hi as <- <-.
      * apply lo_other. eapply sy_static_limit; eassumption.
      * apply lo_null.
      * apply lo_limits; eassumption.
      * apply lo_null.
    + destruct i as [|[|i]]; cbn in Hi; [| |destruct i; discriminate]; injection Hi as <- <-.
      * destruct (xi_limit it) as [b|] eqn:E; cbn; constructor. eapply (sy_item_limit x l0 i0); eassumption.
      * apply lo_matcher. eapply (hm_limit x l0 i0); eassumption.
    + destruct i as [|[|i]]; cbn in Hi; [| |destruct i; discriminate]; injection Hi as <- <-; apply lo_matcher; now constructor.
    + destruct i as [|[|i]]; cbn in Hi; [| |destruct i; discriminate]; injection Hi as <- <-.
      * destruct (xe_extension e) as [b|] eqn:E; cbn; constructor. eapply (sy_extension_text x l0 i0); eassumption.
      * apply lo_matcher. eapply (hm_extension x l0 i0); eassumption.
    + destruct m as [| | |[m|]|[m|]|[m|]|[m|]|[m|]]; cbn in H0; try discriminate; injection H0 as <- <-;
        (destruct i as [|i]; [|destruct i; discriminate]); cbn in Hi; try discriminate; injection Hi as <- <-; try apply lo_null.
      * eapply lo_matchers; [eassumption|now left].
      * eapply lo_matchers; [eassumption|now right; left].
      * eapply lo_matchers; [eassumption|now right; right].
      * apply lo_string. eapply sy_name_glob; eassumption.
      * apply lo_string. eapply sy_path_glob; eassumption.
  - inversion IH; subst.
    + destruct l0 as [[m|]|[m|]]; discriminate.
    + rewrite nth_error_map in Hi. destruct (nth_error l0 i) as [[it|]|] eqn:E; cbn in Hi; try discriminate; injection Hi as <-; [|apply lo_null].
      eapply (lo_item _ l0 i); eassumption.
    + rewrite nth_error_map in Hi. destruct (nth_error l0 i) as [[it|]|] eqn:E; cbn in Hi; try discriminate; injection Hi as <-; [|apply lo_null].
      eapply (lo_extension _ l0 i); eassumption.
    + destruct m as [| | |[m|]|[m|]|[m|]|[m|]|[m|]]; discriminate.
    + rewrite nth_error_map in Hi. destruct (nth_error l0 i) as [it|] eqn:E; cbn in Hi; try discriminate; injection Hi as <-.
      rewrite <- app_assoc. cbn [app]. apply lo_matcher.
      match goal with D : _ = _ \/ _ |- _ => destruct D as [ ->|[ ->| ->]] end; [eapply hm_all|eapply hm_any|eapply hm_none]; eassumption.
Qed.

Lemma part_in v k name cls l i n x k' : part v k name (VRecord cls l) -> nth_error l i = Some (n, x) -> k' = k ++ [i] -> part v k' (Some n) x.
Proof. intros H Hi ->. eapply part_component; eassumption. Qed.

Lemma part_of v k name l i x k' : part v k name (VColl l) -> nth_error l i = Some x -> k' = k ++ [i] ->
  part v k' (Some (js "[" ++ n_str (N.of_nat i) ++ js "]")) x.
Proof. intros H Hi ->. eapply part_item; eassumption. Qed.

Lemma part_limit x l : x_child_limit x = Some l -> part (v_options x) [3] (Some (js "childLimit")) (v_limit l).
Proof. intro H. eapply part_in with (k := []) (i := 3); [apply part_root| |reflexivity]. cbn. now rewrite H. Qed.

Lemma part_limits x l : x_child_limit x = Some (XDynamic (Some l)) ->
  part (v_options x) [3; 0] (Some (js "limits")) (VColl (map (v_opt v_item) l)).
Proof. intro H. eapply part_in with (k := [3]) (i := 0); [exact (part_limit x _ H)|reflexivity|reflexivity]. Qed.

Lemma part_limit_item x l i it : x_child_limit x = Some (XDynamic (Some l)) -> nth_error l i = Some (Some it) ->
  part (v_options x) [3; 0; i] (Some (js "[" ++ n_str (N.of_nat i) ++ js "]")) (v_item it).
Proof. intros H Hi. eapply part_of with (k := [3; 0]); [exact (part_limits x _ H)| |reflexivity]. now rewrite nth_error_map, Hi. Qed.

Lemma part_filter x f : x_filter x = Some f -> part (v_options x) [4] (Some (js "filter")) (v_filter f).
Proof. intro H. eapply part_in with (k := []) (i := 4); [apply part_root| |reflexivity]. cbn. now rewrite H. Qed.

Lemma part_extensions x l : x_line_extensions x = Some l -> part (v_options x) [5] (Some (js "lineExtensions")) (VColl (map (v_opt v_extension) l)).
Proof. intro H. eapply part_in with (k := []) (i := 5); [apply part_root| |reflexivity]. cbn. now rewrite H. Qed.

Lemma part_extension x l i e : x_line_extensions x = Some l -> nth_error l i = Some (Some e) ->
  part (v_options x) [5; i] (Some (js "[" ++ n_str (N.of_nat i) ++ js "]")) (v_extension e).
Proof. intros H Hi. eapply part_of with (k := [5]); [exact (part_extensions x _ H)| |reflexivity]. now rewrite nth_error_map, Hi. Qed.

Lemma part_matcher x k name m : holds_matcher x k name m -> part (v_options x) k (Some name) (v_matcher m).
Proof.
  intro H.
  induction H as [f H|f H|l i it H Hi|l i e H Hi|k name l i m H IH Hi|k name l i m H IH Hi|k name l i m H IH Hi].
  - eapply part_in with (k := [4]) (i := 0); [exact (part_filter x _ H)|reflexivity|reflexivity].
  - eapply part_in with (k := [4]) (i := 1); [exact (part_filter x _ H)|reflexivity|reflexivity].
  - eapply part_in with (k := [3; 0; i]) (i := 1); [exact (part_limit_item x _ i _ H Hi)|reflexivity|reflexivity].
  - eapply part_in with (k := [5; i]) (i := 1); [exact (part_extension x _ i _ H Hi)|reflexivity|reflexivity].
  - eapply part_of with (k := k ++ [0]); [eapply part_in with (i := 0); [exact IH|reflexivity|reflexivity]|now rewrite nth_error_map, Hi|
      now rewrite <- app_assoc].
  - eapply part_of with (k := k ++ [0]); [eapply part_in with (i := 0); [exact IH|reflexivity|reflexivity]|now rewrite nth_error_map, Hi|
      now rewrite <- app_assoc].
  - eapply part_of with (k := k ++ [0]); [eapply part_in with (i := 0); [exact IH|reflexivity|reflexivity]|now rewrite nth_error_map, Hi|
      now rewrite <- app_assoc].
Qed.

Lemma part_matchers x k name m cls l : holds_matcher x k name m -> v_matcher m = VRecord cls [(js "matchers", VColl (map v_matcher l))] ->
  part (v_options x) (k ++ [0]) (Some (js "matchers")) (VColl (map v_matcher l)).
Proof. intros H E. apply part_matcher in H. rewrite E in H. eapply part_in with (i := 0); [exact H|reflexivity|reflexivity]. Qed.

Lemma says_part x k t : says x k t -> exists name y, part (v_options x) k name y /\ announced name y t.
Proof.
  intro H. destruct H as [|b H|b H|n H|n H|n H|l H|l H|l i it H Hi|l i it n H Hi Hn|f H|l H|l i e H Hi|l i e t H Hi Ht|k name H|k name H|k name l H|
    k name l H|k name l H|k name l H|k name l H|k name l H|k name g H|k name g H|k name g H|k name g H].
  - exists None, (v_options x). split; [apply part_root|]. apply an_record_root.
  - exists (Some (js "emojis")), (v_bool b). split; [eapply part_in with (k := []) (i := 0); [apply part_root| |reflexivity]; cbn; now rewrite H|].
    apply an_other.
  - exists (Some (js "compactDirectories")), (v_bool b). split; [eapply part_in with (k := []) (i := 1); [apply part_root| |reflexivity]; cbn; now rewrite H|].
    apply an_other.
  - exists (Some (js "maxDepth")), (v_int n). split; [eapply part_in with (k := []) (i := 2); [apply part_root| |reflexivity]; cbn; now rewrite H|].
    apply an_other.
  - exists (Some (js "childLimit")), (v_limit (XStatic n)). split; [exact (part_limit x _ H)|]. apply an_record.
  - exists (Some (js "limit")), (v_int n). split; [|apply an_other].
    eapply part_in with (k := [3]) (i := 0); [exact (part_limit x _ H)|reflexivity|reflexivity].
  - exists (Some (js "childLimit")), (v_limit (XDynamic l)). split; [exact (part_limit x _ H)|]. apply an_record.
  - exists (Some (js "limits")), (VColl (map (v_opt v_item) l)). split; [exact (part_limits x _ H)|]. apply an_coll.
  - exists (Some (js "[" ++ n_str (N.of_nat i) ++ js "]")), (v_item it). split; [exact (part_limit_item x _ i _ H Hi)|].
    change (js "[" ++ n_str (N.of_nat i) ++ js "] -> DynamicLimitItem")
      with (js "[" ++ n_str (N.of_nat i) ++ (js "]" ++ js " -> " ++ js "DynamicLimitItem")).
    rewrite (app_assoc (n_str _)), (app_assoc (js "[")). apply an_record.
  - exists (Some (js "limit")), (v_int n). split; [|apply an_other].
    eapply part_in with (k := [3; 0; i]) (i := 0); [exact (part_limit_item x _ i _ H Hi)| |reflexivity]. cbn. now rewrite Hn.
  - exists (Some (js "filter")), (v_filter f). split; [exact (part_filter x _ H)|]. apply an_record.
  - exists (Some (js "lineExtensions")), (VColl (map (v_opt v_extension) l)). split; [exact (part_extensions x _ H)|]. apply an_coll.
  - exists (Some (js "[" ++ n_str (N.of_nat i) ++ js "]")), (v_extension e). split; [exact (part_extension x _ i _ H Hi)|].
    change (js "[" ++ n_str (N.of_nat i) ++ js "] -> LineExtension")
      with (js "[" ++ n_str (N.of_nat i) ++ (js "]" ++ js " -> " ++ js "LineExtension")).
    rewrite (app_assoc (n_str _)), (app_assoc (js "[")). apply an_record.
  - exists (Some (js "extension")), (VString t). split; [|apply an_string].
    eapply part_in with (k := [5; i]) (i := 0); [exact (part_extension x _ i _ H Hi)| |reflexivity]. cbn. now rewrite Ht.
  - exists (Some name), (v_matcher XmTrue). split; [exact (part_matcher _ _ _ _ H)|apply an_record].
  - exists (Some name), (v_matcher XmFalse). split; [exact (part_matcher _ _ _ _ H)|apply an_record].
  - exists (Some name), (v_matcher (XmAllOf l)). split; [exact (part_matcher _ _ _ _ H)|apply an_record].
  - exists (Some name), (v_matcher (XmAnyOf l)). split; [exact (part_matcher _ _ _ _ H)|apply an_record].
  - exists (Some name), (v_matcher (XmNoneOf l)). split; [exact (part_matcher _ _ _ _ H)|apply an_record].
  - exists (Some (js "matchers")), (VColl (map v_matcher l)). split; [|apply an_coll]. eapply part_matchers; [exact H|reflexivity].
  - exists (Some (js "matchers")), (VColl (map v_matcher l)). split; [|apply an_coll]. eapply part_matchers; [exact H|reflexivity].
  - exists (Some (js "matchers")), (VColl (map v_matcher l)). split; [|apply an_coll]. eapply part_matchers; [exact H|reflexivity].
  - exists (Some name), (v_matcher (XmName g)). split; [exact (part_matcher _ _ _ _ H)|apply an_record].
  - exists (Some (js "glob")), (VString g). split; [|apply an_string].
    eapply part_in with (i := 0); [exact (part_matcher _ _ _ _ H)|reflexivity|reflexivity].
  - exists (Some name), (v_matcher (XmPath g)). split; [exact (part_matcher _ _ _ _ H)|apply an_record].
  - exists (Some (js "glob")), (VString g). split; [|apply an_string].
    eapply part_in with (i := 0); [exact (part_matcher _ _ _ _ H)|reflexivity|reflexivity].
Qed.

Lemma lists_part x k n : lists x k n -> exists name l, part (v_options x) k name (VColl l) /\ length l = n.
Proof.
  intros [l H|l H|k' name l H|k' name l H|k' name l H].
  - eexists _, _. split; [exact (part_limits x _ H)|apply map_length].
  - eexists _, _. split; [exact (part_extensions x _ H)|apply map_length].
  - eexists _, _. split; [eapply part_matchers; [exact H|reflexivity]|apply map_length].
  - eexists _, _. split; [eapply part_matchers; [exact H|reflexivity]|apply map_length].
  - eexists _, _. split; [eapply part_matchers; [exact H|reflexivity]|apply map_length].
Qed.

Lemma located_says x k name y t : located x k name y -> announced name y t -> says x k t.
Proof.
  intros H Ha. destruct H as [|k name|k n s H|k n s H|l H|l H|l i it H Hi|f H|l H|l i e H Hi|k name m H|k name l m H Hm].
  - inversion Ha; subst. apply sy_root.
  - inversion Ha.
  - inversion Ha; subst. exact H.
  - inversion Ha; subst. exact H.
  - destruct l; inversion Ha; subst; [eapply sy_static|eapply sy_dynamic]; exact H.
  - inversion Ha; subst. exact (sy_limits x _ H).
  - generalize (sy_item x _ i _ H Hi). intro Hs. inversion Ha; subst.
    change (js "] -> DynamicLimitItem") with (js "]" ++ js " -> " ++ js "DynamicLimitItem") in Hs. rewrite (app_assoc (n_str _)) in Hs. exact Hs.
  - inversion Ha; subst. exact (sy_filter x _ H).
  - inversion Ha; subst. exact (sy_extensions x _ H).
  - generalize (sy_extension x _ i _ H Hi). intro Hs. inversion Ha; subst.
    change (js "] -> LineExtension") with (js "]" ++ js " -> " ++ js "LineExtension") in Hs. rewrite (app_assoc (n_str _)) in Hs. exact Hs.
  - destruct m; inversion Ha; subst; econstructor; exact H.
  - inversion Ha; subst. destruct Hm as [ ->|[ ->| ->]]; [eapply sy_all_list|eapply sy_any_list|eapply sy_none_list]; exact H.
Qed.

Lemma located_lists x k name y l : located x k name y -> y = VColl l -> lists x k (length l).
Proof.
  intros H E. destruct H as [|k name|k n s H|k n s H|l' H|l' H|l' i it H Hi|f H|l' H|l' i e H Hi|k name m H|k name l' m H Hm]; try discriminate.
  - destruct l'; discriminate.
  - injection E as <-. rewrite map_length. exact (ls_limits x _ H).
  - injection E as <-. rewrite map_length. exact (ls_extensions x _ H).
  - destruct m; discriminate.
  - injection E as <-. rewrite map_length. destruct Hm as [ ->|[ ->| ->]]; [eapply ls_all|eapply ls_any|eapply ls_none]; exact H.
Qed.

Theorem C58_document_lemma : forall linesep x,
  exists lines, to_text_block linesep (v_options x) = join linesep (map snd lines) /\
    StronglySorted (fun a b => key_before (fst a) (fst b)) lines /\
    forall k t, In (k, t) lines <->
      (exists u, says x k u /\ t = spaces (2 * length k) ++ u) \/
      (exists k' n, lists x k' n /\ k = k' ++ [n] /\ t = spaces (2 * length k') ++ js "]").
Proof.
  intros ls x. destruct (C58_lemma ls (v_options x)) as (lines & E & Hs & Hin); [discriminate|]. exists lines. split; [exact E|]. split; [exact Hs|].
  intros k t. rewrite Hin. split.
  - intros [k' name y u H Ha|k' name l H].
    + left. exists u. split; [|reflexivity]. eapply located_says; [apply located_part, H|exact Ha].
    + right. exists k', (length l). split; [|now split]. eapply located_lists; [apply located_part, H|reflexivity].
  - intros [(u & H & ->)|(k' & n & H & -> & ->)].
    + destruct (says_part _ _ _ H) as (name & y & Hp & Ha). eapply lf_part; eassumption.
    + destruct (lists_part _ _ _ H) as (name & l & Hp & <-). eapply lf_end, Hp.
Qed.

(** ** Decimal numbers *)

Lemma digits_step f n : digits (S f) n = (if (n <? 10)%N then [] else digits f (n / 10)%N) ++ [(48 + n mod 10)%N].
Proof. reflexivity. Qed.

Definition digit (c : jchar) : Prop := (48 <= c <= 57)%N.

Lemma mod10_digit n : digit (48 + n mod 10)%N.
Proof. unfold digit. pose proof (N.mod_upper_bound n 10 ltac:(discriminate)). revert H. generalize (n mod 10)%N. intros m H. lia. Qed.

Lemma digits_digit f : forall n, Forall digit (digits f n).
Proof.
  induction f as [|f IH]; intro n; [constructor|]. rewrite digits_step. apply Forall_app. split.
  - destruct (n <? 10)%N; [constructor|apply IH].
  - constructor; [apply mod10_digit|constructor].
Qed.

Lemma tenth_fits f n : (n < 2 ^ N.of_nat (S f))%N -> (n / 10 < 2 ^ N.of_nat f)%N.
Proof.
  intro H. apply N.div_lt_upper_bound; [discriminate|]. rewrite Nat2N.inj_succ, N.pow_succ_r' in H. eapply N.lt_le_trans; [exact H|].
  apply N.mul_le_mono_r. discriminate.
Qed.

Lemma digits_value f : forall n, (n < 2 ^ N.of_nat f)%N -> decimal (digits f n) = n.
Proof.
  induction f as [|f IH]; intros n H.
  - cbn in H. assert (n = 0)%N by lia. now subst.
  - rewrite digits_step. unfold decimal. rewrite fold_left_app. cbn [fold_left].
    rewrite (N.add_comm 48 (n mod 10)), N.add_sub.
    destruct (N.ltb_spec n 10) as [L|L].
    + cbn [fold_left]. rewrite N.mod_small by lia. lia.
    + change (fold_left (fun n0 c => 10 * n0 + (c - 48)) (digits f (n / 10)) 0)%N with (decimal (digits f (n / 10)%N)).
      rewrite IH.
      * symmetry. now apply N.div_mod.
      * apply tenth_fits, H.
Qed.

Lemma digits_head f : forall n, (n < 2 ^ N.of_nat f)%N -> n <> 0%N -> hd_error (digits f n) <> Some 48%N.
Proof.
  induction f as [|f IH]; intros n H Hn; [cbn in H; lia|]. rewrite digits_step. destruct (N.ltb_spec n 10) as [L|L].
  - cbn [app hd_error]. rewrite N.mod_small by lia. intro E. apply (f_equal (fun o => match o with Some x => x | None => 0%N end)) in E. lia.
  - assert (Hd : (n / 10 <> 0)%N) by (intro E; apply N.div_small_iff in E; [lia|discriminate]).
    specialize (IH (n / 10)%N). destruct (digits f (n / 10)%N) as [|c l] eqn:El.
    + exfalso. assert (V : decimal (digits f (n / 10)%N) = (n / 10)%N).
      { apply digits_value. apply tenth_fits, H. }
      rewrite El in V. cbn in V. now symmetry in V.
    + cbn in IH |- *. apply IH; [|exact Hd]. apply tenth_fits, H.
Qed.

Lemma n_fits n : (n < 2 ^ N.of_nat (S (N.to_nat (N.log2 n))))%N.
Proof.
  rewrite Nat2N.inj_succ, N2Nat.id. destruct n as [|p]; [reflexivity|]. apply N.log2_spec. reflexivity.
Qed.

Theorem n_str_spec : forall n, decimal (n_str n) = n /\ Forall digit (n_str n) /\
  (n <> 0%N -> hd_error (n_str n) <> Some 48%N) /\ (n = 0%N -> n_str n = js "0").
Proof.
  intro n. unfold n_str. split; [apply digits_value, n_fits|]. split; [apply digits_digit|].
  split; [intro; now apply digits_head; [apply n_fits|]|]. now intros ->.
Qed.
