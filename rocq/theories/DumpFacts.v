(** * The text block of an options document determines the document *)

From Verif Require Import SpecCli DocFacts TextFacts.
From Coq Require Import Lia.
Close Scope Z_scope.

(** ** Joined lines *)

Lemma split_at {A} (c : A) : forall a a' b b', ~ In c a -> ~ In c a' -> a ++ c :: b = a' ++ c :: b' -> a = a' /\ b = b'.
Proof.
  induction a as [|x a IH]; intros [|y a'] b b' Ha Ha' E; cbn in E.
  - injection E as ->. now split.
  - injection E as -> _. exfalso. apply Ha'. now left.
  - injection E as -> _. exfalso. apply Ha. now left.
  - injection E as -> E. destruct (IH a' b b') as [-> ->]; [now intro; apply Ha; right|now intro; apply Ha'; right|exact E|now split].
Qed.

Lemma join_cons2 sep x y l : join sep (x :: y :: l) = x ++ sep ++ join sep (y :: l).
Proof. reflexivity. Qed.

Lemma join_inj (c : N) sep : forall l l', Forall (fun x => ~ In c x) l -> Forall (fun x => ~ In c x) l' -> l <> [] -> l' <> [] ->
  join (c :: sep) l = join (c :: sep) l' -> l = l'.
Proof.
  induction l as [|x [|y l] IH]; intros [|x' [|y' l']] F F' N N' E; try contradiction.
  - cbn in E. now rewrite E.
  - rewrite join_cons2 in E. cbn [join] in E. exfalso. apply (Forall_inv F). rewrite E. apply in_or_app. right. now left.
  - rewrite join_cons2 in E. cbn [join] in E. exfalso. apply (Forall_inv F'). rewrite <- E. apply in_or_app. right. now left.
  - rewrite !join_cons2 in E. cbn [app] in E. apply split_at in E; [|exact (Forall_inv F)|exact (Forall_inv F')]. destruct E as [-> E].
    f_equal. apply IH; [exact (Forall_inv_tail F)|exact (Forall_inv_tail F')|discriminate|discriminate|].
    now apply app_inv_head in E.
Qed.

Lemma cons_eq {A} (x y : A) l l' : x :: l = y :: l' -> x = y /\ l = l'.
Proof. intro E. now injection E. Qed.

(** ** Lines and their indentation *)

Definition starts (u : jstring) : Prop := exists c t, u = c :: t /\ c <> c_space.

Lemma spaces_inj d d' u u' : starts u -> starts u' -> spaces d ++ u = spaces d' ++ u' -> d = d' /\ u = u'.
Proof.
  intros (c & t & -> & Hc) (c' & t' & -> & Hc'). revert d'. induction d as [|d IH]; intros [|d'] E; cbn in E.
  - now split.
  - injection E as E _. now elim Hc.
  - injection E as E _. symmetry in E. now elim Hc'.
  - injection E as E. destruct (IH d' E) as [-> ?]. now split.
Qed.

(** A name of a component: not empty, without spaces and colons, not a bracket. *)
Definition plain (n : jstring) : Prop := n <> [] /\ ~ In c_space n /\ ~ In 58%N n.

Lemma plain_starts n u : plain n -> starts (n ++ u).
Proof.
  intros (Hn & Hs & _). destruct n as [|c n]; [contradiction|]. exists c, (n ++ u). split; [reflexivity|]. intros ->. apply Hs. now left.
Qed.

(** What a line says after its name. *)
Lemma name_split n n' u u' a a' : plain n -> plain n' -> (a = c_space \/ a = 58%N) -> (a' = c_space \/ a' = 58%N) ->
  n ++ a :: u = n' ++ a' :: u' -> n = n' /\ a = a' /\ u = u'.
Proof.
  intros (_ & Hs & Hc) (_ & Hs' & Hc') Ha Ha'. revert n' Hs' Hc'. induction n as [|x n IH]; intros [|x' n'] Hs' Hc' E; cbn in E.
  - injection E as -> ->. repeat split.
  - injection E as -> _. exfalso. destruct Ha as [->| ->]; [apply Hs'|apply Hc']; now left.
  - injection E as -> _. exfalso. destruct Ha' as [->| ->]; [apply Hs|apply Hc]; now left.
  - injection E as -> E. destruct (IH (fun i => Hs (or_intror i)) (fun i => Hc (or_intror i)) n' (fun i => Hs' (or_intror i)) (fun i => Hc' (or_intror i)) E)
      as (-> & -> & ->). repeat split.
Qed.

(** ** Objects whose text block can be read back *)

Section schema.
Variable fields : jstring -> list jstring.   (* the component names of a class *)

Inductive legible : value -> Prop :=
| lg_null : legible VNull
| lg_record cls l : map fst l = fields cls -> NoDup (fields cls) -> Forall plain (fields cls) ->
    (forall n x, In (n, x) l -> legible x) -> legible (VRecord cls l)
| lg_coll l : (forall x, In x l -> x <> VNull /\ legible x) -> legible (VColl l)
| lg_string s : legible (VString s)
| lg_other s : hd_error s <> Some 34%N -> s <> js "[" -> legible (VOther s).

Lemma legible_other s : legible (VOther s) -> hd_error s <> Some 34%N /\ s <> js "[".
Proof. intro H. inversion H. now split. Qed.
Lemma legible_record cls l : legible (VRecord cls l) ->
  map fst l = fields cls /\ NoDup (fields cls) /\ Forall plain (fields cls) /\ forall n x, In (n, x) l -> legible x.
Proof. intro H. inversion H. repeat split; assumption. Qed.
Lemma legible_coll l : legible (VColl l) -> forall x, In x l -> x <> VNull /\ legible x.
Proof. intro H. inversion H. assumption. Qed.

Definition head_of (nm : jstring) (v : value) : jstring :=
  match v with
  | VNull => []
  | VRecord cls _ => nm ++ 32%N :: js "-> " ++ cls
  | VColl _ => nm ++ 58%N :: js " ["
  | VString s => nm ++ 58%N :: 32%N :: 34%N :: s ++ [34%N]
  | VOther s => nm ++ 58%N :: 32%N :: s
  end.

Definition comps (d : nat) := fix go (l : list (jstring * value)) : list jstring :=
  match l with [] => [] | (n, x) :: l' => text_lines (spaces (2 * d)) (Some n) x ++ go l' end.
Definition items (d : nat) := fix go (i : nat) (l : list value) : list jstring :=
  match l with [] => [] | x :: l' => text_lines (spaces (2 * d)) (item_name i) x ++ go (S i) l' end.

Definition tail_of (d : nat) (v : value) : list jstring :=
  match v with
  | VRecord _ l => comps (S d) l
  | VColl l => items (S d) 0 l ++ [spaces (2 * d) ++ js "]"]
  | _ => []
  end.

Lemma lines_split d nm v : v <> VNull -> text_lines (spaces (2 * d)) (Some nm) v = (spaces (2 * d) ++ head_of nm v) :: tail_of d v.
Proof.
  intro H. destruct v as [|cls l|l|s|s]; [contradiction|..]; cbn [text_lines head_of tail_of record_head coll_head name_str]; try reflexivity.
  - rewrite spaces_S. reflexivity.
  - rewrite spaces_S. reflexivity.
Qed.

Lemma root_split cls l : text_lines [] None (VRecord cls l) = cls :: comps 1 l.
Proof. reflexivity. Qed.

(** [l] is empty or starts with a line that is not deeper than [d]. *)
Definition stops (d : nat) (l : list jstring) : Prop :=
  forall x l', l = x :: l' -> exists k u, x = spaces (2 * k) ++ u /\ starts u /\ k <= d.

Lemma head_starts nm v : plain nm -> v <> VNull -> starts (head_of nm v).
Proof. intros Hp Hv. destruct v; [contradiction|..]; cbn [head_of]; now apply plain_starts. Qed.

Lemma head_name nm nm' v v' : plain nm -> plain nm' -> v <> VNull -> v' <> VNull -> head_of nm v = head_of nm' v' -> nm = nm'.
Proof.
  intros Hp Hp' Hv Hv' E.
  destruct v; [contradiction|..]; destruct v'; try contradiction; cbn [head_of] in E;
    apply name_split in E; try exact Hp; try exact Hp'; try (now left); try (now right); apply E.
Qed.

(** Two heads with the same text announce the same. *)
Definition same_head (v v' : value) : Prop :=
  match v, v' with
  | VRecord c _, VRecord c' _ => c = c'
  | VColl _, VColl _ => True
  | VString s, VString s' => s = s'
  | VOther s, VOther s' => s = s'
  | _, _ => False
  end.

Lemma head_same nm v v' : plain nm -> legible v -> legible v' -> v <> VNull -> v' <> VNull -> head_of nm v = head_of nm v' -> same_head v v'.
Proof.
  intros Hp L L' Hv Hv' E.
  destruct v as [|cls l|l|s|s]; [contradiction|..]; destruct v' as [|cls' l'|l'|s'|s']; try contradiction; cbn [head_of] in E;
    (apply name_split in E; [|exact Hp|exact Hp|(now left) || (now right)|(now left) || (now right)]); destruct E as (_ & Ea & E); try discriminate Ea; try discriminate E; cbn [same_head].
  - exact (app_inv_head (js "-> ") _ _ E).
  - exact I.
  - destruct (legible_other _ L') as [H1 H2]. injection E as E. now elim H2.
  - injection E as E. now apply app_inv_tail in E.
  - destruct (legible_other _ L') as [H1 H2]. injection E as E. rewrite <- E in H1. now elim H1.
  - destruct (legible_other _ L) as [H1 H2]. injection E as E. now elim H2.
  - destruct (legible_other _ L) as [H1 H2]. injection E as E. rewrite E in H1. now elim H1.
  - injection E as E. exact E.
Qed.

Definition readback (v : value) : Prop := forall d nm v' rest rest', plain nm -> legible v -> legible v' -> v <> VNull -> v' <> VNull ->
  stops d rest -> stops d rest' ->
  text_lines (spaces (2 * d)) (Some nm) v ++ rest = text_lines (spaces (2 * d)) (Some nm) v' ++ rest' -> v = v' /\ rest = rest'.

(** The first line of components. *)
Lemma comps_first d l : Forall plain (map fst l) -> (exists n x, In (n, x) l /\ x <> VNull /\ exists t, comps d l = (spaces (2 * d) ++ head_of n x) :: t) \/
  (comps d l = [] /\ Forall (fun nx => snd nx = VNull) l).
Proof.
  induction l as [|[n x] l IH]; intro F; [right; now split|]. cbn [comps map fst] in *.
  assert (D : x = VNull \/ x <> VNull) by (destruct x; [now left|right; discriminate..]).
  destruct D as [->|Hx].
  - cbn [text_lines app]. destruct (IH (Forall_inv_tail F)) as [(n' & x' & Hi & Hx' & t & E)|[E H]].
    + left. exists n', x'. split; [now right|]. split; [exact Hx'|]. now exists t.
    + right. split; [exact E|]. now constructor.
  - left. exists n, x. split; [now left|]. split; [exact Hx|]. rewrite lines_split by exact Hx. eexists. reflexivity.
Qed.

Lemma two_inj k k' : 2 * k = 2 * k' -> k = k'.
Proof. lia. Qed.

Lemma comps_stop d l rest : Forall plain (map fst l) -> stops d rest -> stops (S d) (comps (S d) l ++ rest).
Proof.
  intros F Hr. destruct (comps_first (S d) l F) as [(n & x & Hi & Hx & t & E)|[E _]]; rewrite E.
  - cbn [app]. intros y l' Ey. injection Ey as <- _. exists (S d), (head_of n x). split; [reflexivity|]. split; [|lia].
    apply head_starts; [|exact Hx]. rewrite Forall_forall in F. apply F. apply (in_map fst) in Hi. exact Hi.
  - cbn [app]. intros y l' Ey. destruct (Hr y l' Ey) as (k & u & E1 & E2 & Hk). exists k, u. repeat split; auto with arith.
Qed.

(** A component that is missing on one side only. *)
Lemma comps_missing d n x l l' rest rest' : plain n -> x <> VNull -> Forall plain (map fst l') -> ~ In n (map fst l') -> stops d rest' ->
  text_lines (spaces (2 * S d)) (Some n) x ++ comps (S d) l ++ rest = comps (S d) l' ++ rest' -> False.
Proof.
  intros Hp Hx F Hn Hr E. rewrite lines_split in E by exact Hx. cbn [app] in E.
  destruct (comps_first (S d) l' F) as [(n' & x' & Hi & Hx' & t & E')|[E' _]]; rewrite E' in E; cbn [app] in E.
  - assert (Hp' : plain n') by (rewrite Forall_forall in F; apply F; exact (in_map fst _ _ Hi)).
    apply cons_eq in E. destruct E as [E _]. apply app_inv_head in E. apply head_name in E; try assumption. subst n'. apply Hn. exact (in_map fst _ _ Hi).
  - symmetry in E. destruct (Hr _ _ E) as (k & u & E1 & E2 & Hk).
    apply spaces_inj in E1; [|now apply head_starts|exact E2]. destruct E1 as [E1 _]. apply two_inj in E1. lia.
Qed.

Lemma comps_readback d l : forall l' rest rest', Forall (fun nx => readback (snd nx)) l ->
  map fst l = map fst l' -> NoDup (map fst l) -> Forall plain (map fst l) ->
  (forall n x, In (n, x) l -> legible x) -> (forall n x, In (n, x) l' -> legible x) ->
  stops d rest -> stops d rest' -> comps (S d) l ++ rest = comps (S d) l' ++ rest' -> l = l' /\ rest = rest'.
Proof.
  induction l as [|[n x] l IH]; intros [|[n' x'] l'] rest rest' FR Em Nd Fp HL HL' Hr Hr' E; try discriminate Em; [now split|].
  cbn [map fst] in *. injection Em as <- Em. inversion Nd as [|? ? Hn Nd']; subst. inversion Fp as [|? ? Hp Fp']; subst.
  inversion FR as [|? ? HR FR']; subst. cbn [snd] in HR.
  assert (D : forall y, y = VNull \/ y <> VNull) by (intros [| | | |]; [now left|right; discriminate..]).
  cbn [comps] in E. fold (comps (S d)) in E. rewrite <- !app_assoc in E.
  assert (Fp2 : Forall plain (map fst l')) by now rewrite <- Em.
  assert (Hn2 : ~ In n (map fst l')) by now rewrite <- Em.
  destruct (D x) as [->|Hx]; destruct (D x') as [->|Hx'].
  - cbn [text_lines app] in E. destruct (IH l' rest rest' FR' Em Nd' Fp') as [-> ->]; try assumption; [..|now split].
    + intros m y Hy. apply (HL m y). now right.
    + intros m y Hy. apply (HL' m y). now right.
  - cbn [text_lines app] in E. symmetry in E. apply comps_missing in E; try assumption. contradiction.
  - cbn [text_lines app] in E. apply comps_missing in E; try assumption. contradiction.
  - apply HR in E; try assumption; [|apply (HL n x); now left|apply (HL' n x'); now left|now apply comps_stop|now apply comps_stop].
    destruct E as [-> E]. destruct (IH l' rest rest' FR' Em Nd' Fp') as [-> ->]; try assumption; [..|now split].
    + intros m y Hy. apply (HL m y). now right.
    + intros m y Hy. apply (HL' m y). now right.
Qed.

Lemma item_plain i : exists nm, item_name i = Some nm /\ plain nm.
Proof.
  unfold item_name. eexists. split; [reflexivity|]. destruct (n_str_spec (N.of_nat i)) as (_ & F & _). rewrite Forall_forall in F.
  split; [discriminate|].
  assert (K : forall c, In c (js "[" ++ n_str (N.of_nat i) ++ js "]") -> c <> 32%N /\ c <> 58%N).
  { intros c Hc. cbn [js] in Hc. apply in_app_or in Hc. destruct Hc as [[<-|[]]|Hc]; [split; discriminate|].
    apply in_app_or in Hc. destruct Hc as [Hc|[<-|[]]]; [|split; discriminate]. apply F in Hc. unfold digit in Hc. lia. }
  split; intro Hc; apply K in Hc; destruct Hc as [H1 H2]; [now apply H1|now apply H2].
Qed.

Lemma close_starts : starts (js "]").
Proof. exists 93%N, []. split; [reflexivity|discriminate]. Qed.

Lemma items_stop d i l rest : (forall x, In x l -> x <> VNull) -> stops (S d) (items (S d) i l ++ (spaces (2 * d) ++ js "]") :: rest).
Proof.
  intros H. destruct l as [|x l]; cbn [items app].
  - intros y l' E. injection E as <- _. exists d, (js "]"). split; [reflexivity|]. split; [exact close_starts|lia].
  - destruct (item_plain i) as (nm & E & Hp). rewrite E. rewrite lines_split by (apply H; now left). cbn [app].
    intros y l' E'. injection E' as <- _. exists (S d), (head_of nm x). split; [reflexivity|]. split; [|lia].
    apply head_starts; [exact Hp|]. apply H. now left.
Qed.

Lemma items_readback d l : forall i l' rest rest', Forall readback l ->
  (forall x, In x l -> x <> VNull /\ legible x) -> (forall x, In x l' -> x <> VNull /\ legible x) ->
  items (S d) i l ++ (spaces (2 * d) ++ js "]") :: rest = items (S d) i l' ++ (spaces (2 * d) ++ js "]") :: rest' -> l = l' /\ rest = rest'.
Proof.
  assert (X : forall i x l0 rest0 rest1, x <> VNull ->
    (spaces (2 * d) ++ js "]") :: rest0 = text_lines (spaces (2 * S d)) (item_name i) x ++ items (S d) (S i) l0 ++ rest1 -> False).
  { intros i x l0 rest0 rest1 Hx E. destruct (item_plain i) as (nm & En & Hp). rewrite En, lines_split in E by exact Hx. cbn [app] in E.
    apply (f_equal (hd [])) in E. cbn [hd] in E. apply spaces_inj in E; [|exact close_starts|now apply head_starts]. destruct E as [E _]. apply two_inj in E. lia. }
  induction l as [|x l IH]; intros i [|x' l'] rest rest' FR HL HL' E.
  - cbn [items app] in E. injection E as E. now split.
  - cbn [items app] in E. fold (items (S d)) in E. rewrite <- app_assoc in E. exfalso. apply X in E; [exact E|]. apply HL'. now left.
  - cbn [items app] in E. fold (items (S d)) in E. rewrite <- app_assoc in E. symmetry in E. exfalso. apply X in E; [exact E|]. apply HL. now left.
  - cbn [items app] in E. fold (items (S d)) in E. rewrite <- !app_assoc in E.
    destruct (item_plain i) as (nm & En & Hp). rewrite En in E.
    destruct (HL x (or_introl eq_refl)) as [Hx Lx]. destruct (HL' x' (or_introl eq_refl)) as [Hx' Lx'].
    apply (Forall_inv FR) in E; try assumption.
    + destruct E as [-> E]. destruct (IH (S i) l' rest rest' (Forall_inv_tail FR)) as [-> ->]; [now intros; apply HL; right|now intros; apply HL'; right|exact E|now split].
    + apply items_stop. intros y Hy. apply HL. now right.
    + apply items_stop. intros y Hy. apply HL'. now right.
Qed.

Theorem all_readback v : readback v.
Proof.
  apply value_ind'; clear v.
  - intros d nm v' rest rest' _ _ _ H. contradiction.
  - intros cls l F d nm v' rest rest' Hp L L' Hv Hv' Hr Hr' E. rewrite !lines_split in E by assumption. cbn [app] in E. apply cons_eq in E. destruct E as [Eh E].
    apply app_inv_head in Eh. apply head_same in Eh; try assumption. destruct v' as [|cls' l'|l'|s'|s']; cbn [same_head] in Eh; try contradiction. subst cls'.
    destruct (legible_record _ _ L) as (E1 & N1 & P1 & L1). destruct (legible_record _ _ L') as (E2 & N2 & P2 & L2). cbn [tail_of] in E.
    apply comps_readback in E; try assumption; [|congruence|now rewrite E1|now rewrite E1]. destruct E as [-> ->]. now split.
  - intros l F d nm v' rest rest' Hp L L' Hv Hv' Hr Hr' E. rewrite !lines_split in E by assumption. cbn [app] in E. apply cons_eq in E. destruct E as [Eh E].
    apply app_inv_head in Eh. apply head_same in Eh; try assumption. destruct v' as [|cls' l'|l'|s'|s']; cbn [same_head] in Eh; try contradiction.
    pose proof (legible_coll _ L) as L1. pose proof (legible_coll _ L') as L2. cbn [tail_of] in E. rewrite <- !app_assoc in E. cbn [app] in E.
    apply items_readback in E; try assumption. destruct E as [-> ->]. now split.
  - intros s d nm v' rest rest' Hp L L' Hv Hv' Hr Hr' E. rewrite !lines_split in E by assumption. cbn [app] in E. apply cons_eq in E. destruct E as [Eh E].
    apply app_inv_head in Eh. apply head_same in Eh; try assumption. destruct v' as [|cls' l'|l'|s'|s']; cbn [same_head] in Eh; try contradiction. subst s'.
    now split.
  - intros s d nm v' rest rest' Hp L L' Hv Hv' Hr Hr' E. rewrite !lines_split in E by assumption. cbn [app] in E. apply cons_eq in E. destruct E as [Eh E].
    apply app_inv_head in Eh. apply head_same in Eh; try assumption. destruct v' as [|cls' l'|l'|s'|s']; cbn [same_head] in Eh; try contradiction. subst s'.
    now split.
Qed.

Theorem root_readback cls l l' : legible (VRecord cls l) -> legible (VRecord cls l') ->
  text_lines [] None (VRecord cls l) = text_lines [] None (VRecord cls l') -> l = l'.
Proof.
  intros L L' E. rewrite !root_split in E. injection E as E.
  destruct (legible_record _ _ L) as (E1 & N1 & P1 & L1). destruct (legible_record _ _ L') as (E2 & N2 & P2 & L2).
  destruct (comps_readback 0 l l' [] []) as [-> _]; try assumption; try reflexivity; try congruence; try (intros ? ? ?; discriminate);
    try (now rewrite E1); try (now rewrite !app_nil_r).
  apply Forall_forall. intros nx _. apply all_readback.
Qed.

End schema.

(** ** Numbers *)

Lemma n_str_inj n n' : n_str n = n_str n' -> n = n'.
Proof. intro E. destruct (n_str_spec n) as [H _]. destruct (n_str_spec n') as [H' _]. rewrite <- H, <- H', E. reflexivity. Qed.

Lemma n_str_head n : exists c t, n_str n = c :: t /\ digit c.
Proof.
  destruct (n_str_spec n) as (V & F & _ & Z). destruct (n_str n) as [|c t] eqn:E; [|exists c, t; split; [reflexivity|exact (Forall_inv F)]].
  cbn in V. subst n. specialize (Z eq_refl). discriminate Z.
Qed.

Lemma z_str_inj z z' : z_str z = z_str z' -> z = z'.
Proof.
  unfold z_str. destruct (z <? 0)%Z eqn:H, (z' <? 0)%Z eqn:H'; intro E.
  - injection E as E. apply n_str_inj in E. lia.
  - destruct (n_str_head (Z.to_N z')) as (c & t & Et & Hc). rewrite Et in E. injection E as <- _. unfold digit in Hc. lia.
  - destruct (n_str_head (Z.to_N z)) as (c & t & Et & Hc). rewrite Et in E. injection E as -> _. unfold digit in Hc. lia.
  - apply n_str_inj in E. lia.
Qed.

Lemma z_str_chars z c : In c (z_str z) -> c = 45%N \/ digit c.
Proof.
  assert (K : forall n, In c (n_str n) -> digit c).
  { intros n H. destruct (n_str_spec n) as (_ & F & _). rewrite Forall_forall in F. now apply F. }
  unfold z_str. destruct (z <? 0)%Z; [intros [<-|H]; [now left|]|intro H]; right; exact (K _ H).
Qed.

(** A number is written with a minus sign when it is negative. *)
Theorem z_str_spec z : ((0 <= z)%Z -> z_str z = n_str (Z.to_N z)) /\ ((z < 0)%Z -> z_str z = js "-" ++ n_str (Z.to_N (- z))).
Proof. unfold z_str. destruct (z <? 0)%Z eqn:E; split; intro; try reflexivity; lia. Qed.

(** ** Documents *)

Definition doc_fields (cls : jstring) : list jstring :=
  if jeqb cls (js "ExternalOptions") then [js "emojis"; js "compactDirectories"; js "maxDepth"; js "childLimit"; js "filter"; js "lineExtensions"]
  else if jeqb cls (js "StaticLimit") then [js "limit"]
  else if jeqb cls (js "DynamicLimit") then [js "limits"]
  else if jeqb cls (js "DynamicLimitItem") then [js "limit"; js "matcher"]
  else if jeqb cls (js "Filter") then [js "dir"; js "file"]
  else if jeqb cls (js "LineExtension") then [js "extension"; js "matcher"]
  else if jeqb cls (js "NameGlob") || jeqb cls (js "PathGlob") then [js "glob"]
  else if jeqb cls (js "AllOf") || jeqb cls (js "AnyOf") || jeqb cls (js "NoneOf") then [js "matchers"]
  else [].

Lemma plain_dec n : n <> [] -> forallb (fun c => negb (c =? 32)%N && negb (c =? 58)%N) n = true -> plain n.
Proof.
  intros Hn H. rewrite forallb_forall in H. split; [exact Hn|]. split; intro Hc; apply H in Hc; discriminate Hc.
Qed.
Ltac nodup := repeat (apply NoDup_cons; [cbn [In]; intuition discriminate|]); apply NoDup_nil.
Lemma doc_fields_ok cls : NoDup (doc_fields cls) /\ Forall plain (doc_fields cls).
Proof.
  unfold doc_fields. repeat match goal with |- context [if ?b then _ else _] => destruct b end;
    (split; [nodup|repeat constructor; apply plain_dec; try discriminate; reflexivity]).
Qed.

Notation legible_doc := (legible doc_fields).

Lemma legible_doc_record cls l : map fst l = doc_fields cls -> (forall n x, In (n, x) l -> legible_doc x) -> legible_doc (VRecord cls l).
Proof. intros E H. destruct (doc_fields_ok cls). now constructor. Qed.

Lemma legible_int z : legible_doc (v_int z).
Proof.
  constructor.
  - destruct (z_str z) as [|c t] eqn:E; [discriminate|]. cbn. assert (H : In c (z_str z)) by (rewrite E; now left).
    apply z_str_chars in H. unfold digit in H. intro X. injection X as ->. lia.
  - intro E. assert (H : In 91%N (z_str z)) by (rewrite E; now left). apply z_str_chars in H. unfold digit in H. lia.
Qed.
Lemma legible_bool b : legible_doc (v_bool b).
Proof. destruct b; constructor; discriminate. Qed.
Lemma legible_opt {A} (f : A -> value) x : (forall a, x = Some a -> legible_doc (f a)) -> legible_doc (v_opt f x).
Proof. destruct x; intro H; [now apply H|constructor]. Qed.

Lemma usable_legible m : usable_matcher m -> legible_doc (v_matcher m) /\ v_matcher m <> VNull.
Proof.
  assert (K : forall cls l, doc_fields cls = [js "matchers"] -> Forall (fun m => usable_matcher m -> legible_doc (v_matcher m) /\ v_matcher m <> VNull) l ->
    (forall m, In m l -> usable_matcher m) -> legible_doc (VRecord cls [(js "matchers", VColl (map v_matcher l))])).
  { intros cls l E F H. apply legible_doc_record; [now rewrite E|]. intros n x [X|[]]. injection X as <- <-. constructor.
    intros y Hy. apply in_map_iff in Hy. destruct Hy as (m0 & <- & Hm). rewrite Forall_forall in F. destruct (F m0 Hm (H m0 Hm)). now split. }
  apply (xmatcher_ind' (fun m => usable_matcher m -> legible_doc (v_matcher m) /\ v_matcher m <> VNull)); clear m;
    try (intro H; inversion H; fail).
  - intros _. split; [|discriminate]. apply legible_doc_record; [reflexivity|intros n x []].
  - intros _. split; [|discriminate]. apply legible_doc_record; [reflexivity|intros n x []].
  - intros l F. repeat split; try discriminate; (apply K; [reflexivity|exact F|]);
      match goal with H : usable_matcher _ |- _ => inversion H; assumption end.
  - intros g _. split; [|discriminate]. apply legible_doc_record; [reflexivity|]. intros n x [X|[]]. injection X as <- <-. apply legible_opt. constructor.
  - intros g _. split; [|discriminate]. apply legible_doc_record; [reflexivity|]. intros n x [X|[]]. injection X as <- <-. apply legible_opt. constructor.
Qed.

Lemma null_or_usable_legible m : m = XmNull \/ usable_matcher m -> legible_doc (v_matcher m).
Proof. intros [->|H]; [constructor|now apply usable_legible]. Qed.

Lemma acceptable_legible x : acceptable x -> legible_doc (v_options x).
Proof.
  intros [Hl Hf He]. apply legible_doc_record; [reflexivity|]. intros n v Hv. cbn [In] in Hv.
  destruct Hv as [X|[X|[X|[X|[X|[X|[]]]]]]]; injection X as _ <-; apply legible_opt; intros a Ea; try apply legible_bool; try apply legible_int.
  - destruct (Hl a Ea) as [(z & ->)|(l & -> & _ & H)]; cbn [v_limit v_opt].
    + apply legible_doc_record; [reflexivity|]. intros ? ? [X|[]]. injection X as _ <-. apply legible_int.
    + apply legible_doc_record; [reflexivity|]. intros ? ? [X|[]]. injection X as _ <-. constructor. intros y Hy.
      apply in_map_iff in Hy. destruct Hy as (i & <- & Hi). destruct (H i Hi) as (z & m & -> & Hm). split; [discriminate|].
      cbn [v_opt v_item xi_limit xi_matcher]. apply legible_doc_record; [reflexivity|].
      intros ? ? [X|[X|[]]]; injection X as _ <-; [apply legible_int|now apply usable_legible].
  - destruct (Hf a Ea) as [H1 H2]. apply legible_doc_record; [reflexivity|].
    intros ? ? [X|[X|[]]]; injection X as _ <-; now apply null_or_usable_legible.
  - constructor. intros y Hy. apply in_map_iff in Hy. destruct Hy as (i & <- & Hi). destruct (He a Ea i Hi) as (t & m & -> & Hm). split; [discriminate|].
    cbn [v_opt v_extension xe_extension xe_matcher]. apply legible_doc_record; [reflexivity|].
    intros ? ? [X|[X|[]]]; injection X as _ <-; [constructor|now apply usable_legible].
Qed.

(** ** The object determines the document *)

Lemma map_inj {A B} (f : A -> B) l : forall l', Forall (fun a => forall b, f a = f b -> a = b) l -> map f l = map f l' -> l = l'.
Proof.
  induction l as [|a l IH]; intros [|b l'] F E; try discriminate E; [reflexivity|]. cbn [map] in E. apply cons_eq in E. destruct E as [Ea E].
  inversion F as [|? ? Ha F']; subst. now rewrite (Ha b Ea), (IH l' F' E).
Qed.

Lemma v_opt_inj {A} (f : A -> value) x y : (forall a, f a <> VNull) -> (forall a b, x = Some a -> f a = f b -> a = b) -> v_opt f x = v_opt f y -> x = y.
Proof.
  intros Hn Hf. destruct x as [a|], y as [b|]; cbn [v_opt]; intro E; [|now elim (Hn a)|symmetry in E; now elim (Hn b)|reflexivity].
  now rewrite (Hf a b eq_refl E).
Qed.

Lemma record_inj cls l cls' l' : VRecord cls l = VRecord cls' l' -> cls = cls' /\ l = l'.
Proof. intro E. now injection E. Qed.
Lemma pair_inj {A B} (a a' : A) (b b' : B) : (a, b) = (a', b') -> a = a' /\ b = b'.
Proof. intro E. now injection E. Qed.

Lemma one_inj cls n v cls' n' v' : VRecord cls [(n, v)] = VRecord cls' [(n', v')] -> cls = cls' /\ v = v'.
Proof. intro E. injection E as -> _ ->. now split. Qed.
Lemma two_inj' cls n v m u cls' n' v' m' u' : VRecord cls [(n, v); (m, u)] = VRecord cls' [(n', v'); (m', u')] -> v = v' /\ u = u'.
Proof. intro E. injection E as _ _ -> _ ->. now split. Qed.

Definition v_matchers (l : option (list xmatcher)) : value := match l with Some l => VColl (map v_matcher l) | None => VNull end.
Lemma v_all l : v_matcher (XmAllOf l) = VRecord (js "AllOf") [(js "matchers", v_matchers l)].
Proof. reflexivity. Qed.
Lemma v_any l : v_matcher (XmAnyOf l) = VRecord (js "AnyOf") [(js "matchers", v_matchers l)].
Proof. reflexivity. Qed.
Lemma v_none l : v_matcher (XmNoneOf l) = VRecord (js "NoneOf") [(js "matchers", v_matchers l)].
Proof. reflexivity. Qed.
Lemma v_matchers_inj l l' : match l with Some l => Forall (fun a => forall b, v_matcher a = v_matcher b -> a = b) l | None => True end ->
  v_matchers l = v_matchers l' -> l = l'.
Proof.
  destruct l as [l|], l' as [l'|]; intros F E; cbn in E; try discriminate; [|reflexivity]. assert (E' : map v_matcher l = map v_matcher l') by now injection E.
  now rewrite (map_inj _ l l' F E').
Qed.
Lemma v_glob_inj g g' : v_opt VString g = v_opt VString g' -> g = g'.
Proof. apply v_opt_inj; [discriminate|]. intros a b _ E. now injection E. Qed.

Ltac other_class E := exfalso; first [discriminate E | apply one_inj in E; destruct E as [E _]; discriminate E].

Lemma v_matcher_inj m : forall m', v_matcher m = v_matcher m' -> m = m'.
Proof.
  assert (K : forall l, match l with Some l => Forall (fun a => forall b, v_matcher a = v_matcher b -> a = b) l | None => True end ->
    (forall m', v_matcher (XmAllOf l) = v_matcher m' -> XmAllOf l = m') /\ (forall m', v_matcher (XmAnyOf l) = v_matcher m' -> XmAnyOf l = m') /\
    (forall m', v_matcher (XmNoneOf l) = v_matcher m' -> XmNoneOf l = m')).
  { intros l F. repeat split; intros [| | |l'|l'|l'|g|g] E; rewrite ?v_all, ?v_any, ?v_none in E; try (other_class E);
      (apply one_inj in E; destruct E as [_ E]; apply v_matchers_inj in E; [now rewrite E|exact F]). }
  apply (xmatcher_ind' (fun m => forall m', v_matcher m = v_matcher m' -> m = m')); clear m.
  - intros [| | |l'|l'|l'|g|g] E; try reflexivity; discriminate E.
  - intros [| | |l'|l'|l'|g|g] E; try reflexivity; other_class E.
  - intros [| | |l'|l'|l'|g|g] E; try reflexivity; other_class E.
  - intros l F. exact (K (Some l) F).
  - apply (K None I).
  - apply (K None I).
  - apply (K None I).
  - intros g [| | |l'|l'|l'|g'|g'] E; rewrite ?v_all, ?v_any, ?v_none in E; try (other_class E). apply one_inj in E. destruct E as [_ E].
    apply v_glob_inj in E. now rewrite E.
  - intros g [| | |l'|l'|l'|g'|g'] E; rewrite ?v_all, ?v_any, ?v_none in E; try (other_class E). apply one_inj in E. destruct E as [_ E].
    apply v_glob_inj in E. now rewrite E.
Qed.

Lemma v_int_inj a b : v_int a = v_int b -> a = b.
Proof. intro E. apply z_str_inj. unfold v_int in E. now injection E. Qed.
Lemma v_bool_inj a b : v_bool a = v_bool b -> a = b.
Proof. destruct a, b; intro E; try reflexivity; discriminate E. Qed.

Lemma v_item_inj a b : v_item a = v_item b -> a = b.
Proof.
  destruct a as [n m], b as [n' m']. unfold v_item. cbn [xi_limit xi_matcher]. intro E. apply two_inj' in E. destruct E as [E1 E2].
  apply v_opt_inj in E1; [|discriminate|intros ? ? _; apply v_int_inj]. apply v_matcher_inj in E2. now rewrite E1, E2.
Qed.
Lemma v_extension_inj a b : v_extension a = v_extension b -> a = b.
Proof.
  destruct a as [n m], b as [n' m']. unfold v_extension. cbn [xe_extension xe_matcher]. intro E. apply two_inj' in E. destruct E as [E1 E2].
  apply v_glob_inj in E1. apply v_matcher_inj in E2. now rewrite E1, E2.
Qed.
Lemma v_filter_inj a b : v_filter a = v_filter b -> a = b.
Proof.
  destruct a as [n m], b as [n' m']. unfold v_filter. cbn [xf_dir xf_file]. intro E. apply two_inj' in E. destruct E as [E1 E2].
  apply v_matcher_inj in E1, E2. now rewrite E1, E2.
Qed.

Lemma v_list_inj {A} (f : A -> value) : (forall a, f a <> VNull) -> (forall a b, f a = f b -> a = b) -> forall l l' : option (list (option A)),
  v_opt (fun l => VColl (map (v_opt f) l)) l = v_opt (fun l => VColl (map (v_opt f) l)) l' -> l = l'.
Proof.
  intros Hn Hf l l'. apply v_opt_inj; [discriminate|]. intros a b _ E. assert (E' : map (v_opt f) a = map (v_opt f) b) by now injection E.
  apply map_inj in E'; [exact E'|]. apply Forall_forall. intros x _ y. apply v_opt_inj; [exact Hn|]. intros ? ? _. apply Hf.
Qed.

Lemma v_limit_inj a b : v_limit a = v_limit b -> a = b.
Proof.
  destruct a as [n|l], b as [n'|l']; cbn [v_limit]; intro E; apply one_inj in E; destruct E as [C E]; try discriminate C.
  - apply v_opt_inj in E; [now rewrite E|discriminate|intros ? ? _; apply v_int_inj].
  - apply v_list_inj in E; [now rewrite E|discriminate|apply v_item_inj].
Qed.

Lemma v_options_inj x y : v_options x = v_options y -> x = y.
Proof.
  destruct x as [x1 x2 x3 x4 x5 x6], y as [y1 y2 y3 y4 y5 y6]. unfold v_options.
  cbn [x_emojis x_compact x_max_depth x_child_limit x_filter x_line_extensions]. intro E. apply record_inj in E. destruct E as [_ E].
  repeat (apply cons_eq in E; let H := fresh "H" in destruct E as [H E]; apply pair_inj in H; destruct H as [_ H]). clear E.
  apply v_opt_inj in H; [|discriminate|intros ? ? _; apply v_bool_inj].
  apply v_opt_inj in H0; [|discriminate|intros ? ? _; apply v_bool_inj].
  apply v_opt_inj in H1; [|discriminate|intros ? ? _; apply v_int_inj].
  apply v_opt_inj in H2; [|intros []; discriminate|intros ? ? _; apply v_limit_inj].
  apply v_opt_inj in H3; [|discriminate|intros ? ? _; apply v_filter_inj].
  apply v_list_inj in H4; [|discriminate|apply v_extension_inj].
  now subst.
Qed.

(** ** Lines do not contain line separators *)

Section free.
Variable c : N.
Hypothesis control : (c < 32)%N.

Definition fr (s : jstring) : Prop := ~ In c s.
Lemma fr_app a b : fr a -> fr b -> fr (a ++ b).
Proof. intros Ha Hb H. apply in_app_or in H. destruct H; [now apply Ha|now apply Hb]. Qed.
Lemma fr_visible s : forallb (fun x => 32 <=? x)%N s = true -> fr s.
Proof. intros H Hc. rewrite forallb_forall in H. apply H in Hc. apply N.leb_le in Hc. lia. Qed.
Lemma fr_spaces n : fr (spaces n).
Proof. intro H. apply repeat_spec in H. unfold c_space in H. lia. Qed.
Lemma fr_n n : fr (n_str n).
Proof. intro H. destruct (n_str_spec n) as (_ & F & _). rewrite Forall_forall in F. apply F in H. unfold digit in H. lia. Qed.
Lemma fr_z z : fr (z_str z).
Proof. intro H. apply z_str_chars in H. unfold digit in H. lia. Qed.

Inductive free : value -> Prop :=
| fe_null : free VNull
| fe_record cls l : fr cls -> (forall n x, In (n, x) l -> fr n /\ free x) -> free (VRecord cls l)
| fe_coll l : (forall x, In x l -> free x) -> free (VColl l)
| fe_string s : fr s -> free (VString s)
| fe_other s : fr s -> free (VOther s).

Definition fr_opt (nm : option jstring) : Prop := match nm with Some n => fr n | None => True end.

Lemma record_head_fr sh nm cls : fr sh -> fr_opt nm -> fr cls -> fr (record_head sh nm cls).
Proof.
  intros Hs Hn Hc. destruct nm as [n|]; cbn [record_head]; repeat apply fr_app; try assumption. now apply fr_visible.
Qed.
Lemma coll_head_fr sh nm : fr sh -> fr_opt nm -> fr (coll_head sh nm).
Proof. intros Hs Hn. destruct nm as [n|]; cbn [coll_head]; repeat apply fr_app; try assumption; now apply fr_visible. Qed.
Lemma name_str_fr nm : fr_opt nm -> fr (name_str nm).
Proof. destruct nm; cbn; [trivial|]. intros _. now apply fr_visible. Qed.

Lemma lines_free v : forall sh nm, fr sh -> fr_opt nm -> free v -> Forall fr (text_lines sh nm v).
Proof.
  assert (X : forall sh, fr sh -> fr (sh ++ text_indent)) by (intros; apply fr_app; [assumption|now apply fr_visible]).
  apply (value_ind' (fun v => forall sh nm, fr sh -> fr_opt nm -> free v -> Forall fr (text_lines sh nm v))); clear v.
  - constructor.
  - intros cls l F sh nm Hs Hn H. inversion H as [|? ? Hc Hl| | |]; subst. cbn [text_lines]. constructor; [now apply record_head_fr|].
    clear H Hc. induction F as [|[n x] l Hx F IH]; [constructor|]. apply Forall_app. split.
    + apply Hx; [now apply X|..]; apply (Hl n x); now left.
    + apply IH. intros m y Hy. apply (Hl m y). now right.
  - intros l F sh nm Hs Hn H. inversion H as [| |? Hl| |]; subst. cbn [text_lines]. constructor; [now apply coll_head_fr|].
    apply Forall_app. split; [|repeat constructor; apply fr_app; [assumption|now apply fr_visible]].
    clear H. generalize 0 as i. induction F as [|x l Hx F IH]; intro i; [constructor|]. apply Forall_app. split.
    + apply Hx; [now apply X| |apply Hl; now left]. cbn [fr_opt]. apply fr_app; [now apply fr_visible|apply fr_app; [apply fr_n|now apply fr_visible]].
    + apply IH. intros y Hy. apply Hl. now right.
  - intros s sh nm Hs Hn H. inversion H; subst. cbn [text_lines]. repeat constructor. repeat apply fr_app; try assumption; try (now apply name_str_fr); now apply fr_visible.
  - intros s sh nm Hs Hn H. inversion H; subst. cbn [text_lines]. repeat constructor. repeat apply fr_app; try assumption; try (now apply name_str_fr); now apply fr_visible.
Qed.

Lemma free_opt {A} (f : A -> value) x : (forall a, x = Some a -> free (f a)) -> free (v_opt f x).
Proof. destruct x; intro H; [now apply H|constructor]. Qed.
Lemma free_int z : free (v_int z).
Proof. constructor. apply fr_z. Qed.
Lemma free_bool b : free (v_bool b).
Proof. constructor. destruct b; now apply fr_visible. Qed.

Lemma free_one cls n v : fr cls -> fr n -> free v -> free (VRecord cls [(n, v)]).
Proof. intros Hc Hn Hv. constructor; [exact Hc|]. intros m x [X|[]]. injection X as <- <-. now split. Qed.
Lemma free_two cls n v m u : fr cls -> fr n -> free v -> fr m -> free u -> free (VRecord cls [(n, v); (m, u)]).
Proof. intros Hc Hn Hv Hm Hu. constructor; [exact Hc|]. intros k x [X|[X|[]]]; injection X as <- <-; now split. Qed.

Ltac vis := now apply fr_visible.

Lemma free_matcher m : (forall g, In g (globs m) -> fr g) -> free (v_matcher m).
Proof.
  assert (K : forall l, Forall (fun m => (forall g, In g (globs m) -> fr g) -> free (v_matcher m)) l -> (forall g, In g (flat_map globs l) -> fr g) ->
    free (VColl (map v_matcher l))).
  { intros l F H. constructor. intros x Hx. apply in_map_iff in Hx. destruct Hx as (m0 & <- & Hm). rewrite Forall_forall in F. apply (F m0 Hm).
    intros g Hg. apply H. apply in_flat_map. now exists m0. }
  apply (xmatcher_ind' (fun m => (forall g, In g (globs m) -> fr g) -> free (v_matcher m))); clear m.
  - constructor.
  - intros _. constructor; [vis|intros ? ? []].
  - intros _. constructor; [vis|intros ? ? []].
  - intros l F. repeat split; intro H; cbn [v_matcher]; (apply free_one; [vis|vis|]); apply K; assumption.
  - intros _. apply free_one; [vis|vis|constructor].
  - intros _. apply free_one; [vis|vis|constructor].
  - intros _. apply free_one; [vis|vis|constructor].
  - intros g H. apply free_one; [vis|vis|]. apply free_opt. intros a ->. constructor. apply H. now left.
  - intros g H. apply free_one; [vis|vis|]. apply free_opt. intros a ->. constructor. apply H. now left.
Qed.

Lemma free_options x : (forall t, In t (all_texts x) -> fr t) -> free (v_options x).
Proof.
  intro H. destruct x as [x1 x2 x3 x4 x5 x6]. unfold all_texts, all_globs in H. cbn [x_child_limit x_filter x_line_extensions] in H.
  constructor; [vis|]. cbn [x_emojis x_compact x_max_depth x_child_limit x_filter x_line_extensions].
  intros n v [X|[X|[X|[X|[X|[X|[]]]]]]]; injection X as <- <-; (split; [vis|]); apply free_opt; intros a Ea; try apply free_int; try apply free_bool; subst.
  - destruct a as [z|l]; cbn [v_limit].
    + apply free_one; [vis|vis|]. apply free_opt. intros. apply free_int.
    + apply free_one; [vis|vis|]. apply free_opt. intros l' ->. constructor. intros y Hy. apply in_map_iff in Hy. destruct Hy as (i & <- & Hi).
      apply free_opt. intros i' ->. apply free_two; try vis; [apply free_opt; intros; apply free_int|].
      apply free_matcher. intros g Hg. apply H. apply in_or_app. left. apply in_or_app. left. cbn [limit_globs]. apply in_flat_map. now exists (Some i').
  - apply free_two; try vis; apply free_matcher; intros g Hg; apply H; apply in_or_app; left; apply in_or_app; right; apply in_or_app; left;
      apply in_or_app; [now left|now right].
  - constructor. intros y Hy. apply in_map_iff in Hy. destruct Hy as (i & <- & Hi).
    apply free_opt. intros i' ->. apply free_two; try vis.
    + apply free_opt. intros t Et. constructor. apply H. apply in_or_app. right. apply in_flat_map. exists (Some i'). split; [exact Hi|].
      destruct i' as [t' m]. cbn [xe_extension] in Et. subst t'. now left.
    + apply free_matcher. intros g Hg. apply H. apply in_or_app. left. apply in_or_app. right. apply in_or_app. right. apply in_flat_map. now exists (Some i').
Qed.
End free.

Theorem C83_lemma : forall linesep x y, linesep <> [] -> Forall (fun c => c < 32)%N linesep -> acceptable x -> acceptable y ->
  (forall t, In t (all_texts x ++ all_texts y) -> forall c, In c linesep -> ~ In c t) ->
  to_text_block linesep (v_options x) = to_text_block linesep (v_options y) -> x = y.
Proof.
  intros [|c ls] x y Hn Hc Ax Ay Ht E; [contradiction|]. pose proof (Forall_inv Hc) as H32. cbn beta in H32.
  assert (K : forall z, (forall t, In t (all_texts z) -> In t (all_texts x ++ all_texts y)) -> Forall (fr c) (text_lines [] None (v_options z))).
  { intros z Hz. apply lines_free; [exact H32|intros []|exact I|]. apply free_options; [exact H32|]. intros t Hi. apply (Ht t (Hz t Hi) c). now left. }
  apply acceptable_legible in Ax, Ay. apply v_options_inj.
  assert (L : text_lines [] None (v_options x) = text_lines [] None (v_options y)).
  { apply (join_inj c ls); [apply K; intros; apply in_or_app; now left|apply K; intros; apply in_or_app; now right|discriminate|discriminate|exact E]. }
  unfold v_options in *. apply (root_readback doc_fields) in L; [now rewrite L|exact Ax|exact Ay].
Qed.
