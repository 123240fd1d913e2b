(** * Facts about volumes *)

From Verif Require Import PathFacts.
From Verif Require Export SpecVolume.
From Coq Require Import Lia.
Close Scope Z_scope.

Lemma node_at_app top l1 l2 : node_at top (l1 ++ l2) = opt_bind (node_at top l1) (fun x => node_at x l2).
Proof.
  revert top. induction l1 as [|n l1 IH]; intro top; [reflexivity|]. cbn [app node_at].
  destruct top as [| b es | |]; try reflexivity. destruct (entry_named n es); [apply IH|reflexivity].
Qed.

Lemma folder_above top l1 l2 x : node_at top (l1 ++ l2) = Some x -> l2 <> [] -> folder_at top l1.
Proof.
  rewrite node_at_app. intros H Hne. unfold folder_at. destruct (node_at top l1) as [y|]; [|discriminate]. cbn in H. destruct l2 as [|n l2]; [congruence|].
  cbn in H. destruct y as [| b es | |]; try discriminate. eauto.
Qed.

Section Walk.
Variable top : node.
Hypothesis Htop : folder_at top [].

Lemma folder_up here : folder_at top here -> folder_at top (removelast here).
Proof.
  intro Hf. destruct (rev here) as [|n l] eqn:E.
  - apply (f_equal (@rev _)) in E. rewrite rev_involutive in E. now subst.
  - apply (f_equal (@rev _)) in E. rewrite rev_involutive in E. cbn in E. subst. rewrite removelast_last. destruct Hf as (b & es & Hf).
    now apply folder_above with [n] (NDir b es).
Qed.

Lemma search_nil f k here : search top f k here [] = Some here.
Proof. now destruct k. Qed.

Lemma search_cons f k here n rest : search top f k here (n :: rest) =
  if jeqb n n_dot then search top f k here rest
  else if jeqb n n_dotdot then search top f k (removelast here) rest
  else match node_at top (here ++ [n]) with
       | None => None
       | Some (NDir _ _) => search top f k (here ++ [n]) rest
       | Some (NLink t) =>
           match f, rest with
           | false, [] => Some (here ++ [n])
           | _, _ => match k with
                     | O => None
                     | S k' => search top f k' (if p_abs t then [] else here) (p_names t ++ rest)
                     end
           end
       | Some _ => match rest with [] => Some (here ++ [n]) | _ => None end
       end.
Proof. destruct k; reflexivity. Qed.

(** Induction along a search: on the links left, then on the names left. *)
Lemma search_ind (P : nat -> list jstring -> Prop) :
  (forall k, P k []) -> (forall k n rest, P k rest -> (forall k' l, k' < k -> P k' l) -> P k (n :: rest)) -> forall k l, P k l.
Proof.
  intros H0 HS. induction k as [k IHk] using (well_founded_induction lt_wf). induction l as [|n l IH]; [apply H0|]. apply HS; auto.
Qed.

Lemma search_more f k l : forall here r k', search top f k here l = Some r -> k <= k' -> search top f k' here l = Some r.
Proof.
  revert k l. apply (search_ind (fun k l => forall here r k', search top f k here l = Some r -> k <= k' -> search top f k' here l = Some r)).
  - intros k here r k' H _. now rewrite search_nil in *.
  - intros k n rest IH IHk here r k' H Hk. rewrite search_cons in *.
    destruct (jeqb n n_dot); [eauto|]. destruct (jeqb n n_dotdot); [eauto|]. destruct (node_at top (here ++ [n])) as [[| | t |]|]; eauto.
    destruct f; [|destruct rest]; eauto; (destruct k as [|k]; [discriminate|]; destruct k' as [|k']; [lia|]; eapply (IHk k); eauto; lia).
Qed.

(** A search that succeeds, cut in two. *)
Lemma search_split f k l1 : forall l2 here r, search top f k here (l1 ++ l2) = Some r -> l2 <> [] -> folder_at top here ->
  exists j m, j <= k /\ search top true j here l1 = Some m /\ folder_at top m /\ search top f (k - j) m l2 = Some r.
Proof.
  revert k l1. apply (search_ind (fun k l1 => forall l2 here r, search top f k here (l1 ++ l2) = Some r -> l2 <> [] -> folder_at top here ->
    exists j m, j <= k /\ search top true j here l1 = Some m /\ folder_at top m /\ search top f (k - j) m l2 = Some r)).
  - intros k l2 here r H _ Hf. exists 0, here. split; [lia|]. split; [apply search_nil|]. split; [exact Hf|]. now rewrite Nat.sub_0_r.
  - intros k n rest IH IHk l2 here r H Hne Hf. cbn [app] in H. rewrite search_cons in H.
    destruct (jeqb n n_dot) eqn:E1.
    { destruct (IH _ _ _ H Hne Hf) as (j & m & Hj & H1 & H2 & H3). exists j, m. rewrite search_cons, E1. auto. }
    destruct (jeqb n n_dotdot) eqn:E2.
    { destruct (IH _ _ _ H Hne (folder_up _ Hf)) as (j & m & Hj & H1 & H2 & H3). exists j, m. rewrite search_cons, E1, E2. auto. }
    destruct (node_at top (here ++ [n])) as [[z|b es|t|]|] eqn:En; try discriminate.
    + destruct rest; [destruct l2; [congruence|]|]; discriminate.
    + destruct (IH _ _ _ H Hne) as (j & m & Hj & H1 & H2 & H3); [eexists; eauto|]. exists j, m. rewrite search_cons, E1, E2, En. auto.
    + assert (H' : match k with O => None | S k' => search top f k' (if p_abs t then [] else here) (p_names t ++ rest ++ l2) end = Some r).
      { destruct f; [exact H|]. destruct (rest ++ l2) eqn:E; [|exact H]. apply app_eq_nil in E as [_ E]. congruence. }
      destruct k as [|k]; [discriminate|]. rewrite app_assoc in H'.
      destruct (IHk k (p_names t ++ rest) (Nat.lt_succ_diag_r k) _ _ _ H' Hne) as (j & m & Hj & H1 & H2 & H3).
      { destruct (p_abs t); [exact Htop|exact Hf]. }
      exists (S j), m. split; [lia|]. rewrite search_cons, E1, E2, En. auto.
    + destruct rest; [destruct l2; [congruence|]|]; discriminate.
Qed.

(** Two searches, one after the other. *)
Lemma search_join f j l1 : forall i l2 here m r, search top true j here l1 = Some m -> folder_at top m -> l2 <> [] -> search top f i m l2 = Some r ->
  search top f (j + i) here (l1 ++ l2) = Some r.
Proof.
  revert j l1. apply (search_ind (fun j l1 => forall i l2 here m r, search top true j here l1 = Some m -> folder_at top m -> l2 <> [] ->
    search top f i m l2 = Some r -> search top f (j + i) here (l1 ++ l2) = Some r)).
  - intros j i l2 here m r H Hm Hne H2. rewrite search_nil in H. injection H as ->. apply search_more with i; [exact H2|lia].
  - intros j n rest IH IHj i l2 here m r H Hm Hne H2. cbn [app]. rewrite search_cons in *.
    destruct (jeqb n n_dot); [eauto|]. destruct (jeqb n n_dotdot); [eauto|].
    destruct (node_at top (here ++ [n])) as [[z|b es|t|]|] eqn:En; try discriminate; eauto.
    + destruct rest; [|discriminate]. injection H as <-. destruct Hm as (b & es & Hm). congruence.
    + assert (H' : match j + i with O => None | S k' => search top f k' (if p_abs t then [] else here) (p_names t ++ rest ++ l2) end = Some r).
      { destruct j as [|j]; [discriminate|]. cbn [Nat.add]. rewrite app_assoc. eapply (IHj j); eauto. }
      destruct f; [exact H'|]. destruct (rest ++ l2) eqn:E; [apply app_eq_nil in E as [_ E]; congruence|exact H'].
    + destruct rest; [|discriminate]. injection H as <-. destruct Hm as (b & es & Hm). congruence.
Qed.

Definition no_link (l : list jstring) : Prop := forall t, node_at top l <> Some (NLink t).

Lemma plain_eqb n : plain n -> jeqb n n_dot = false /\ jeqb n n_dotdot = false.
Proof. intros [H1 H2]. destruct (jeqb_spec n n_dot), (jeqb_spec n n_dotdot); tauto. Qed.

(** A place is found by its own names. *)
Lemma search_place f k l : forall here x, Forall plain l -> node_at top (here ++ l) = Some x -> f = false \/ no_link (here ++ l) ->
  search top f k here l = Some (here ++ l).
Proof.
  induction l as [|n l IH]; intros here x Hp Hx Hf; [now rewrite search_nil, app_nil_r|].
  rewrite search_cons. inversion Hp as [|? ? Hn Hp']; subst. destruct (plain_eqb n Hn) as [-> ->].
  replace (here ++ n :: l) with ((here ++ [n]) ++ l) in * by (now rewrite <- app_assoc).
  destruct l as [|c l].
  - rewrite app_nil_r in *. rewrite Hx. destruct x; try reflexivity; [now rewrite search_nil|].
    destruct Hf as [->|Hf]; [reflexivity|]. now apply Hf in Hx.
  - destruct (folder_above _ _ _ _ Hx ltac:(discriminate)) as (b & es & ->). eauto.
Qed.

Lemma search_last f k here n r : plain n -> search top f k here [n] = Some r -> f = false \/ no_link (here ++ [n]) ->
  r = here ++ [n] /\ node_at top r <> None.
Proof.
  intros Hn H Hf. rewrite search_cons in H. destruct (plain_eqb n Hn) as [E1 E2]. rewrite E1, E2 in H.
  destruct (node_at top (here ++ [n])) as [x|] eqn:E; [|discriminate].
  assert (r = here ++ [n]) as ->; [|split; [reflexivity|congruence]].
  destruct x; rewrite ?search_nil in H; try congruence. destruct Hf as [->|Hf]; [congruence|]. now apply Hf in E.
Qed.

Lemma search_ends f k l : forall here r, folder_at top here -> search top f k here l = Some r ->
  node_at top r <> None /\ (f = true -> no_link r).
Proof.
  revert k l. apply (search_ind (fun k l => forall here r, folder_at top here -> search top f k here l = Some r -> node_at top r <> None /\ (f = true -> no_link r))).
  - intros k here r (b & es & Hf) H. rewrite search_nil in H. injection H as <-. split; [congruence|]. intros _ t. congruence.
  - intros k n rest IH IHk here r Hf H. rewrite search_cons in H.
    destruct (jeqb n n_dot); [eauto|]. destruct (jeqb n n_dotdot); [eapply IH; [apply folder_up|]; eauto|].
    destruct (node_at top (here ++ [n])) as [[z|b es|t|]|] eqn:En; try discriminate.
    + destruct rest; [|discriminate]. injection H as <-. split; [congruence|]. intros _ t. congruence.
    + eapply IH; [|eauto]. eexists; eauto.
    + destruct f; [|destruct rest].
      * destruct k as [|k]; [discriminate|]. eapply (IHk k); [lia| |eauto]. destruct (p_abs t); [exact Htop|exact Hf].
      * injection H as <-. split; [congruence|discriminate].
      * destruct k as [|k]; [discriminate|]. eapply (IHk k); [lia| |eauto]. destruct (p_abs t); [exact Htop|exact Hf].
    + destruct rest; [|discriminate]. injection H as <-. split; [congruence|]. intros _ t. congruence.
Qed.

(** If the search does not end at a link, it makes no difference whether a link at the end is followed. *)
Lemma search_follow k l : forall here r, search top false k here l = Some r -> no_link r -> search top true k here l = Some r.
Proof.
  revert k l. apply (search_ind (fun k l => forall here r, search top false k here l = Some r -> no_link r -> search top true k here l = Some r)).
  - intros k here r H _. now rewrite search_nil in *.
  - intros k n rest IH IHk here r H Hr. rewrite search_cons in *.
    destruct (jeqb n n_dot); [eauto|]. destruct (jeqb n n_dotdot); [eauto|].
    destruct (node_at top (here ++ [n])) as [[z|b es|t|]|] eqn:En; try discriminate; eauto.
    destruct rest as [|c rest].
    + injection H as <-. now apply Hr in En.
    + destruct k as [|k]; [discriminate|]. apply (IHk k); [lia|exact H|exact Hr].
Qed.

(** ** Names with "." and ".." *)
Lemma norm_app l n : norm_names true (l ++ [n]) = rev (norm_step true (rev (norm_names true l)) n).
Proof. rewrite !norm_names_stack, nstack_app. cbn [fold_left]. now rewrite rev_involutive. Qed.

Lemma norm_plain_app l n : plain n -> norm_names true (l ++ [n]) = norm_names true l ++ [n].
Proof. intro Hn. rewrite norm_app, norm_step_plain by exact Hn. cbn [rev]. now rewrite rev_involutive. Qed.

Lemma norm_dot_app l : norm_names true (l ++ [n_dot]) = norm_names true l.
Proof. rewrite norm_app, norm_step_dot. apply rev_involutive. Qed.

Lemma norm_up_app l : norm_names true (l ++ [n_dotdot]) = removelast (norm_names true l).
Proof.
  rewrite norm_app. pose proof (norm_names_abs_plain l) as Hp. destruct (rev (norm_names true l)) as [|c st] eqn:E.
  - apply (f_equal (@rev _)) in E. rewrite rev_involutive in E. cbn in E. now rewrite E.
  - apply (f_equal (@rev _)) in E. rewrite rev_involutive in E. cbn in E. rewrite E in *. apply Forall_app in Hp as [_ Hp]. inversion Hp; subst.
    rewrite norm_step_up_abs by assumption. now rewrite removelast_last.
Qed.

Lemma name_cases n : n = n_dot \/ n = n_dotdot \/ plain n.
Proof. destruct (jeqb_spec n n_dot); [auto|]. destruct (jeqb_spec n n_dotdot); [auto|]. right. right. now split. Qed.

Lemma list_end {A} (l : list A) : l = [] \/ exists x c, l = x ++ [c].
Proof. destruct l as [|a l] using rev_ind; [auto|]. right. eauto. Qed.

Lemma search_dot f k here : search top f k here [n_dot] = Some here.
Proof. rewrite search_cons. change (jeqb n_dot n_dot) with true. apply search_nil. Qed.

Lemma search_up f k here : search top f k here [n_dotdot] = Some (removelast here).
Proof. rewrite search_cons. change (jeqb n_dotdot n_dot) with false. change (jeqb n_dotdot n_dotdot) with true. apply search_nil. Qed.

Definition limit_links (l : list jstring) : Prop := forall t, opt_bind (search top false max_links [] l) (node_at top) <> Some (NLink t).

Definition dots_ok (names : list jstring) : Prop :=
  forall l1 n l2, names = l1 ++ n :: l2 ->
    (n = n_dotdot -> limit_links (norm_names true l1)) /\ (n = n_dot \/ n = n_dotdot -> l2 = [] -> limit_links (norm_names true names)).

Definition before_dots (names : list jstring) : Prop :=
  forall l1 l2, names = l1 ++ n_dotdot :: l2 -> limit_links (norm_names true l1).

Lemma before_dots_app l1 l2 : before_dots (l1 ++ l2) -> before_dots l1.
Proof. intros H a b E. subst. apply (H a (b ++ l2)). now rewrite <- app_assoc. Qed.

Lemma to_parent k x c m : k <= max_links -> plain c -> search top true k [] (x ++ [c]) = Some m -> limit_links (x ++ [c]) ->
  exists m', m = m' ++ [c] /\ folder_at top m' /\ search top true k [] x = Some m' /\ search top false k [] (x ++ [c]) = Some m.
Proof.
  intros Hk Hc H Hl. destruct (search_split true k x [c] [] m H ltac:(discriminate) Htop) as (j & m' & Hj & H1 & Hf & H2).
  assert (Hn : no_link (m' ++ [c])).
  { intros t Ht. apply (Hl t). rewrite (search_more false (j + (k - j)) _ [] (m' ++ [c]) max_links).
    - exact Ht.
    - eapply search_join; eauto; [discriminate|]. eapply search_place; [constructor; [exact Hc|constructor]|exact Ht|now left].
    - lia. }
  destruct (search_last true _ _ _ _ Hc H2 (or_intror Hn)) as [-> Hx]. exists m'. split; [reflexivity|]. split; [exact Hf|].
  split; [now apply search_more with j|]. apply search_more with (j + (k - j)); [|lia]. eapply search_join; eauto; [discriminate|].
  destruct (node_at top (m' ++ [c])) as [y|] eqn:E; [|congruence]. apply search_place with y; [constructor; [exact Hc|constructor]|exact E|now left].
Qed.

Lemma normal_search N : before_dots N -> forall k m, k <= max_links -> search top true k [] N = Some m -> folder_at top m ->
  search top true k [] (norm_names true N) = Some m.
Proof.
  induction N as [|n N IH] using rev_ind; intros Hd k m Hk H Hm; [exact H|].
  destruct (search_split true k N [n] [] m H ltac:(discriminate) Htop) as (j & m' & Hj & H1 & Hf & H2).
  pose proof (IH (before_dots_app _ _ Hd) j m' ltac:(lia) H1 Hf) as H3. destruct (name_cases n) as [->|[->|Hn]].
  - rewrite norm_dot_app. rewrite search_dot in H2. injection H2 as <-. now apply search_more with j.
  - rewrite norm_up_app. rewrite search_up in H2. injection H2 as <-.
    pose proof (Hd N [] eq_refl) as Hl. pose proof (norm_names_abs_plain N) as Hp.
    destruct (list_end (norm_names true N)) as [E|(x & c & E)]; rewrite E in *.
    + rewrite search_nil in H3. injection H3 as <-. apply search_nil.
    + apply Forall_app in Hp as [_ Hp]. inversion Hp; subst. destruct (to_parent j x c m' ltac:(lia) ltac:(assumption) H3 Hl) as (m1 & -> & _ & Hx & _).
      rewrite !removelast_last. now apply search_more with j.
  - rewrite norm_plain_app by exact Hn. apply search_more with (j + (k - j)); [|lia]. eapply search_join; eauto. discriminate.
Qed.

Lemma normal_end N k r : before_dots N -> k <= max_links -> search top false k [] N = Some r -> folder_at top r -> limit_links (norm_names true N) ->
  search top false k [] (norm_names true N) = Some r.
Proof.
  intros Hb Hk H Hr Hl.
  assert (Ht : search top true k [] N = Some r) by (apply search_follow; [exact H|]; intros t; destruct Hr as (b & es & ->); discriminate).
  pose proof (normal_search N Hb k r Hk Ht Hr) as H3. pose proof (norm_names_abs_plain N) as Hp.
  destruct (list_end (norm_names true N)) as [E|(x & c & E)]; rewrite E in *; [rewrite search_nil in *; exact H3|].
  apply Forall_app in Hp as [_ Hp]. inversion Hp; subst.
  destruct (to_parent k x c r Hk ltac:(assumption) H3 Hl) as (m1 & -> & _ & _ & Hx). exact Hx.
Qed.

Lemma normal_place N : dots_ok N -> forall k r, k <= max_links -> search top false k [] N = Some r ->
  search top false k [] (norm_names true N) = Some r.
Proof.
  intros Hd k r Hk H. assert (Hb : before_dots N) by (intros a b E; exact (proj1 (Hd a n_dotdot b E) eq_refl)).
  destruct (list_end N) as [->|(l & n & ->)]; [exact H|].
  destruct (search_split false k l [n] [] r H ltac:(discriminate) Htop) as (j & m' & Hj & H1 & Hf & H2).
  destruct (name_cases n) as [->|[->|Hn]].
  - rewrite search_dot in H2. injection H2 as <-. apply normal_end; auto. apply (Hd l n_dot [] eq_refl); [now left|reflexivity].
  - rewrite search_up in H2. injection H2 as <-. apply normal_end; auto using folder_up. apply (Hd l n_dotdot [] eq_refl); [now right|reflexivity].
  - rewrite norm_plain_app by exact Hn. apply search_more with (j + (k - j)); [|lia]. eapply search_join; eauto; [|discriminate].
    apply normal_search; auto; [now apply before_dots_app with [n]|lia].
Qed.
End Walk.
