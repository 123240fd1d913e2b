(** * A volume with links, for examples *)

From Verif Require Import PathFacts.
From Verif Require Export SpecVolume SpecSeen VolumePrintFacts Cases MetaCases.
From Coq Require Import Lia.
Close Scope Z_scope.

(** A decidable sufficient condition for [well_formed]. *)
Definition distinct_b (l : list jstring) : bool :=
  (fix go l := match l with [] => true | n :: l' => negb (existsb (jeqb n) l') && go l' end) l.
Definition real_b (n : jstring) : bool :=
  negb (jeqb n []) && negb (existsb (N.eqb c_slash) n) && negb (jeqb n n_dot) && negb (jeqb n n_dotdot).
Fixpoint in_shape (x : node) : bool :=
  match x with
  | NDir _ es => distinct_b (map fst es) && forallb real_b (map fst es) &&
                 (fix go es := match es with [] => true | (_, y) :: es' => in_shape y && go es' end) es
  | _ => true
  end.

Lemma distinct_b_sound l : distinct_b l = true -> NoDup l.
Proof.
  induction l as [|n l IH]; intro H; constructor; cbn in H; apply andb_prop in H as [H1 H2]; [|now apply IH].
  intro Hin. apply negb_true_iff in H1. assert (existsb (jeqb n) l = true); [|congruence]. apply existsb_exists. exists n. split; [exact Hin|apply jeqb_refl].
Qed.

Lemma real_b_sound n : real_b n = true -> real_name n.
Proof.
  unfold real_b. intro H. apply andb_prop in H as [H H4]. apply andb_prop in H as [H H3]. apply andb_prop in H as [H1 H2].
  apply negb_true_iff in H1, H2, H3, H4. split; [split|split].
  - intros ->. discriminate.
  - intro Hin. assert (existsb (N.eqb c_slash) n = true); [|congruence]. apply existsb_exists. exists c_slash. split; [exact Hin|apply N.eqb_refl].
  - intros ->. discriminate.
  - intros ->. discriminate.
Qed.

Lemma in_shape_at l : forall x y, in_shape x = true -> node_at x l = Some y -> in_shape y = true.
Proof.
  induction l as [|n l IH]; intros x y H E; [cbn in E; congruence|]. cbn in E. destruct x as [|b es| |]; try discriminate.
  cbn in H. apply andb_prop in H as [_ H]. destruct (entry_named n es) as [z|] eqn:Ez; [|discriminate]. apply (IH z y); [|exact E].
  clear -H Ez. induction es as [|[m a] es IHe]; [discriminate|]. cbn in H, Ez. apply andb_prop in H as [H1 H2].
  destruct (jeqb n m); [congruence|auto].
Qed.

Lemma in_shape_sound b es : in_shape (NDir b es) = true -> well_formed (NDir b es).
Proof.
  intro H. split; [eauto|]. intros l b' es' E. apply (in_shape_at l _ _ H) in E. cbn in E. apply andb_prop in E as [E _]. apply andb_prop in E as [E1 E2].
  split; [now apply distinct_b_sound|]. apply Forall_forall. intros n Hn. rewrite forallb_forall in E2. apply real_b_sound. auto.
Qed.

(** "/home/u" contains a link to "/data/x", a link to itself and a link to the link; "/data/x" contains a link up to "/data". *)
Definition linked_volume : node :=
  NDir true [(js "home", NDir true [(js "u", NDir true
      [(js "self", NLink (pth ".")); (js "a.txt", NReg 5); (js "link", NLink (pth "/data/x")); (js "sub", NDir true [(js "b.txt", NReg 3)]);
       (js "again", NLink (pth "link"))])]);
    (js "data", NDir true [(js "y", NDir true []); (js "x", NDir true
      [(js "up", NLink (pth "..")); (js "in", NDir true [(js "f", NReg 1); (js "g", NLink (pth "../../y"))])])])].
Definition linked_world : world := volume_world linked_volume sample_jvm.
Definition linked_disk : disk := volume_disk linked_volume (jv_cwd sample_jvm).

Lemma linked_well_formed : well_formed linked_volume.
Proof. apply in_shape_sound. vm_compute. reflexivity. Qed.

(** A text, with "#" for the lines of the tree. *)
Definition readable_text (s : jstring) : string := string_of_list_ascii (map (fun c => if (c <? 256)%N then ascii_of_N c else "#"%char) s).
Definition printed_there (p : string) : option string := option_map readable_text (result (pretty_print default_options (pth p) linked_world [])).

Lemma dotless top cwd N : Forall plain N -> dots_after_directories top cwd N.
Proof. intros H l1 n l2 ->. apply Forall_app in H as [_ H]. inversion H as [|? ? [H1 H2]]; subst. tauto. Qed.

Lemma case_dots : dots_after_directories linked_volume (jv_cwd sample_jvm) (p_names (to_absolute (jv_cwd sample_jvm) (pth "again/in/.././in"))).
Proof.
  intros l1 n l2 E. set (N := p_names _) in *. vm_compute in N. subst N.
  do 7 (destruct l1 as [|? l1];
    [cbn [app] in E; injection E as <- <-;
     (split; [intro Hn; try discriminate Hn; intros (t & Ht); vm_compute in Ht; discriminate Ht|intros _ Hl; try discriminate Hl; intros (t & Ht); vm_compute in Ht; discriminate Ht])
    |cbn [app] in E; injection E as <- E]).
  destruct l1; discriminate E.
Qed.

Lemma default_agree w :
  agrees w (o_dir_matcher default_options) (s_dirs default_settings) /\ agrees w (o_file_matcher default_options) (s_files default_settings) /\
  agrees w (o_child_limit default_options) (s_limit default_settings) /\ (forall a, agrees w (o_comparator default_options a) (s_cmp default_settings a)).
Proof. repeat split; repeat intro; cbn in *; match goal with H : _ = (Ok _, _) |- _ => now injection H as <- end. Qed.

Lemma default_configured : configured_order (s_cmp default_settings).
Proof. exact (ScanPrintFacts.configured_of _ _ _ (default_uses linked_world) (or_introl eq_refl)). Qed.

Lemma case_links ns t r : node_at linked_volume (names_of "data/x/in" ++ ns) = Some (NLink t) ->
  search linked_volume true max_links [] (names_of "data/x/in" ++ ns) = Some r ->
  search linked_volume true (max_links - 2) [] (names_of "data/x/in" ++ ns) = Some r.
Proof.
  intros H Hr. assert (E : ns = names_of "g").
  { change (node_at linked_volume (names_of "data/x/in" ++ ns)) with (node_at (NDir true [(js "f", NReg 1); (js "g", NLink (pth "../../y"))]) ns) in H.
    destruct ns as [|n ns]; [discriminate H|]. cbn [node_at entry_named] in H. destruct (jeqb n (js "f")) eqn:Ef.
    - destruct ns; discriminate H.
    - destruct (jeqb n (js "g")) eqn:Eg; [|discriminate H]. apply SortFacts.jeqb_eq in Eg as ->. destruct ns; [reflexivity|discriminate H]. }
  subst ns. vm_compute in Hr |- *. exact Hr.
Qed.

(** While "/home/u" is printed, the directory "sub" is replaced by a link to "/data", after it was found to be a directory for the second time. *)
Definition swapped_volume : node :=
  NDir true [(js "home", NDir true [(js "u", NDir true [(js "sub", NLink (pth "/data"))])]);
    (js "data", NDir true [(js "y", NReg 1)])].
Definition looked_at_twice (h : hist) : bool :=
  2 <=? length (filter (fun ev => match ev with EvLstat q _ => path_eqb q (pth "/home/u/sub") | _ => false end) h).
Definition swapping (h : hist) : node := if looked_at_twice h then swapped_volume else linked_volume.
Definition swapping_world : world := moving_world swapping sample_jvm.

Lemma swapping_well_formed h : well_formed (swapping h).
Proof. unfold swapping. destruct (looked_at_twice h); apply in_shape_sound; vm_compute; reflexivity. Qed.

(** Where there are links. *)
Fixpoint links_in (x : node) : list (list jstring) :=
  match x with
  | NLink _ => [[]]
  | NDir _ es => (fix go es := match es with [] => [] | (n, y) :: es' => map (cons n) (links_in y) ++ go es' end) es
  | _ => []
  end.

Lemma links_in_all l : forall x t, node_at x l = Some (NLink t) -> In l (links_in x).
Proof.
  induction l as [|n l IH]; intros x t E; [cbn in E; injection E as ->; now left|]. cbn in E. destruct x as [|b es| |]; try discriminate.
  destruct (entry_named n es) as [z|] eqn:Ez; [|discriminate]. apply IH in E. cbn.
  induction es as [|[m a] es IHe]; [discriminate|]. cbn in Ez. apply in_or_app. destruct (jeqb n m) eqn:Em; [|right; auto].
  apply SortFacts.jeqb_eq in Em as ->. injection Ez as ->. left. now apply in_map.
Qed.

Definition no_folder_b (x : node) (l : list jstring) : bool := match node_at x l with Some (NDir _ _) => false | _ => true end.

Lemma no_exchange x y : forallb (no_folder_b x) (links_in y) = true -> forall l, folder_at x l -> forall t, node_at y l <> Some (NLink t).
Proof.
  intros H l (b & es & E) t Ht. apply links_in_all in Ht. rewrite forallb_forall in H. apply H in Ht. unfold no_folder_b in Ht. rewrite E in Ht. discriminate.
Qed.

(** While "/home/u" is printed, its file is deleted, its directory gets another content, and there is a new link. *)
Definition later_volume : node :=
  NDir true [(js "home", NDir true [(js "u", NDir true
      [(js "self", NLink (pth ".")); (js "link", NLink (pth "/data/x")); (js "sub", NDir true [(js "c.txt", NReg 3); (js "new", NLink (pth "/data"))]);
       (js "again", NLink (pth "link"))])]);
    (js "data", NDir true [(js "x", NDir true [])])].
Definition busy (h : hist) : node := if looked_at_twice h then later_volume else linked_volume.
Definition busy_world : world := moving_world busy sample_jvm.

Lemma busy_well_formed h : well_formed (busy h).
Proof. unfold busy. destruct (looked_at_twice h); apply in_shape_sound; vm_compute; reflexivity. Qed.

Lemma busy_place h : place (busy h) false (jv_cwd sample_jvm) (location busy_world (pth ".")) = Some (names_of "home/u").
Proof. unfold busy. destruct (looked_at_twice h); vm_compute; reflexivity. Qed.

Lemma busy_links h1 h2 l : folder_at (busy h1) l -> forall x, node_at (busy h2) l <> Some (NLink x).
Proof. unfold busy. destruct (looked_at_twice h1), (looked_at_twice h2); apply no_exchange; vm_compute; reflexivity. Qed.

Lemma default_honest w : honest_callbacks w default_options.
Proof.
  assert (H : forall A B (f : A -> M B) g, (forall a h, f a w h = (Ok (g a), h)) -> honest w f).
  { intros A B f g Hf a h. exists (Ok (g a)), []. split; [apply Hf|]. intros [|? ?] ev t2 E; discriminate. }
  repeat split; try (apply (H _ _ _ (fun _ => true)); reflexivity); try (apply (H _ _ _ (fun _ => (-1)%Z)); reflexivity).
  - apply (H _ _ _ (fun _ => None)). reflexivity.
  - intro a. eapply H. reflexivity.
Qed.
