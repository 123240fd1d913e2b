(** * Lemmas about how often directories are opened *)

From Verif Require Import SpecCost HistFacts PathFacts SortFacts ScanFacts PrintFacts CallFacts.
Close Scope Z_scope.

(** How many names lead from [p] to [q], if [q] is [p] or below. *)
Fixpoint after (l m : list jstring) : option nat :=
  match l, m with
  | [], m => Some (length m)
  | x :: l', y :: m' => if jeqb x y then after l' m' else None
  | _ :: _, [] => None
  end.

Definition under (p q : path) : option nat := if Bool.eqb (p_abs p) (p_abs q) then after (p_names p) (p_names q) else None.

Lemma after_spec l m n : after l m = Some n <-> exists ns, m = l ++ ns /\ length ns = n.
Proof.
  revert m. induction l as [|x l IH]; intros m; cbn [after app].
  - split; [intros [= <-]; now exists m|]. intros (ns & -> & <-). reflexivity.
  - destruct m as [|y m]; [split; [discriminate|intros (ns & E & _); discriminate]|]. destruct (jeqb x y) eqn:E.
    + apply SortFacts.jeqb_eq in E. subst y. rewrite IH. split; intros (ns & H & Hl); exists ns; (split; [|exact Hl]); congruence.
    + split; [discriminate|]. intros (ns & [= -> _] & _). rewrite (proj2 (SortFacts.jeqb_eq x x) eq_refl) in E. discriminate.
Qed.

Lemma under_spec p q n : under p q = Some n <-> exists ns, q = deeper p ns /\ length ns = n.
Proof.
  unfold under, deeper. destruct p as [pa pn], q as [qa qn]; cbn [p_abs p_names]. destruct (Bool.eqb pa qa) eqn:E.
  - apply Bool.eqb_prop in E. subst qa. rewrite after_spec. split; intros (ns & H & Hl); exists ns; (split; [congruence|exact Hl]).
  - split; [discriminate|]. intros (ns & [= -> _] & _). rewrite Bool.eqb_reflx in E. discriminate.
Qed.

Lemma under_self p : under p p = Some 0.
Proof. apply under_spec. exists []. split; [|reflexivity]. destruct p. unfold deeper. cbn. now rewrite app_nil_r. Qed.

Lemma under_zero p q : under p q = Some 0 -> q = p.
Proof. rewrite under_spec. intros ([|x ns] & -> & H); [|discriminate]. destruct p. unfold deeper. cbn. now rewrite app_nil_r. Qed.

Lemma under_child d x q n : under (resolve_name d x) q = Some n -> under d q = Some (S n).
Proof.
  rewrite !under_spec. intros (ns & -> & H). exists (x :: ns). split; [|cbn; now rewrite H]. unfold deeper, resolve_name. cbn. now rewrite <- app_assoc.
Qed.

Lemma under_one d x y q n m : under (resolve_name d x) q = Some n -> under (resolve_name d y) q = Some m -> x = y.
Proof.
  rewrite !under_spec. intros (ns & -> & _) (ms & E & _). unfold deeper, resolve_name in E. cbn in E. injection E as E.
  rewrite <- !app_assoc in E. apply app_inv_head in E. now injection E.
Qed.

(** What is spent on the children of [d] is spent on the only one of them that can lead to [q]. *)
Lemma spent_once d q g G l : NoDup l -> (forall c, under c q = None -> g c = 0) -> (forall c n, under c q = Some n -> g c <= G n) ->
  list_sum (map g (map (resolve_name d) l)) <= match under d q with Some (S n) => G n | _ => 0 end.
Proof.
  intros Hl Hn Hs. induction l as [|x l IH]; [cbn; lia|]. inversion Hl as [|? ? Hx Hl']; subst. specialize (IH Hl'). cbn [map list_sum fold_right].
  destruct (under (resolve_name d x) q) as [n|] eqn:E; [|rewrite (Hn _ E); exact IH].
  assert (H0 : list_sum (map g (map (resolve_name d) l)) = 0).
  { clear IH Hl Hl'. induction l as [|y l IHl]; [reflexivity|]. cbn [map list_sum fold_right]. rewrite Hn.
    - apply IHl. intro H. apply Hx. now right.
    - destruct (under (resolve_name d y) q) as [m|] eqn:E'; [|reflexivity]. exfalso. apply Hx. left. symmetry. eapply under_one; eassumption. }
  unfold list_sum in *. rewrite H0, (under_child _ _ _ _ E). specialize (Hs _ _ E). lia.
Qed.

Lemma sum_perm (g : path -> nat) l l' : Permutation l l' -> list_sum (map g l) = list_sum (map g l').
Proof. intro H. induction H; cbn [map list_sum fold_right] in *; unfold list_sum in *; lia. Qed.

(** ** Counting *)

Lemma openings_other q ev h : (forall p, ev <> EvOpen p) -> (forall p, ev <> EvOpenFail p) -> openings q (ev :: h) = openings q h.
Proof. intros H1 H2. unfold openings. cbn [filter]. destruct ev; try reflexivity; [now destruct (H1 p)|now destruct (H2 p)]. Qed.

Lemma bind_adds q A B (m : M A) (f : A -> M B) w h i j :
  openings q (snd (m w h)) <= openings q h + i ->
  (forall a h1, m w h = (Ok a, h1) -> openings q (snd (f a w h1)) <= openings q h1 + j) ->
  openings q (snd (bind m f w h)) <= openings q h + (i + j).
Proof.
  intros Hm Hf. unfold bind. destruct (m w h) as [[a|e] h1]; cbn [snd] in *; [|lia]. specialize (Hf a h1 eq_refl). lia.
Qed.

Lemma bind_free q A B (m : M A) (f : A -> M B) w h j :
  openings q (snd (m w h)) <= openings q h -> (forall a h1, m w h = (Ok a, h1) -> openings q (snd (f a w h1)) <= openings q h1 + j) ->
  openings q (snd (bind m f w h)) <= openings q h + j.
Proof. intros Hm Hf. apply (bind_adds q A B m f w h 0 j); [now rewrite Nat.add_0_r|exact Hf]. Qed.

Lemma lstat_adds q p w h : openings q (snd (lstat p w h)) <= openings q h.
Proof. unfold lstat. cbn [snd]. rewrite openings_other by discriminate. apply le_n. Qed.

Lemma open_adds q p w h : openings q (snd (open_dir p w h)) <= openings q h + match under p q with Some 0 => 1 | _ => 0 end.
Proof.
  unfold open_dir. destruct (w_open w h p) as [dl|]; cbn [snd]; unfold openings; cbn [filter]; destruct (path_eqb p q) eqn:E; cbn [length]; try lia;
    apply path_eqb_eq in E; subst q; rewrite under_self; cbv iota; lia.
Qed.

Lemma close_adds q p w h : openings q (snd (close_dir p w h)) <= openings q h.
Proof. unfold close_dir. cbv zeta. cbn [snd]. rewrite openings_other by discriminate. apply le_n. Qed.

Lemma kind_adds q k p w h : openings q (snd (has_kind k p w h)) <= openings q h.
Proof. unfold has_kind, bind, lstat, ret. cbn [snd]. rewrite openings_other by discriminate. apply le_n. Qed.

Lemma filter_adds q (f : path -> M bool) g w l : (forall p h, openings q (snd (f p w h)) <= openings q h + g p) ->
  forall h, openings q (snd (filterM f l w h)) <= openings q h + list_sum (map g l).
Proof.
  intro Hf. induction l as [|p l IH]; intro h; [apply Nat.le_add_r|]. change (list_sum (map g (p :: l))) with (g p + list_sum (map g l)).
  cbn [filterM]. apply bind_adds; [apply Hf|]. intros b h1 _. rewrite <- (Nat.add_0_r (list_sum _)). apply bind_adds; [apply IH|].
  intros r h2 _. apply Nat.le_add_r.
Qed.

(** ** Walks below a directory *)

Section Walk.
  Context (w : world) (q : path) (visit : path -> M bool).
  Hypothesis Hw : lists_once w.
  Hypothesis Hv : forall p h, openings q (snd (visit p w h)) <= openings q h.

  Definition each_child (f : path -> M bool) (p : path) : list jstring -> M bool :=
    fix each l := match l with [] => ret false | x :: l' => s <- f (resolve_name p x); if s then ret true else each l' end.

  Lemma each_adds f g p l : (forall c h, openings q (snd (f c w h)) <= openings q h + g c) ->
    forall h, openings q (snd (each_child f p l w h)) <= openings q h + list_sum (map g (map (resolve_name p) l)).
  Proof.
    intro Hf. induction l as [|x l IH]; intro h; [apply Nat.le_add_r|].
    change (list_sum (map g (map (resolve_name p) (x :: l)))) with (g (resolve_name p x) + list_sum (map g (map (resolve_name p) l))).
    cbn [each_child]. apply bind_adds; [apply Hf|]. intros [|] h1 _; [apply Nat.le_add_r|apply IH].
  Qed.

  Lemma walk_step n skip p h g i :
    (forall c h, openings q (snd (walk n false visit c w h)) <= openings q h + g c) ->
    (forall l, NoDup l -> list_sum (map g (map (resolve_name p) l)) <= i) ->
    openings q (snd (walk (S n) skip visit p w h)) <= openings q h + (match under p q with Some 0 => 1 | _ => 0 end + i).
  Proof.
    intros Hc Hi. cbn [walk]. set (vp := if skip then ret false else visit p).
    assert (Hvp : forall h, openings q (snd (vp w h)) <= openings q h) by (intro; unfold vp; destruct skip; [apply le_n|apply Hv]).
    apply bind_free; [apply lstat_adds|].
    intros [k|] h1 _; [|apply Nat.le_add_r]. destruct (kind_eqb k KDir); [|specialize (Hvp h1); lia].
    apply bind_adds; [apply open_adds|]. intros [dl|] h2 Ho; [|apply Nat.le_add_r].
    assert (Hdl : NoDup (dl_names dl)).
    { unfold open_dir in Ho. destruct (w_open w h1 p) as [dl'|] eqn:E; [|discriminate]. injection Ho as <- _. exact (Hw _ _ _ E). }
    change (fix each (l : list jstring) : M bool := match l with [] => ret false | x :: l' => s <- walk n false visit (resolve_name p x); if s then ret true else each l' end)
      with (each_child (walk n false visit) p).
    assert (Hb : openings q (snd ((b <- vp; if b then ret true else each_child (walk n false visit) p (dl_names dl)) w h2)) <= openings q h2 + (0 + i)).
    { apply bind_adds; [rewrite Nat.add_0_r; apply Hvp|]. intros [|] h3 _; [apply Nat.le_add_r|].
      pose proof (each_adds _ g p (dl_names dl) Hc h3). specialize (Hi _ Hdl). lia. }
    rewrite Nat.add_0_l in Hb.
    destruct ((b <- vp; if b then ret true else each_child (walk n false visit) p (dl_names dl)) w h2) as [[[|]|e] h3]; cbn [snd] in Hb.
    - pose proof (close_adds q p w h3) as H. destruct (close_dir p w h3) as [r h4]. cbn [snd] in *. lia.
    - destruct (dl_fail dl).
      + pose proof (close_adds q p w (EvIterFail p :: h3)) as H. rewrite (openings_other q (EvIterFail p)) in H by discriminate.
        destruct (close_dir p w (EvIterFail p :: h3)) as [r h4]. cbn [snd] in *. lia.
      + pose proof (close_adds q p w h3) as H. destruct (close_dir p w h3) as [[[|]|x] h4]; cbn [snd] in *; lia.
    - pose proof (close_adds q p w h3) as H. destruct (close_dir p w h3) as [r h4]. cbn [snd] in *. lia.
  Qed.

  Lemma walk_none skip p h : openings q (snd (walk 0 skip visit p w h)) <= openings q h.
  Proof.
    cbn [walk]. rewrite <- (Nat.add_0_r (openings q h)). apply bind_free; [apply lstat_adds|].
    intros [k|] h1 _; [|apply Nat.le_add_r]. rewrite Nat.add_0_r. destruct skip; [apply le_n|apply Hv].
  Qed.

  Lemma walk_adds n : forall skip p h, openings q (snd (walk n skip visit p w h)) <= openings q h + match under p q with Some _ => 1 | None => 0 end.
  Proof.
    induction n as [|n IH]; intros skip p h; [pose proof (walk_none skip p h); lia|].
    pose proof (walk_step n skip p h (fun c => match under c q with Some _ => 1 | None => 0 end) (match under p q with Some (S _) => 1 | _ => 0 end) (IH false)) as H.
    assert (H' := H ltac:(intros l Hl; apply (spent_once p q _ (fun _ => 1) l Hl); intros c; [|intro k]; intro E; cbv beta; rewrite E; apply le_n || reflexivity)).
    destruct (under p q) as [[|k]|]; lia.
  Qed.

  Lemma walk_one skip p h : openings q (snd (walk 1 skip visit p w h)) <= openings q h + match under p q with Some 0 => 1 | _ => 0 end.
  Proof.
    pose proof (walk_step 0 skip p h (fun _ => 0) 0) as H. rewrite Nat.add_0_r in H. apply H.
    - intros c h1. rewrite Nat.add_0_r. apply walk_none.
    - intros l _. induction l as [|x l IH]; [apply le_n|exact IH].
  Qed.
End Walk.

(** ** Matchers *)

Lemma costs_nothing w A (f : path -> M A) : opens_nothing f -> costs w f 0 0.
Proof. intros H p q h. exists 0, 0. specialize (H p w h q). repeat split; try lia; intros []; reflexivity. Qed.

Lemma costs_more w A (f : path -> M A) a b a' b' : costs w f a b -> a <= a' -> b <= b' -> costs w f a' b'.
Proof. intros H Ha Hb p q h. destruct (H p q h) as (i & j & H1 & H2 & H3 & H4 & H5). exists i, j. repeat split; auto; lia. Qed.

Lemma descendants_cost w d m inc p q h : lists_once w -> opens_nothing m ->
  openings q (snd (test_descendants p d m inc w h)) <= openings q h + match under p q with Some _ => 1 | None => 0 end.
Proof.
  intros Hw Hm. unfold test_descendants. apply bind_free; [apply kind_adds|]. intros [|] h1 _; cbn [negb]; [|apply Nat.le_add_r]. apply walk_adds; [exact Hw|].
  intros c h2. destruct (inc c); [apply Hm|apply le_n].
Qed.

Lemma direct_cost w m inc p q h : lists_once w -> opens_nothing m ->
  openings q (snd (test_descendants p 1 m inc w h)) <= openings q h + match under p q with Some 0 => 1 | _ => 0 end.
Proof.
  intros Hw Hm. unfold test_descendants. apply bind_free; [apply kind_adds|]. intros [|] h1 _; cbn [negb]; [|apply Nat.le_add_r]. apply (walk_one w q _ Hw).
  intros c h2. destruct (inc c); [apply Hm|apply le_n].
Qed.

Lemma cost_descendant w m : lists_once w -> opens_nothing m -> costs w (pm_any_descendant m) 1 0.
Proof.
  intros Hw Hm p q h. exists (match under p q with Some _ => 1 | None => 0 end), 0. rewrite Nat.add_0_r. split; [now apply descendants_cost|].
  destruct (under p q) as [n|] eqn:E; (split; [lia|]; split; [lia|]; split; [|now intros []]); intro Hne; [|now destruct Hne].
  apply under_spec in E as (ns & -> & _). now exists ns.
Qed.

Lemma cost_child w m : lists_once w -> opens_nothing m -> costs w (pm_any_direct_child m) 1 0.
Proof.
  intros Hw Hm p q h. exists (match under p q with Some _ => 1 | None => 0 end), 0. rewrite Nat.add_0_r. split; [now apply descendants_cost|].
  destruct (under p q) as [n|] eqn:E; (split; [lia|]; split; [lia|]; split; [|now intros []]); intro Hne; [|now destruct Hne].
  apply under_spec in E as (ns & -> & _). now exists ns.
Qed.

Lemma cost_sibling w m : lists_once w -> opens_nothing m -> costs w (pm_sibling m) 0 1.
Proof.
  intros Hw Hm p q h. unfold pm_sibling. destruct (get_parent p) as [d|]; [|exists 0, 0; unfold ret; cbn [snd]; repeat split; try lia; now intros []].
  exists 0, (match under d q with Some 0 => 1 | _ => 0 end). rewrite Nat.add_0_r. split; [now apply direct_cost|].
  destruct (under d q) as [[|n]|] eqn:E; (split; [lia|]; split; [lia|]; split; [now intros []|]); try now intros []. intros _. now rewrite (under_zero _ _ E).
Qed.

Lemma cost_not w m a b : costs w m a b -> costs w (pm_not m) a b.
Proof.
  intros H p q h. destruct (H p q h) as (i & j & H1 & H2). exists i, j. split; [|exact H2]. unfold pm_not, bind. destruct (m p w h) as [[x|e] h1]; exact H1.
Qed.

(** A function that asks two others, or one of them, about the same path. *)
Lemma cost_then w A B (f : path -> M A) (g : A -> path -> M B) a b a' b' :
  costs w f a b -> (forall x, costs w (g x) a' b') -> costs w (fun p => bind (f p) (fun x => g x p)) (a + a') (b + b').
Proof.
  intros Hf Hg p q h. destruct (Hf p q h) as (i & j & H1 & H2 & H3 & H4 & H5). unfold bind. destruct (f p w h) as [[x|e] h1]; cbn [snd] in *.
  - destruct (Hg x p q h1) as (i' & j' & K1 & K2 & K3 & K4 & K5). exists (i + i'), (j + j'). repeat split; try lia.
    + intro H. destruct i; [apply K4; lia|apply H4; lia].
    + intro H. destruct j; [apply K5; lia|apply H5; lia].
  - exists i, j. repeat split; auto; lia.
Qed.

Lemma cost_ret w A (x : A) : costs w (fun _ : path => ret x) 0 0.
Proof. apply costs_nothing. intros p w' h q. apply le_n. Qed.

Lemma cost_loop w (stop : bool -> bool) fin a b ms (loop : list matcher -> matcher) : Forall (fun m => costs w m a b) ms ->
  (forall p, loop [] p = ret fin) -> (forall m l p, loop (m :: l) p = (x <- m p; if stop x then ret (negb fin) else loop l p)) ->
  costs w (loop ms) (length ms * a) (length ms * b).
Proof.
  intros H H0 H1. induction ms as [|m ms IH]; cbn [length Nat.mul].
  - intros p q h. rewrite H0. apply (cost_ret w bool fin).
  - inversion H as [|? ? Hm Hms]; subst. intros p q h. rewrite H1.
    apply (cost_then w bool bool m (fun x p => if stop x then ret (negb fin) else loop ms p) a b (length ms * a) (length ms * b) Hm).
    intros x. destruct (stop x); [|exact (IH Hms)]. eapply costs_more; [apply cost_ret|lia|lia].
Qed.

Lemma cost_combined w md ms f a b : combine_matchers (map Some ms) md = Ok f -> Forall (fun m => costs w m a b) ms ->
  costs w f (length ms * a) (length ms * b).
Proof.
  unfold combine_matchers. replace (check_non_null (map Some ms)) with (Some ms) by (clear; induction ms as [|m ms IH]; [reflexivity|cbn; now rewrite <- IH]).
  assert (G : forall l, Forall (fun m => costs w m a b) l ->
    costs w (match md with ALL => fun p => pm_all l p | ANY => fun p => pm_any l p | NONE => fun p => pm_none l p end) (length l * a) (length l * b)).
  { intros l H. destruct md.
    - apply (cost_loop w negb true a b l (fun ms p => pm_all ms p)); auto.
    - apply (cost_loop w (fun x => x) false a b l (fun ms p => pm_any ms p)); auto.
    - apply (cost_loop w (fun x => x) true a b l (fun ms p => pm_none ms p)); auto. }
  destruct ms as [|m ms]; [discriminate|]. intros [= <-] H. now apply (G (m :: ms)).
Qed.

(** ** Runs *)

Section Run.
  Context (w : world) (o : options) (q : path) (N a b c : nat).
  Hypothesis Hw : lists_once w.
  Hypothesis HN : forall h dl, w_open w h q = Some dl -> b * length (dl_names dl) <= N.
  Hypothesis Hd : costs w (o_dir_matcher o) a b.
  Hypothesis Hf : costs w (o_file_matcher o) a b.
  Hypothesis Hl : costs w (o_child_limit o) c 0.
  Hypothesis Ho : forall x, opens_nothing (o_comparator o x).

  (** What a call of [f] with costs [i], [j] about a child [p] of [x] adds at most. *)
  Lemma priced A (f : path -> M A) i j p x h : costs w f i j -> p = resolve_name x (last (p_names p) []) ->
    openings q (snd (f p w h)) <= openings q h + ((match under p q with Some _ => i | None => 0 end) + (match under x q with Some 0 => j | _ => 0 end)).
  Proof.
    intros H Hp. destruct (H p q h) as (i' & j' & H1 & H2 & H3 & H4 & H5).
    assert (i' <= match under p q with Some _ => i | None => 0 end).
    { destruct i' as [|i']; [apply Nat.le_0_l|]. destruct (H4 ltac:(discriminate)) as (ns & Eq).
      assert (E : under p q = Some (length ns)) by (apply under_spec; now exists ns). rewrite E. exact H2. }
    assert (j' <= match under x q with Some 0 => j | _ => 0 end).
    { destruct j' as [|j']; [apply Nat.le_0_l|]. specialize (H5 ltac:(discriminate)). assert (q = x) as ->; [|rewrite under_self; exact H3].
      rewrite Hp in H5. unfold get_parent, resolve_name in H5. destruct x as [xa xn]. cbn [p_names p_abs] in H5. rewrite rev_app_distr in H5. cbn [rev app] in H5.
      destruct (rev xn) as [|y r] eqn:Er.
      - assert (xn = []) by (rewrite <- (rev_involutive xn), Er; reflexivity). subst xn. destruct xa; [now injection H5 as <-|discriminate].
      - injection H5 as <-. rewrite <- (rev_involutive xn), Er. reflexivity. }
    lia.
  Qed.

  Lemma filtering d l h : NoDup l ->
    openings q (snd (filterM (path_filter o) (map (resolve_name d) l) w h)) <=
    openings q h + match under d q with Some 0 => b * length l | Some _ => a | None => 0 end.
  Proof.
    intro Hn. set (g := fun p => (match under p q with Some _ => a | None => 0 end) + (match under d q with Some 0 => b | _ => 0 end)).
    assert (H : forall l h, openings q (snd (filterM (path_filter o) (map (resolve_name d) l) w h)) <= openings q h + list_sum (map g (map (resolve_name d) l))).
    { clear l h Hn. induction l as [|x l IH]; intro h; [apply Nat.le_add_r|].
      change (list_sum (map g (map (resolve_name d) (x :: l)))) with (g (resolve_name d x) + list_sum (map g (map (resolve_name d) l))).
      cbn [filterM map]. apply bind_adds.
      - unfold path_filter, pm_if_then_else. apply bind_free; [apply kind_adds|].
        assert (E : resolve_name d x = resolve_name d (last (p_names (resolve_name d x)) [])) by (cbn [resolve_name p_names]; now rewrite last_last).
        intros [|] h1 _; [exact (priced _ _ a b _ d h1 Hd E)|exact (priced _ _ a b _ d h1 Hf E)].
      - intros x' h1 _. rewrite <- (Nat.add_0_r (list_sum _)). apply bind_adds; [apply IH|]. intros r h2 _. apply Nat.le_add_r. }
    specialize (H l h). assert (Hg : list_sum (map g (map (resolve_name d) l)) <=
      list_sum (map (fun p => match under p q with Some _ => a | None => 0 end) (map (resolve_name d) l)) + length l * match under d q with Some 0 => b | _ => 0 end).
    { clear. induction l as [|x l IH]; [apply le_n|]. unfold list_sum in *. cbn [map fold_right length Nat.mul]. unfold g at 1. lia. }
    pose proof (spent_once d q (fun p => match under p q with Some _ => a | None => 0 end) (fun _ => a) l Hn) as Hs.
    assert (Hs' := Hs ltac:(intros p E; cbv beta; rewrite E; reflexivity) ltac:(intros p k E; cbv beta; rewrite E; apply le_n)). clear Hs.
    destruct (under d q) as [[|k]|]; lia.
  Qed.

  Definition total (p : path) : nat := match under p q with Some n => 1 + N + a * n + c * (n + 1) | None => 0 end.

  Lemma looping hc hl mc g : (forall p h, openings q (snd (hc p w h)) <= openings q h + g p) ->
    forall it count acc h, openings q (snd (children_loop hc hl mc count acc it w h)) <= openings q h + list_sum (map g it).
  Proof.
    intros Hc it. induction it as [|p it IH]; intros count acc h; [apply Nat.le_add_r|].
    change (list_sum (map g (p :: it))) with (g p + list_sum (map g it)). cbn [children_loop]. destruct (hl && (mc <? count + 1)%Z); [apply Nat.le_add_r|].
    apply bind_adds; [apply Hc|]. intros [e|] h1 _; apply IH.
  Qed.

  Lemma sorting l h : openings q (snd (sorted (o_comparator o) l w h)) <= openings q h.
  Proof.
    assert (H : keeps (fun h h' => openings q h' <= openings q h) (sorted (o_comparator o) l)); [|apply H].
    apply keeps_sorted; [intro; apply le_n|intros; lia|]. intros x y w' h'. apply Ho.
  Qed.

  Lemma filterM_part (f : matcher) d : forall l h r h', filterM f (map (resolve_name d) l) w h = (Ok r, h') -> NoDup l ->
    exists l', NoDup l' /\ incl l' l /\ r = map (resolve_name d) l'.
  Proof.
    induction l as [|x l IH]; intros h r h' H Hn.
    - injection H as <- _. exists []. repeat split; [constructor|intros ? []].
    - cbn [filterM map] in H. apply bind_ok in H. destruct H as (b' & h1 & _ & H). apply bind_ok in H. destruct H as (r' & h2 & Hr & H).
      injection H as <- _. inversion Hn as [|? ? Hx Hn']; subst. destruct (IH _ _ _ Hr Hn') as (l' & H1 & H2 & ->). destruct b'.
      + exists (x :: l'). split; [constructor; [intro Hi; apply Hx, H2, Hi|exact H1]|]. split; [|reflexivity]. intros y [<-|Hy]; [now left|right; now apply H2].
      + exists l'. split; [exact H1|]. split; [|reflexivity]. intros y Hy. right. now apply H2.
  Qed.

  Lemma handling fuel : forall d p h, openings q (snd (handle fuel o d p (path_filter o) w h)) <= openings q h + total p.
  Proof.
    assert (Hcut : forall d p h, openings q (snd ((e <- new_max_depth_entry d; ret (Some (EDir p [e]))) w h)) <= openings q h + total p).
    { intros d p h. unfold new_max_depth_entry. destruct (d <? 0)%Z; apply Nat.le_add_r. }
    assert (Hfile : forall p h, openings q (snd (handle_file p w h)) <= openings q h + total p).
    { intros p h. unfold handle_file. apply bind_free; [unfold stat; cbn [snd]; rewrite openings_other by discriminate; apply le_n|].
      intros [k|] h1 _; apply Nat.le_add_r. }
    induction fuel as [|fuel IH]; intros d p h; cbn [handle]; (apply bind_free; [apply kind_adds|]); intros [|] h1 _; try apply Hfile;
      (destruct (o_max_depth o <=? d)%Z; [apply Hcut|]); [apply Nat.le_add_r|].
    replace (total p) with ((match under p q with Some 0 => 1 | _ => 0 end) + match under p q with Some 0 => N + c | Some (S n) => a + c + (1 + N + a * n + c * (n + 1)) | None => 0 end)
      by (unfold total; destruct (under p q) as [[|n]|]; lia).
    apply bind_adds; [apply open_adds|]. intros [dl|] h2 Hop; [|apply Nat.le_add_r].
    assert (Hdl : NoDup (dl_names dl) /\ (under p q = Some 0 -> b * length (dl_names dl) <= N)).
    { unfold open_dir in Hop. destruct (w_open w h1 p) as [dl'|] eqn:E; [|discriminate]. injection Hop as <- _. split; [exact (Hw _ _ _ E)|].
      intro Hz. apply under_zero in Hz. subst p. exact (HN _ _ E). }
    destruct Hdl as [Hdl HlN].
    rewrite <- (Nat.add_0_r (match under p q with Some 0 => N + c | Some (S n) => _ | None => 0 end)). apply bind_adds; [|intros es h3 _; apply Nat.le_add_r].
    assert (Hb : openings q (snd (handle_directory_children o (fun x => handle fuel o (d + 1)%Z x (path_filter o)) p dl (path_filter o) w h2)) <=
      openings q h2 + ((match under p q with Some _ => c | None => 0 end) +
        ((match under p q with Some 0 => b * length (dl_names dl) | Some _ => a | None => 0 end) +
          match under p q with Some (S n) => 1 + N + a * n + c * (n + 1) | _ => 0 end))).
    { unfold handle_directory_children. apply bind_adds.
      { destruct (Hl p q h2) as (i & j & H1 & H2 & H3 & H4 & _). assert (j = 0) by lia. subst j. destruct i as [|i]; [lia|].
        destruct (H4 ltac:(discriminate)) as (ns & Eq). assert (E : under p q = Some (length ns)) by (apply under_spec; now exists ns). rewrite E. lia. }
      intros mc h3 _. apply bind_adds.
      { unfold stream_paths. rewrite <- (Nat.add_0_r (match under p q with Some 0 => _ | Some _ => a | None => 0 end)). apply bind_adds; [now apply filtering|].
        intros l h4 _. destruct (dl_fail dl); [|apply Nat.le_add_r]. apply bind_free; [|intros; apply Nat.le_add_r].
        unfold iter_fail. cbn [snd]. rewrite openings_other by discriminate. apply le_n. }
      intros un h4 Hun. apply bind_free; [apply sorting|]. intros it h5 Hit.
      rewrite <- (Nat.add_0_r (match under p q with Some (S n) => _ | _ => 0 end)). apply bind_adds; [|intros [es rest] h6 _; apply Nat.le_add_r].
      pose proof (looping (fun x => handle fuel o (d + 1)%Z x (path_filter o)) (0 <=? mc)%Z mc total (fun x h => IH _ x h) it 0%Z [] h5) as Hlo.
      assert (Hsum : list_sum (map total it) <= match under p q with Some (S n) => 1 + N + a * n + c * (n + 1) | _ => 0 end); [|lia].
      apply sorted_perm in Hit. rewrite <- (sum_perm total _ _ Hit). unfold stream_paths in Hun. apply bind_ok in Hun. destruct Hun as (l & h6 & Hl1 & Hl2).
      destruct (dl_fail dl); [discriminate|]. injection Hl2 as <- <-.
      destruct (filterM_part _ _ _ _ _ _ Hl1 Hdl) as (l' & Hn' & _ & ->).
      apply (spent_once p q total (fun n => 1 + N + a * n + c * (n + 1)) l' Hn'); unfold total; intros x; [|intro n]; intros ->; [reflexivity|apply le_n]. }
    unfold with_close. set (body := handle_directory_children _ _ _ _ _) in *. destruct (body w h2) as [[es|e] h3]; cbn [snd] in Hb.
    all: pose proof (close_adds q p w h3) as Hcl; destruct (close_dir p w h3) as [[[|]|x] h4]; cbn [snd] in *; 
      (destruct (under p q) as [[|n]|]; [specialize (HlN eq_refl); nia|lia|lia]).
  Qed.
End Run.

Lemma run_openings o p w h q N a b c :
  lists_once w -> (forall h dl, w_open w h q = Some dl -> b * length (dl_names dl) <= N) ->
  costs w (o_dir_matcher o) a b -> costs w (o_file_matcher o) a b -> costs w (o_child_limit o) c 0 ->
  (forall x, opens_nothing (o_comparator o x)) -> opens_nothing (o_emoji o) ->
  (forall f, o_line_extension o = Some f -> opens_nothing f) ->
  openings q (snd (pretty_print o p w h)) <= openings q h \/
  exists ns, q = deeper (location w p) ns /\
    openings q (snd (pretty_print o p w h)) <= openings q h + (1 + N + a * length ns + c * (length ns + 1)).
Proof.
  intros Hw HN Hd Hf Hl Ho He Hx.
  assert (H : openings q (snd (pretty_print o p w h)) <= openings q h + total q N a c (location w p)).
  { rewrite pretty_print_split. rewrite <- (Nat.add_0_r (total _ _ _ _ _)). apply bind_adds.
    - rewrite scan_location. rewrite <- (Nat.add_0_r (total _ _ _ _ _)). apply bind_adds; [now apply (handling w o q N a b c)|]. intros [e|] h1 _; apply Nat.le_add_r.
    - intros e h1 _. rewrite Nat.add_0_r. assert (K : keeps (fun h h' => openings q h' <= openings q h) (render_tree o (line_renderer_create o) e)); [|apply K].
      apply keeps_render_entry; [intro; apply le_n|intros; lia|intros x w' h'; apply He|].
      intros x w' h'. unfold compute_line_extension. destruct (o_line_extension o) as [f|]; [now apply (Hx f)|apply le_n]. }
  unfold total in H. destruct (under (location w p) q) as [n|] eqn:E; [|left; lia]. apply under_spec in E as (ns & Eq & <-). right. now exists ns.
Qed.

Lemma descendant_openings o m p w h q :
  lists_once w -> o_dir_matcher o = pm_any_descendant m -> opens_nothing m -> opens_nothing (o_file_matcher o) -> opens_nothing (o_child_limit o) ->
  (forall x, opens_nothing (o_comparator o x)) -> opens_nothing (o_emoji o) -> (forall f, o_line_extension o = Some f -> opens_nothing f) ->
  openings q (snd (pretty_print o p w h)) <= openings q h \/
  exists ns, q = deeper (location w p) ns /\ openings q (snd (pretty_print o p w h)) <= openings q h + (1 + length ns).
Proof.
  intros Hw Ed Hm Hf Hl Ho He Hx.
  destruct (run_openings o p w h q 0 1 0 0) as [H|(ns & Eq & H)]; auto.
  - rewrite Ed. now apply cost_descendant.
  - eapply costs_more; [now apply costs_nothing|lia|lia].
  - now apply costs_nothing.
  - right. exists ns. split; [exact Eq|]. lia.
Qed.

Lemma sibling_openings o m p w h q N :
  lists_once w -> (forall h dl, w_open w h q = Some dl -> length (dl_names dl) <= N) -> o_file_matcher o = pm_sibling m -> opens_nothing m ->
  opens_nothing (o_dir_matcher o) -> opens_nothing (o_child_limit o) ->
  (forall x, opens_nothing (o_comparator o x)) -> opens_nothing (o_emoji o) -> (forall f, o_line_extension o = Some f -> opens_nothing f) ->
  openings q (snd (pretty_print o p w h)) <= openings q h + (1 + N).
Proof.
  intros Hw HN Ef Hm Hd Hl Ho He Hx.
  destruct (run_openings o p w h q N 0 1 0) as [H|(ns & Eq & H)]; auto; [| | | |lia|lia].
  - intros h' dl Ha. specialize (HN h' dl Ha). lia.
  - eapply costs_more; [now apply costs_nothing|lia|lia].
  - rewrite Ef. now apply cost_sibling.
  - now apply costs_nothing.
Qed.

Lemma matcher_costs w : lists_once w ->
  (forall m, opens_nothing m -> costs w m 0 0 /\ costs w (pm_any_descendant m) 1 0 /\ costs w (pm_any_direct_child m) 1 0 /\ costs w (pm_sibling m) 0 1) /\
  (forall m a b, costs w m a b -> costs w (pm_not m) a b) /\
  (forall i t e a b a' b', costs w i a b -> costs w t a' b' -> costs w e a' b' -> costs w (pm_if_then_else i t e) (a + a') (b + b')) /\
  (forall ms f a b, (pm_all_of (map Some ms) = Ok f \/ pm_any_of (map Some ms) = Ok f \/ pm_none_of (map Some ms) = Ok f) ->
     Forall (fun m => costs w m a b) ms -> costs w f (length ms * a) (length ms * b)).
Proof.
  intro Hw. split; [|split; [|split]].
  - intros m Hm. split; [now apply costs_nothing|]. split; [now apply cost_descendant|]. split; [now apply cost_child|now apply cost_sibling].
  - apply cost_not.
  - intros i t e a b a' b' Hi Ht He. apply (cost_then w bool bool i (fun x p => if x then t p else e p)); [exact Hi|]. intros [|]; assumption.
  - intros ms f a b [E|[E|E]] H; eapply cost_combined; eauto.
Qed.
