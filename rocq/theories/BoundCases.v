(** * A file tree that needs as many lines as there can be *)

From Verif Require Import SpecScan SpecBound Samples Cases BoundFacts RenderFacts ScanFacts PathFacts TreeFacts SortFacts ShownFacts LayoutFacts OutlineFacts ScanPrintFacts PrintFacts.
Open Scope Z_scope.

(** [n + 1] different names. *)
Definition full_names (n : nat) : list jstring := map (fun i => repeat 97%N (S i)) (seq 0 (S n)).

(** Every path of at most [k] names is a directory; every one of fewer names contains [n + 1] directories. *)
Definition full_world (n k : nat) : world := {|
  w_lstat := fun _ p => if (length (p_names p) <=? k)%nat then Some KDir else None;
  w_stat := fun _ p => if (length (p_names p) <=? k)%nat then Some KDir else None;
  w_length := fun _ _ => 0;
  w_open := fun _ p => if (length (p_names p) <=? k)%nat then Some (mkDirlist (if (length (p_names p) <? k)%nat then full_names n else []) false) else None;
  w_close_ok := fun _ _ => true;
  w_jvm := sample_jvm
|}.
Definition full_disk (n k : nat) : disk := {|
  d_kind := fun p => if (length (p_names p) <=? k)%nat then Some KDir else None;
  d_attr := fun p => if (length (p_names p) <=? k)%nat then Some KDir else None;
  d_list := fun p => if (length (p_names p) <=? k)%nat then Some (if (length (p_names p) <? k)%nat then full_names n else []) else None;
  d_length := fun _ => 0
|}.
Definition full_options (n m : nat) : options := with_max_depth (Z.of_nat m) (with_child_limit (Z.of_nat n) default_options).
Definition full_settings (n m : nat) : settings := mkSettings (fun _ => true) (fun _ => true) (fun _ => Z.of_nat n) alphabetical (Z.of_nat m).

Lemma full_steady n k : steady (full_world n k) (full_disk n k).
Proof. repeat split; intros; cbn; try reflexivity. destruct (length (p_names p) <=? k)%nat; reflexivity. Qed.

Lemma full_uses n m w : uses w (full_options n m) (full_settings n m).
Proof. repeat split; repeat intro; eexists; reflexivity. Qed.

Lemma full_sees n m w : sees w (full_options n m) plain_view.
Proof. exact (default_sees w). Qed.

Lemma full_limited n m w : limited_to w (full_options n m) n.
Proof. intros q h l h' E. injection E as <- _. lia. Qed.

Lemma full_readable n k m root : (length (p_names root) <= k)%nat -> readable (full_settings n m) (full_disk n k) root.
Proof.
  intros Hr d p H. assert (L : (length (p_names p) <= k)%nat).
  { induction H as [|d p names x H IH _ _ Hl Hin _]; [exact Hr|]. cbn [full_disk d_list] in Hl.
    destruct (Nat.leb_spec (length (p_names p)) k); [|discriminate].
    destruct (Nat.ltb_spec (length (p_names p)) k); injection Hl as <-; [|now cbn in Hin].
    cbn. rewrite app_length. cbn. lia. }
  unfold is_dir. cbn [full_disk d_kind d_list]. destruct (Nat.leb_spec (length (p_names p)) k); [|lia]. split; [|intro X; destruct (X eq_refl)].
  intros _ _. eexists. split; [reflexivity|]. left. apply contract_alphabetical.
Qed.

Lemma full_name n x : In x (full_names n) -> one_line_name x.
Proof.
  intro H. apply in_map_iff in H. destruct H as (i & <- & _). split; [discriminate|].
  split; intro H; apply repeat_spec in H; discriminate.
Qed.

Lemma filter_all {A} (f : A -> bool) l : (forall x, f x = true) -> filter f l = l.
Proof. intro H. induction l as [|x l IH]; cbn; [reflexivity|]. now rewrite H, IH. Qed.

Lemma full_tree n m : forall e d p, tree_at (full_settings n m) (full_disk n (S m)) (Z.of_nat d) p e -> length (p_names p) = S d -> (d <= m)%nat ->
  one_line_name (last_name p) ->
  entry_count e = most_lines n (m - d) /\ forall top s, shows plain_view top e s -> clear_names s.
Proof.
  induction e as [q es IH|f k|q|x] using entry_ind'; intros d p H Hp Hd Hn.
  2:{ inversion H as [d0 p0 k0 Hnd Ha| |]; subst. exfalso. apply Hnd. unfold is_dir. cbn [full_disk d_kind]. rewrite Hp.
      destruct (Nat.leb_spec (S d) (S m)); [reflexivity|lia]. }
  2,3: inversion H.
  inversion H as [|d0 p0 Hdir Hle|d0 p0 names order es' Hdir Hlt Hl Ho HF E1 E2 E3]; subst.
  - cbn [full_settings s_depth] in Hle. replace (m - d)%nat with 0%nat by lia. split; [reflexivity|].
    intros top s Hs. inversion Hs as [| | |t d0 es0 ks Ht HF|e0 ds es0 ks Hc]; subst; [|discriminate Hc].
    inversion HF as [|x y l l' Hx HF']; subst. inversion HF'; subst. inversion Hx; subst; [|discriminate].
    constructor; [discriminate| |].
    + intros d' [<-|[]]. exact Hn.
    + intros k' [<-|[]]. constructor.
  - cbn [full_settings s_depth s_limit s_cmp] in *. cbn [full_disk d_list] in Hl. rewrite Hp in Hl.
    destruct (Nat.leb_spec (S d) (S m)) as [L1|L1]; [|lia]. destruct (Nat.ltb_spec (S d) (S m)) as [L2|L2]; [|lia]. injection Hl as <-.
    rewrite filter_all in Ho by (intro x; unfold accepts; cbn; destruct (is_dirb _ x); reflexivity).
    assert (HP : Permutation (map (child q) (full_names n)) order) by apply Ho.
    assert (Lo : length order = S n).
    { rewrite <- (Permutation_length HP), map_length. unfold full_names. now rewrite map_length, seq_length. }
    assert (Hk : forall c, In c (limited (Z.of_nat n) order) -> length (p_names c) = S (S d) /\ one_line_name (last_name c)).
    { intros c Hc. assert (Hin : In c order).
      { unfold limited in Hc. destruct (Z.of_nat n <? 0); [exact Hc|]. rewrite <- (firstn_skipn (Z.to_nat (Z.of_nat n)) order). apply in_or_app. now left. }
      apply (Permutation_in _ (Permutation_sym HP)) in Hin. apply in_map_iff in Hin. destruct Hin as (x & <- & Hx).
      cbn [child p_names]. rewrite app_length, Hp. cbn [length]. split; [lia|]. 
      change (last_name (child q x)) with (last (p_names q ++ [x]) []). rewrite last_last. eapply full_name; eassumption. }
    assert (Ln : length es' = n).
    { rewrite <- (same_length _ _ _ HF). unfold limited. destruct (Z.ltb_spec (Z.of_nat n) 0); [lia|]. rewrite firstn_length, Lo. lia. }
    assert (Hm : marker (Z.of_nat n) order q = [ESkipped q]).
    { unfold marker. rewrite Lo. destruct (Z.leb_spec 0 (Z.of_nat n)); [|lia]. destruct (Z.ltb_spec (Z.of_nat n) (Z.of_nat (S n))); [reflexivity|lia]. }
    rewrite Hm in *. apply Forall_app in IH. destruct IH as [IH _].
    assert (A : forall e, In e es' -> entry_count e = most_lines n (m - S d) /\ forall top s, shows plain_view top e s -> clear_names s).
    { clear -HF IH Hk L2. revert IH Hk. induction HF as [|c e cs es Hce HF IHF]; intros IH Hk e' Hin; [destruct Hin|].
      inversion IH as [|a b Ha Hb]; subst. destruct Hin as [<-|Hin].
      - destruct (Hk c (or_introl eq_refl)) as [K1 K2]. apply (Ha (S d) c); auto; [|lia]. now replace (Z.of_nat (S d)) with (Z.of_nat d + 1) by lia.
      - apply IHF; auto. intros c' Hc'. apply Hk. now right. }
    split.
    + cbn [entry_count]. rewrite map_app, list_sum_app. replace (m - d)%nat with (S (m - S d)) by lia. cbn [most_lines].
      assert (S1 : list_sum (map entry_count es') = (length es' * most_lines n (m - S d))%nat).
      { clear -A. induction es' as [|x es IH]; [reflexivity|]. cbn. destruct (A x (or_introl eq_refl)) as [-> _]. unfold list_sum in IH. rewrite IH; [reflexivity|].
        intros y Hy. apply A. now right. }
      rewrite S1, Ln. cbn. lia.
    + intros top s Hs. inversion Hs as [| | |t d0 es0 ks Ht HF'|e0 ds es0 ks Hc]; subst; [|discriminate Hc].
      constructor; [discriminate| |].
      * intros d' [<-|[]]. exact Hn.
      * intros k' Hk'. destruct (in_split _ _ Hk') as (l1 & l2 & ->). apply Forall2_app_inv_r in HF'. destruct HF' as (x1 & x2 & _ & F2 & Ex).
        inversion F2 as [|y z l l' Hy F3]; subst. assert (Hin : In y (es' ++ [ESkipped q])) by (rewrite Ex; apply in_or_app; right; now left).
        apply in_app_or in Hin. destruct Hin as [Hin|[<-|[]]]; [now apply (proj2 (A y Hin) false)|]. inversion Hy; subst; [constructor|discriminate].
Qed.

Lemma full_lines n m : exists out h', pretty_print (full_options n m) (pth "/a") (full_world n (S m)) [] = (Ok out, h') /\
  length (split_on c_nl out) = most_lines n m.
Proof.
  destruct (pretty_print_returns (full_options n m) (pth "/a") (full_world n (S m)) (full_disk n (S m)) (full_settings n m) plain_view) as (out & H).
  - apply full_steady.
  - apply full_uses.
  - apply full_sees.
  - apply full_readable. cbn. lia.
  - discriminate.
  - destruct (H []) as (h' & E). exists out, h'. split; [exact E|].
    destruct (print_tree (full_options n m) (pth "/a") (full_world n (S m)) [] out h' plain_view (full_disk n (S m)) (full_settings n m)) as (e & s & Ht & Hs & Ho);
      [apply full_steady|apply full_uses|apply full_sees|exact E|].
    destruct (full_tree n m e 0%nat (pth "/a")) as [Ec Hcl]; [exact Ht|reflexivity|lia| |].
    { apply (full_name 0). now left. }
    rewrite Ho, text_line_count.
    + rewrite (shows_plain_count plain_view e eq_refl true s Hs), Ec. now rewrite Nat.sub_0_r.
    + apply C02_builtin_lemma.
    + apply clear_one_line; [split; reflexivity|]. exact (Hcl _ _ Hs).
Qed.
