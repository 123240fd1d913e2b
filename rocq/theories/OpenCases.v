(** * Cases for the streams open at the same time *)

From Verif Require Import SpecHist SpecScan SpecOpen Samples Cases RunFacts OpenFacts PrintFacts PathFacts ScanFacts TreeFacts SortFacts.
Open Scope Z_scope.

(** A file system with one chain of [n] directories, each of which but the last contains one directory "a". *)
Definition chain_world (n : nat) : world := {|
  w_lstat := fun _ p => if (length (p_names p) <=? n)%nat then Some KDir else None;
  w_stat := fun _ p => if (length (p_names p) <=? n)%nat then Some KDir else None;
  w_length := fun _ _ => 0;
  w_open := fun _ p => if (length (p_names p) <=? n)%nat then Some (mkDirlist (if (length (p_names p) <? n)%nat then [js "a"] else []) false) else None;
  w_close_ok := fun _ _ => true;
  w_jvm := sample_jvm
|}.
Definition chain_disk (n : nat) : disk := {|
  d_kind := fun p => if (length (p_names p) <=? n)%nat then Some KDir else None;
  d_attr := fun p => if (length (p_names p) <=? n)%nat then Some KDir else None;
  d_list := fun p => if (length (p_names p) <=? n)%nat then Some (if (length (p_names p) <? n)%nat then [js "a"] else []) else None;
  d_length := fun _ => 0
|}.
Definition deep_options (n : nat) : options := with_max_depth (Z.of_nat n) default_options.
Definition deep_settings (n : nat) : settings := mkSettings (fun _ => true) (fun _ => true) (fun _ => -1) alphabetical (Z.of_nat n).


Lemma chain_steady n : steady (chain_world n) (chain_disk n).
Proof.
  repeat split; intros; cbn; try reflexivity. destruct (length (p_names p) <=? n)%nat; reflexivity.
Qed.

Lemma deep_uses n w : uses w (deep_options n) (deep_settings n).
Proof. repeat split; repeat intro; eexists; reflexivity. Qed.

Lemma deep_sees n w : sees w (deep_options n) plain_view.
Proof. exact (default_sees w). Qed.

Lemma deep_callbacks n w (K : trace -> Prop) E : K [] -> callbacks w (deep_options n) K E.
Proof. intro H. exact (default_callbacks w K E H). Qed.

Lemma deep_same n w w' : same_callbacks w w' (deep_options n).
Proof. repeat split; repeat intro; reflexivity. Qed.

Lemma chain_readable n m root : (length (p_names root) <= n)%nat -> readable (deep_settings m) (chain_disk n) root.
Proof.
  intros Hr d p H. assert (L : (length (p_names p) <= n)%nat).
  { induction H as [|d p names k H IH _ _ Hl Hin _]; [exact Hr|]. cbn [chain_disk d_list] in Hl. destruct (Nat.leb_spec (length (p_names p)) n); [|discriminate].
    destruct (Nat.ltb_spec (length (p_names p)) n); injection Hl as <-; [|now cbn in Hin].
    cbn. rewrite app_length. cbn. lia. }
  unfold is_dir. cbn. destruct (Nat.leb_spec (length (p_names p)) n); [|lia]. split; [|intro X; destruct (X eq_refl)].
  intros _ _. eexists. split; [reflexivity|]. left. apply contract_alphabetical.
Qed.

(** Listing one child of a chain. *)
Lemma chain_children c N m hc p h1 : exists h2, ops h2 = ops h1 /\
  handle_directory_children (deep_options m) hc p (mkDirlist [js "a"] false) (path_filter (deep_options m)) (with_handles c (chain_world N)) h1 =
  bind (children_loop hc false (-1) 0 [] [child p (js "a")]) (fun r => let '(es, rest) := r in ret (es ++ match rest with [] => [] | _ :: _ => [ESkipped p] end))
    (with_handles c (chain_world N)) h2.
Proof.
  set (w' := with_handles c (chain_world N)). eexists (EvLstat (child p (js "a")) (w_lstat w' h1 (child p (js "a"))) :: h1).
  split; [now apply ops_ev|]. unfold handle_directory_children.
  assert (E : stream_paths p (mkDirlist [js "a"] false) (path_filter (deep_options m)) w' h1 =
    (Ok [child p (js "a")], EvLstat (child p (js "a")) (w_lstat w' h1 (child p (js "a"))) :: h1)).
  { unfold stream_paths. cbn [dl_names dl_fail map filterM]. change (resolve_name p (js "a")) with (child p (js "a")).
    unfold bind, path_filter, pm_if_then_else, pm_is_directory, has_kind, bind, lstat, ret. destruct (w_lstat w' h1 (child p (js "a"))) as [[]|]; reflexivity. }
  unfold bind. change (o_child_limit (deep_options m) p w' h1) with (@Ok Z UNLIMITED, h1). cbv beta iota. rewrite E. cbv beta iota.
  set (x := child p (js "a")). set (h2 := EvLstat x _ :: h1).
  change (sorted (o_comparator (deep_options m)) [x] w' h2) with (@Ok (list path) [x], h2). reflexivity.
Qed.

(** Every directory down to the limit of handles is opened, and the next one is refused. *)
Lemma chain_refused c N m : forall n fuel d p h, (length (ops h) + n = c)%nat -> (n < fuel)%nat -> 0 <= d -> d + Z.of_nat n < Z.of_nat m ->
  (length (p_names p) + n <= N)%nat ->
  exists x h', handle fuel (deep_options m) d p (path_filter (deep_options m)) (with_handles c (chain_world N)) h = (Throw (ExUncheckedIO ListFiles x), h').
Proof.
  induction n as [|n IH]; intros fuel d p h Hc Hf Hd Hm Hp; (destruct fuel as [|fuel]; [lia|]); cbn [handle];
    unfold bind at 1, pm_is_directory, has_kind, bind at 1, lstat, ret at 1; cbn [with_handles w_lstat chain_world];
    (destruct (Nat.leb_spec (length (p_names p)) N) as [L|L]; [|lia]); cbn [kind_eqb fst snd];
    change (o_max_depth (deep_options m)) with (Z.of_nat m); (destruct (Z.leb_spec (Z.of_nat m) d) as [L1|L1]; [lia|]);
    unfold bind at 1, open_dir; cbn [with_handles w_open chain_world]; fold (ops (EvLstat p (Some KDir) :: h));
    rewrite ops_ev by discriminate; (destruct (Nat.leb_spec c (length (ops h))) as [L2|L2]; try lia).
  - eexists _, _. reflexivity.
  - destruct (Nat.leb_spec (length (p_names p)) N) as [L3|L3]; [|lia]. destruct (Nat.ltb_spec (length (p_names p)) N) as [L4|L4]; [|lia].
    destruct (chain_children c N m (fun c0 => handle fuel (deep_options m) (d + 1) c0 (path_filter (deep_options m))) p (EvOpen p :: EvLstat p (Some KDir) :: h))
      as (h2 & O2 & E). rewrite ops_open, ops_ev in O2 by discriminate.
    destruct (IH fuel (d + 1) (child p (js "a")) h2) as (x & h3 & E2); try lia.
    { rewrite O2. cbn. lia. }
    { cbn. rewrite app_length. cbn. lia. }
    exists x. eexists. unfold bind at 1, with_close. rewrite E. cbn [children_loop andb]. unfold bind at 1 2. rewrite E2. reflexivity.
Qed.

Lemma chain_returns n p : p_names (location (chain_world n) p) <> [] -> (length (p_names (location (chain_world n) p)) <= n)%nat ->
  forall m, exists out, forall h, exists h', pretty_print (deep_options m) p (chain_world n) h = (Ok out, h').
Proof.
  intros H1 H2 m. apply (pretty_print_returns _ _ _ (chain_disk n) (deep_settings m) plain_view); auto.
  - apply chain_steady.
  - apply deep_uses.
  - apply deep_sees.
  - now apply chain_readable.
Qed.

Lemma chain_fails c : exists x h', pretty_print (deep_options (S c)) (pth "/a") (with_handles c (chain_world (S c))) [] = (Throw (ExUncheckedIO ListFiles x), h').
Proof.
  destruct (chain_refused c (S c) (S c) c (Z.to_nat (o_max_depth (deep_options (S c)))) 0 (pth "/a") []) as (x & h' & E).
  - reflexivity.
  - cbn [deep_options with_max_depth o_max_depth]. lia.
  - lia.
  - lia.
  - cbn. lia.
  - exists x, h'. rewrite scan_unfold. unfold bind. change (location (with_handles c (chain_world (S c))) (pth "/a")) with (pth "/a").
    now rewrite E.
Qed.

Lemma chain_lists n q : is_dir (chain_disk n) q -> exists l, d_list (chain_disk n) q = Some l.
Proof. unfold is_dir. cbn [chain_disk d_kind d_list]. destruct (length (p_names q) <=? n)%nat; [eauto|discriminate]. Qed.
