(** * Cases for the bounded stack *)

From Verif Require Import SpecHist SpecScan SpecOpen Stack Samples Cases RunFacts PathFacts TreeFacts OpenFacts OpenCases StackFacts.
Open Scope Z_scope.

(** Listing one child of a chain. *)
Lemma chain_step N m hc p h1 : exists h2,
  handle_directory_children (deep_options m) hc p (mkDirlist [js "a"] false) (path_filter (deep_options m)) (chain_world N) h1 =
  bind (children_loop hc false (-1) 0 [] [child p (js "a")]) (fun r => let '(es, rest) := r in ret (es ++ match rest with [] => [] | _ :: _ => [ESkipped p] end))
    (chain_world N) h2.
Proof.
  set (w' := chain_world N). exists (EvLstat (child p (js "a")) (w_lstat w' h1 (child p (js "a"))) :: h1). unfold handle_directory_children.
  assert (E : stream_paths p (mkDirlist [js "a"] false) (path_filter (deep_options m)) w' h1 =
    (Ok [child p (js "a")], EvLstat (child p (js "a")) (w_lstat w' h1 (child p (js "a"))) :: h1)).
  { unfold stream_paths. cbn [dl_names dl_fail map filterM]. change (resolve_name p (js "a")) with (child p (js "a")).
    unfold bind, path_filter, pm_if_then_else, pm_is_directory, has_kind, bind, lstat, ret. destruct (w_lstat w' h1 (child p (js "a"))) as [[]|]; reflexivity. }
  unfold bind. change (o_child_limit (deep_options m) p w' h1) with (@Ok Z UNLIMITED, h1). cbv beta iota. rewrite E. cbv beta iota.
  set (x := child p (js "a")). set (h2 := EvLstat x _ :: h1).
  change (sorted (o_comparator (deep_options m)) [x] w' h2) with (@Ok (list path) [x], h2). reflexivity.
Qed.

(** A chain of more directories than there are frames overflows the stack. *)
Lemma chain_overflows N m : forall n room fuel d p h, (room <= 3 * n + 1)%nat -> (n < fuel)%nat -> d + Z.of_nat n < Z.of_nat m ->
  (length (p_names p) + n <= N)%nat ->
  exists h', stk_handle room fuel (deep_options m) d p (path_filter (deep_options m)) (chain_world N) h = (Throw ExStackOverflow, h').
Proof.
  induction n as [|n IH]; intros room fuel d p h Hr Hf Hm Hp; (destruct fuel as [|fuel]; [lia|]); cbn [stk_handle];
    (destruct room as [|room]; [eexists; reflexivity|]); cbn [in_frame];
    unfold bind at 1, pm_is_directory, has_kind, bind at 1, lstat, ret at 1; cbn [w_lstat chain_world];
    (destruct (Nat.leb_spec (length (p_names p)) N) as [L|L]; [|lia]); cbn [kind_eqb fst snd];
    (destruct room as [|room]; [eexists; reflexivity|]); cbn [in_frame]; [lia|].
  change (o_max_depth (deep_options m)) with (Z.of_nat m). destruct (Z.leb_spec (Z.of_nat m) d) as [L1|L1]; [lia|].
  unfold bind at 1, open_dir. cbn [w_open chain_world].
  destruct (Nat.leb_spec (length (p_names p)) N) as [L3|L3]; [|lia]. destruct (Nat.ltb_spec (length (p_names p)) N) as [L4|L4]; [|lia].
  destruct room as [|room]; [eexists; reflexivity|]. cbn [in_frame].
  destruct (chain_step N m (fun c0 => stk_handle room fuel (deep_options m) (d + 1) c0 (path_filter (deep_options m))) p (EvOpen p :: EvLstat p (Some KDir) :: h))
    as (h2 & E).
  destruct (IH room fuel (d + 1) (child p (js "a")) h2) as (h3 & E2); try lia.
  { cbn. rewrite app_length. cbn. lia. }
  eexists. unfold bind at 1, with_close. rewrite E. cbn [children_loop andb]. unfold bind at 1 2. rewrite E2. reflexivity.
Qed.

Lemma chain_too_deep room : exists h', stk_pretty_print room (deep_options (S room)) (pth "/a") (chain_world (S room)) [] = (Throw ExStackOverflow, h').
Proof.
  destruct room as [|[|[|room]]]; try (eexists; vm_compute; reflexivity).
  rewrite stk_unfold. change (location (chain_world (S (S (S (S room))))) (pth "/a")) with (pth "/a"). set (m := S (S (S (S room)))).
  destruct (chain_overflows m m room (S room) (Z.to_nat (o_max_depth (deep_options m))) 0 (pth "/a") []) as (h' & E).
  - destruct room; lia.
  - cbn [deep_options with_max_depth o_max_depth]. lia.
  - lia.
  - cbn. lia.
  - exists h'. unfold bind. now rewrite E.
Qed.
