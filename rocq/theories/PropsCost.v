(** * How often directories are opened when filters look into them: C168 *)

From Verif Require Import SpecCost CostFacts Cases PropsCalls.
Close Scope Z_scope.

(** C168: a filter for directories that looks for a descendant opens the directories below again and again. Whatever the file system does, whatever the outcome,
    a directory [n] levels below the printed one is opened at most [n + 1] times, and directories elsewhere are not opened. *)
Theorem C168_descendant_filter : forall o m p w h q,
  lists_once w -> o_dir_matcher o = pm_any_descendant m -> opens_nothing m -> opens_nothing (o_file_matcher o) -> opens_nothing (o_child_limit o) ->
  (forall x, opens_nothing (o_comparator o x)) -> opens_nothing (o_emoji o) -> (forall f, o_line_extension o = Some f -> opens_nothing f) ->
  openings q (snd (pretty_print o p w h)) <= openings q h \/
  exists ns, q = deeper (location w p) ns /\ openings q (snd (pretty_print o p w h)) <= openings q h + (1 + length ns).
Proof. exact descendant_openings. Qed.
Print Assumptions C168_descendant_filter.

(** ... A filter for files that looks for a sibling opens a directory with [N] entries at most [N + 1] times. *)
Theorem C168_sibling_filter : forall o m p w h q N,
  lists_once w -> (forall h dl, w_open w h q = Some dl -> length (dl_names dl) <= N) -> o_file_matcher o = pm_sibling m -> opens_nothing m ->
  opens_nothing (o_dir_matcher o) -> opens_nothing (o_child_limit o) ->
  (forall x, opens_nothing (o_comparator o x)) -> opens_nothing (o_emoji o) -> (forall f, o_line_extension o = Some f -> opens_nothing f) ->
  openings q (snd (pretty_print o p w h)) <= openings q h + (1 + N).
Proof. exact sibling_openings. Qed.
Print Assumptions C168_sibling_filter.

(** ... In general, the filters have costs [a] (below) and [b] (beside), the child limit has the cost [c]. *)
Theorem C168_openings : forall o p w h q s a b c,
  lists_once w -> (forall h dl, w_open w h q = Some dl -> b * length (dl_names dl) <= s) ->
  costs w (o_dir_matcher o) a b -> costs w (o_file_matcher o) a b -> costs w (o_child_limit o) c 0 ->
  (forall x, opens_nothing (o_comparator o x)) -> opens_nothing (o_emoji o) ->
  (forall f, o_line_extension o = Some f -> opens_nothing f) ->
  openings q (snd (pretty_print o p w h)) <= openings q h \/
  exists ns, q = deeper (location w p) ns /\
    openings q (snd (pretty_print o p w h)) <= openings q h + (1 + s + a * length ns + c * (length ns + 1)).
Proof. exact run_openings. Qed.
Print Assumptions C168_openings.

(** ... The costs of the matchers of the library. *)
Theorem C168_costs_of_matchers : forall w,
  lists_once w ->
  (forall m, opens_nothing m -> costs w m 0 0 /\ costs w (pm_any_descendant m) 1 0 /\ costs w (pm_any_direct_child m) 1 0 /\ costs w (pm_sibling m) 0 1) /\
  (forall m a b, costs w m a b -> costs w (pm_not m) a b) /\
  (forall i t e a b a' b', costs w i a b -> costs w t a' b' -> costs w e a' b' -> costs w (pm_if_then_else i t e) (a + a') (b + b')) /\
  (forall ms f a b, (pm_all_of (map Some ms) = Ok f \/ pm_any_of (map Some ms) = Ok f \/ pm_none_of (map Some ms) = Ok f) ->
     Forall (fun m => costs w m a b) ms -> costs w f (length ms * a) (length ms * b)).
Proof. exact matcher_costs. Qed.
Print Assumptions C168_costs_of_matchers.

Definition cost_dirs := filter_directories (pm_any_descendant (pm_extension (js "java"))) default_options.
Definition cost_files := filter_files (pm_sibling (pm_extension (js "java"))) default_options.
Definition opened_for (o : options) (q : path) := openings q (snd (pretty_print o (pth "/home/u") sample_world [])).

(** The bounds are reached. *)
Example C168_case :
  lists_once sample_world /\ opens_nothing (pm_extension (js "java")) /\ opens_nothing (o_file_matcher cost_dirs) /\ opens_nothing (o_dir_matcher cost_files) /\
  opens_nothing (o_child_limit cost_dirs) /\ (forall x, opens_nothing (o_comparator cost_dirs x)) /\ opens_nothing (o_emoji cost_dirs) /\
  o_line_extension cost_dirs = None /\
  map (opened_for cost_dirs) [pth "/home/u"; pth "/home/u/src"; pth "/home/u/src/main"; pth "/home/u/src/main/java"; pth "/home/u/a"] = [1; 2; 3; 4; 1] /\
  map (opened_for cost_files) [pth "/home/u"; pth "/home/u/src"; pth "/home/u/src/main/java"] = [4; 1; 3] /\
  option_map (@length _) (d_list sample_disk (pth "/home/u/src/main/java")) = Some 2.
Proof.
  split; [exact sample_lists_once|].
  split; [intros p w h q; unfold pm_extension, pm_name_ending_with, pm_name_test; destruct (get_file_name p); apply le_n|].
  do 3 (split; [intros ? ? ? ?; apply le_n|]). split; [intros ? ? ? ? ?; apply le_n|]. split; [intros ? ? ? ?; apply le_n|].
  repeat split; lazy; reflexivity.
Qed.
