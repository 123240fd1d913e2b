(** * How often the user's functions are called, and what is asked of the file system: C117, C118 *)

From Verif Require Import SpecCalls CallFacts Cases.

(** C117: the child limit is computed once for every displayed directory above the maximal depth, in display order, whatever the
    file system does and whatever the functions answer. *)
Theorem C117_limit_once_per_open_directory : forall tag o f p w h out h',
  o_child_limit o = logged tag f -> silent tag f -> silent tag (o_dir_matcher o) -> silent tag (o_file_matcher o) ->
  silent_order tag o -> silent_lines tag o ->
  pretty_print o p w h = (Ok out, h') ->
  exists e h0, scan o (location w p) w h = (Ok e, h0) /\ calls tag h' = calls tag h ++ opened e.
Proof. exact limit_calls. Qed.
Print Assumptions C117_limit_once_per_open_directory.

(** ... the filter for directories is asked about every directory in those directories, the filter for files about everything else
    in them, each one time, in listing order; never about the start. *)
Theorem C117_directory_filter_once : forall tag o f p w h out h' dk,
  o_dir_matcher o = logged tag f -> silent tag f -> silent tag (o_file_matcher o) -> silent tag (o_child_limit o) ->
  silent_order tag o -> silent_lines tag o -> steady w dk ->
  pretty_print o p w h = (Ok out, h') ->
  exists e h0, scan o (location w p) w h = (Ok e, h0) /\
    calls tag h' = calls tag h ++ filter (is_dirb dk) (contained dk (opened e)).
Proof. exact directory_filter_calls. Qed.
Print Assumptions C117_directory_filter_once.

Theorem C117_file_filter_once : forall tag o f p w h out h' dk,
  o_file_matcher o = logged tag f -> silent tag f -> silent tag (o_dir_matcher o) -> silent tag (o_child_limit o) ->
  silent_order tag o -> silent_lines tag o -> steady w dk ->
  pretty_print o p w h = (Ok out, h') ->
  exists e h0, scan o (location w p) w h = (Ok e, h0) /\
    calls tag h' = calls tag h ++ filter (fun c => negb (is_dirb dk c)) (contained dk (opened e)).
Proof. exact file_filter_calls. Qed.
Print Assumptions C117_file_filter_once.

(** ... and even if the printing fails, and whatever the world answers, none of them is asked twice about a path, as long as no
    directory lists a name twice. *)
Theorem C117_never_twice : forall tag o p w h,
  one_logs tag o -> silent_order tag o -> silent_lines tag o -> lists_once w ->
  exists l, calls tag (snd (pretty_print o p w h)) = calls tag h ++ l /\ NoDup l.
Proof. exact never_twice. Qed.
Print Assumptions C117_never_twice.

(** ... and the emoji mapping is asked once for every line that stands for a path (the last one of a merged chain), from top to
    bottom; if the printing fails, for an initial part of these, or none if it fails before the first line. *)
Theorem C117_emoji_once_per_line : forall tag o f v p w h,
  o_emoji o = logged tag f -> silent tag f -> silent tag (o_child_limit o) -> silent tag (o_dir_matcher o) ->
  silent tag (o_file_matcher o) -> silent_order tag o ->
  match o_line_extension o with Some g => silent tag g | None => True end ->
  extension_is w o (v_ext v) -> o_compact o = v_compact v ->
  match scan o (location w p) w h with
  | (Ok e, h1) => exists s, shows v true e s /\
      match pretty_print o p w h with
      | (Ok _, h') => calls tag h' = calls tag h ++ labelled_paths s
      | (Throw _, h') => exists k, calls tag h' = calls tag h ++ firstn k (labelled_paths s)
      end
  | (Throw _, h1) => calls tag (snd (pretty_print o p w h)) = calls tag h
  end.
Proof. exact emoji_calls. Qed.
Print Assumptions C117_emoji_once_per_line.

(** Maximal depth 2: [/home/u/src/main] is displayed but not opened. The child limit 1 hides [b.txt] and [link], but the filter for
    files was asked about them, the link to a directory included. *)
Definition calls_limit := with_child_limit_fn (logged 7 (fun _ => ret (-1)%Z)) (with_max_depth 2 default_options).
Definition calls_dirs := filter_directories (logged 7 (fun _ => ret true)) (with_max_depth 2 default_options).
Definition calls_files := filter_files (logged 7 (fun _ => ret true)) (with_child_limit 1 (with_max_depth 2 default_options)).
Definition calls_emoji := with_emojis (logged 7 (fun _ => ret None)) compact_options.

Definition calls_made (o : options) := calls 7 (snd (pretty_print o (pth "/home/u") sample_world [])).
Definition returned (o : options) := is_some (result (pretty_print o (pth "/home/u") sample_world [])).

Lemma sample_lists_once : lists_once sample_world.
Proof.
  intros h p dl H. destruct sample_steady as (_ & _ & Ho & _). rewrite Ho in H.
  destruct (d_list sample_disk p) as [names|] eqn:E; [|discriminate]. injection H as <-. exact (sample_distinct _ _ E).
Qed.

Example C117_limit_case :
  calls_made calls_limit = [pth "/home/u"; pth "/home/u/a"; pth "/home/u/src"] /\ returned calls_limit = true /\
  one_logs 7 calls_limit /\ silent_order 7 calls_limit /\ silent_lines 7 calls_limit /\ lists_once sample_world.
Proof.
  split; [vm_compute; reflexivity|]. split; [vm_compute; reflexivity|].
  split; [apply (limit_logs 7 calls_limit (fun _ => ret (-1)%Z)); [reflexivity|intros ? ? ?; reflexivity ..]|].
  split; [intros ? ? ? ?; reflexivity|]. split; [split; [intros ? ? ?; reflexivity|exact I]|apply sample_lists_once].
Qed.

Example C117_filter_cases :
  calls_made calls_dirs = [pth "/home/u/a"; pth "/home/u/src"; pth "/home/u/src/main"] /\ returned calls_dirs = true /\
  calls_made calls_files = [pth "/home/u/Zoo"; pth "/home/u/b.txt"; pth "/home/u/link"] /\ returned calls_files = true /\
  one_logs 7 calls_dirs /\ one_logs 7 calls_files /\ silent_order 7 calls_dirs /\ silent_lines 7 calls_dirs /\
  silent_order 7 calls_files /\ silent_lines 7 calls_files /\ steady sample_world sample_disk.
Proof.
  do 4 (split; [vm_compute; reflexivity|]).
  split; [apply (directories_log 7 calls_dirs (fun _ => ret true)); [reflexivity|intros ? ? ?; reflexivity ..]|].
  split; [apply (files_log 7 calls_files (fun _ => ret true)); [reflexivity|intros ? ? ?; reflexivity ..]|].
  do 2 (split; [intros ? ? ? ?; reflexivity|]; split; [split; [intros ? ? ?; reflexivity|exact I]|]). exact sample_steady.
Qed.

Example C117_emoji_case :
  calls_made calls_emoji =
    [pth "/home/u"; pth "/home/u/Zoo"; pth "/home/u/a"; pth "/home/u/b.txt"; pth "/home/u/link"; pth "/home/u/src/main/java";
     pth "/home/u/src/main/java/A.java"; pth "/home/u/src/main/java/B.java"] /\
  returned calls_emoji = true /\ sees sample_world compact_options (set_compact true plain_view).
Proof. do 2 (split; [vm_compute; reflexivity|]). apply compact_sees. Qed.

(** C118: if the functions of the user do not access the file system, these are all accesses of a run that returns, and their order. *)
Theorem C118_accesses : forall o st p w h out h' dk,
  uses w o st -> eventless_callbacks o -> steady w dk -> pretty_print o p w h = (Ok out, h') ->
  exists e, tree_at st dk 0 (location w p) e /\ h' = rev (accesses dk e) ++ h.
Proof. exact run_accesses. Qed.
Print Assumptions C118_accesses.

(** ... so that there are at most three for everything displayed and one more for everything found in the displayed directories. *)
Theorem C118_cost : forall o st p w h out h' dk,
  uses w o st -> eventless_callbacks o -> steady w dk -> pretty_print o p w h = (Ok out, h') ->
  exists e t, tree_at st dk 0 (location w p) e /\ h' = rev t ++ h /\
    length t <= 3 * length (entry_paths e) + length (contained dk (opened e)).
Proof. exact run_cost. Qed.
Print Assumptions C118_cost.

Lemma default_eventless : eventless_callbacks default_options.
Proof. do 3 (split; [intros ? ? ?; reflexivity|]). split; [intros ? ? ? ?; reflexivity|]. split; [intros ? ? ?; reflexivity|exact I]. Qed.

Example C118_case :
  uses sample_world default_options default_settings /\ eventless_callbacks default_options /\ steady sample_world sample_disk /\
  let p := pth "/home/u/src/main/java" in
  is_some (result (pretty_print default_options p sample_world [])) = true /\
  rev (snd (pretty_print default_options p sample_world [])) =
    [EvLstat p (Some KDir); EvOpen p; EvLstat (child p (js "B.java")) (Some KReg); EvLstat (child p (js "A.java")) (Some KReg);
     EvLstat (child p (js "A.java")) (Some KReg); EvStat (child p (js "A.java")) (Some KReg);
     EvLstat (child p (js "B.java")) (Some KReg); EvStat (child p (js "B.java")) (Some KReg); EvClose p true].
Proof.
  split; [apply default_uses|]. split; [exact default_eventless|]. split; [exact sample_steady|]. cbv zeta. split; vm_compute; reflexivity.
Qed.
