(** * What a run costs when the functions in the options access the file system: C182 *)

From Verif Require Import SpecSortCost SortCostFacts Cases.
From Coq Require Import Lia.
Open Scope nat_scope.

(** C182: one question to the orders of the library makes at most so many accesses. *)
Theorem C182_orders : forall w,
  compares_at_most w 0 ALPHABETICAL /\ compares_at_most w 4 BY_FILE_SIZE /\ compares_at_most w 2 DIRECTORY_FIRST /\
  compares_at_most w 2 DIRECTORY_LAST /\ compares_at_most w 2 BY_EXTENSION /\
  (forall i j c1 c2, compares_at_most w i c1 -> compares_at_most w j c2 -> compares_at_most w (i + j) (then_comparing c1 c2)) /\
  (forall k c, compares_at_most w k c -> compares_at_most w k (reversed c)) /\
  (forall k rules, Forall (at_most w k) rules -> compares_at_most w (2 * (length rules * k)) (sort_build rules)).
Proof. exact orders_cost. Qed.
Print Assumptions C182_orders.

(** ... and a run that returns makes at most three accesses for each displayed path, [m] for each directory that is opened (the
    limit), [1 + f] for each path found in one of them (the filters), and [k] for each of the comparisons of C181. *)
Theorem C182_whole_run : forall o c k f m dirs files p w h out h' dk,
  sorts_by c o -> compares_at_most w k c ->
  at_most w m (o_child_limit o) -> at_most w f (o_dir_matcher o) -> at_most w f (o_file_matcher o) ->
  eventless (o_emoji o) -> match o_line_extension o with Some g => eventless g | None => True end ->
  answers w (o_dir_matcher o) dirs -> answers w (o_file_matcher o) files -> steady w dk ->
  pretty_print o p w h = (Ok out, h') ->
  exists e h0, scan o (location w p) w h = (Ok e, h0) /\
    length h' <= length h + 3 * length (entry_paths e) + m * length (opened e) + (1 + f) * length (contained dk (opened e)) +
                 k * list_sum (map (fun q => most_comparisons (accepted_in dirs files dk q)) (opened e)).
Proof. exact run_length. Qed.
Print Assumptions C182_whole_run.

(** The largest files first; symbolic links are left out, which takes another question to the file system. *)
Definition sized_options := filter_files (pm_not pm_is_symbolic_link) (with_sort (reversed BY_FILE_SIZE) default_options).
Definition accesses_of (o : options) : nat := length (snd (pretty_print o (pth "/home/u") sample_world [])).
Definition no_link (p : path) : bool := match d_kind sample_disk p with Some KLink => false | _ => true end.

Example C182_case :
  sorts_by (reversed BY_FILE_SIZE) sized_options /\ compares_at_most sample_world 4 (reversed BY_FILE_SIZE) /\
  at_most sample_world 0 (o_child_limit sized_options) /\ at_most sample_world 1 (o_dir_matcher sized_options) /\
  at_most sample_world 1 (o_file_matcher sized_options) /\ eventless (o_emoji sized_options) /\ o_line_extension sized_options = None /\
  answers sample_world (o_dir_matcher sized_options) (fun _ => true) /\ answers sample_world (o_file_matcher sized_options) no_link /\
  steady sample_world sample_disk /\ is_some (result (pretty_print sized_options (pth "/home/u") sample_world [])) = true /\
  accesses_of default_options < accesses_of (filter_files (pm_not pm_is_symbolic_link) default_options) < accesses_of sized_options.
Proof.
  split; [reflexivity|]. split.
  { destruct (orders_cost sample_world) as (_ & Hz & _ & _ & _ & _ & Hr & _). now apply Hr. }
  split; [intros p h; cbn; lia|]. split; [intros p h; cbn; lia|]. split; [intros p h; cbn; lia|].
  split; [intros ? ? ?; reflexivity|]. split; [reflexivity|]. split; [intros p h; exists h; reflexivity|].
  split; [intros p h; exists (EvLstat p (d_kind sample_disk p) :: h); unfold no_link; cbn; destruct (opt_bind _ _) as [[]|]; reflexivity|]. split; [exact sample_steady|]. split; [vm_compute; reflexivity|].
  split; apply Nat.ltb_lt; vm_compute; reflexivity.
Qed.

(** The numbers of C182_orders are reached. *)
Example C182_reached :
  let two := fun (c : comparator) => length (snd (c (pth "/home/u/Zoo") (pth "/home/u/b.txt") sample_world [])) in
  two BY_FILE_SIZE = 4 /\ two DIRECTORY_FIRST = 2 /\
  two BY_EXTENSION = 2.
Proof. repeat split; vm_compute; reflexivity. Qed.
