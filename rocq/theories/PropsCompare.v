(** * How often the order is asked: C181 *)

From Verif Require Import SpecCompare ComparedFacts Cases.
Open Scope nat_scope.

(** C181: sorting the paths of one directory asks an order at most n log n times, whatever it answers, whether or not it honours the
    contract of comparators, and also if it throws or the sort gives up. *)
Theorem C181_one_directory : forall tag c w l h, silent_comparator tag c ->
  times tag (snd (sorted (counted tag c) l w h)) <= times tag h + most_comparisons (length l).
Proof. exact one_sort_times. Qed.
Print Assumptions C181_one_directory.

(** ... a listing that is already in order, or in the opposite order, is asked about once for each path but one. *)
Theorem C181_in_order : forall tag c ord w l h, silent_comparator tag c -> (forall a b h, fst (c a b w h) = Ok (ord a b)) ->
  rising ord l \/ falling ord l ->
  times tag (snd (sorted (counted tag c) l w h)) = times tag h + (length l - 1).
Proof. exact in_order_times. Qed.
Print Assumptions C181_in_order.

(** ... and a run that returns asks the order given to [withSort] at most that often for each displayed directory above the maximal
    depth, counting the paths in it that pass the filters. *)
Theorem C181_whole_run : forall tag o c dirs files p w h out h' dk,
  sorts_by (counted tag c) o -> silent_comparator tag c ->
  silent tag (o_child_limit o) -> silent tag (o_dir_matcher o) -> silent tag (o_file_matcher o) -> silent_lines tag o ->
  answers w (o_dir_matcher o) dirs -> answers w (o_file_matcher o) files -> steady w dk ->
  pretty_print o p w h = (Ok out, h') ->
  exists e h0, scan o (location w p) w h = (Ok e, h0) /\
    times tag h' <= times tag h + list_sum (map (fun q => most_comparisons (accepted_in dirs files dk q)) (opened e)).
Proof. exact run_times. Qed.
Print Assumptions C181_whole_run.

(** An order that depends on nothing but the first path, which breaks the contract. *)
Definition wild : comparator := fun a _ => ret (if is_dirb sample_disk a then 1%Z else (-1)%Z).
Definition wild_options := with_sort (counted 7 wild) default_options.

Example C181_case :
  sorts_by (counted 7 wild) wild_options /\ silent_comparator 7 wild /\
  silent 7 (o_child_limit wild_options) /\ silent 7 (o_dir_matcher wild_options) /\ silent 7 (o_file_matcher wild_options) /\
  silent_lines 7 wild_options /\ answers sample_world (o_dir_matcher wild_options) (fun _ => true) /\
  answers sample_world (o_file_matcher wild_options) (fun _ => true) /\ steady sample_world sample_disk /\
  is_some (result (pretty_print wild_options (pth "/home/u") sample_world [])) = true /\
  times 7 (snd (pretty_print wild_options (pth "/home/u") sample_world [])) = 9 /\
  accepted_in (fun _ => true) (fun _ => true) sample_disk (pth "/home/u") = 5.
Proof.
  split; [reflexivity|]. split; [intros ? ? ? ?; reflexivity|]. do 3 (split; [intros ? ? ?; reflexivity|]).
  split; [split; [intros ? ? ?; reflexivity|exact I]|]. do 2 (split; [intros p h; exists h; reflexivity|]). split; [exact sample_steady|].
  do 3 (split || idtac); vm_compute; reflexivity.
Qed.

(** Forty paths, in order, reversed, and alternating between both ends. *)
Definition forty : list path := map (fun n => mkPath true [js "d"; [N.of_nat n]]) (seq 65 40).
Definition forty_mixed : list path := flat_map (fun ab => [fst ab; snd ab]) (combine (firstn 20 forty) (rev (skipn 20 forty))).
Definition asked_for (l : list path) : nat := times 7 (snd (sorted (counted 7 ALPHABETICAL) l sample_world [])).

Example C181_counts :
  asked_for forty = 39 /\ asked_for (rev forty) = 39 /\ 39 < asked_for forty_mixed <= most_comparisons 40 /\ length forty_mixed = 40 /\
  rising (fun a b => jcompare (alpha_key a) (alpha_key b)) forty /\ falling (fun a b => jcompare (alpha_key a) (alpha_key b)) (rev forty) /\
  result (sorted (counted 7 ALPHABETICAL) forty_mixed sample_world []) = Some forty.
Proof.
  split; [vm_compute; reflexivity|]. split; [vm_compute; reflexivity|].
  split; [split; apply Nat.leb_le; vm_compute; reflexivity|]. split; [reflexivity|].
  split; [vm_compute; repeat split; discriminate|]. split; [vm_compute; repeat split|vm_compute; reflexivity].
Qed.
