(** * Two states of a project, for comparing what the program prints *)

From Verif Require Export SpecKinds ReadCliCases.
From Verif Require Import ScanFacts.
Close Scope Z_scope.

Definition table_paths (t : table) : list path := map (fun e => mkPath true (fst e)) t.
Definition table_cli (t : table) : cworld := case_cli (static_world (table_fs t) unix_jvm) project_files.
Definition table_disk (t : table) : disk := static_disk (table_fs t) unix_jvm.

Definition fine (t : table) : bool :=
  forallb (fun e => match snd e with IDir l => nodupb l | _ => true end) t && forallb (fun e => match snd e with IDir l => forallb realb l | _ => true end) t &&
  closed_under_listing (table_paths t) (table_disk t) && all_readable (table_paths t) (table_disk t) && path_inb (mkPath true project_names) (table_paths t) &&
  forallb (fun p => match p_names p with [] => true | _ => tellableb (last_name p) end) (table_paths t).

Lemma fine_run t : fine t = true -> plain_run (table_cli t) [js "p"] (table_disk t) (pth "/home/u/p").
Proof.
  unfold fine. intro H. apply andb_prop in H as [H H6]. apply andb_prop in H as [H H5]. apply andb_prop in H as [H H4]. apply andb_prop in H as [H H3].
  apply andb_prop in H as [H1 H2]. apply path_inb_In in H5.
  assert (Hc : exists ex, chooses (table_cli t) project_files (mkArgs (Some (pth "p")) None false) (pth "/home/u/p") ex UseDefault).
  { eexists. eapply ch_fallback with (here := pth "/home/u/.prettyprint") (home := pth "/r/.prettyprint"); [reflexivity| | |].
    - apply (name_resolved ".prettyprint"). vm_compute. reflexivity.
    - apply (plain_resolved _ (pth "/r/.prettyprint")); vm_compute; reflexivity.
    - repeat constructor. }
  destruct Hc as [ex Hc]. exists project_files, (Some (js "p")), None, [[js "p"]], [], (pth "/home/u/p"), ex.
  split; [split; [split; discriminate|reflexivity]|]. split; [reflexivity|]. split; [exists [[js "p"]]; split; reflexivity|].
  intro a. split; [apply case_steady|]. split; [now left|]. split; [apply (name_resolved "p"); vm_compute; reflexivity|]. split; [reflexivity|]. split; [exact Hc|].
  split; [apply static_steady|]. split; [now apply table_distinct|]. split; [now apply table_real|]. split; [exact project_real_names|]. split; [discriminate|]. split; [reflexivity|].
  split; [exact (closed_readable _ _ _ H3 H4 H5)|]. split; [apply tellableb_ok; reflexivity|].
  intros ns n Hl. apply (listed_closed (table_disk t) (mkPath true project_names) (table_paths t) _ H3 H5) in Hl. rewrite forallb_forall in H6. specialize (H6 _ Hl).
  apply tellableb_ok. unfold deeper, last_name in H6. cbn [p_names] in H6. rewrite app_assoc, last_last in H6.
  destruct ((project_names ++ ns) ++ [n]) eqn:E; [now apply app_eq_nil in E as [_ E]|exact H6].
Qed.

(** The project with an empty directory in the place of a file. *)
Definition changed_table : table :=
  map (fun e => if path_eqb (mkPath true (fst e)) (pth "/home/u/p/D.java") then (fst e, IDir []) else e) project_table.

(** The project, listed in the opposite order. *)
Definition turned_table : table := map (fun e => (fst e, reversed_inode (snd e))) project_table.

Lemma turned_content : same_content (table_disk project_table) (pth "/home/u/p") (table_disk turned_table) (pth "/home/u/p").
Proof.
  assert (F : Forall (fun p => d_kind (table_disk project_table) p = d_kind (table_disk turned_table) p /\
      option_map (@rev jstring) (d_list (table_disk project_table) p) = d_list (table_disk turned_table) p /\
      d_attr (table_disk project_table) p = d_attr (table_disk turned_table) p) (table_paths project_table)).
  { vm_compute. repeat (constructor; [repeat split|]). constructor. }
  rewrite Forall_forall in F. intros ns H.
  apply (listed_closed (table_disk project_table) (pth "/home/u/p") (table_paths project_table)) in H; [|vm_compute; reflexivity|apply path_inb_In; vm_compute; reflexivity].
  destruct (F _ H) as (F1 & F2 & F3). split; [exact F1|]. split.
  - intros _ l E. rewrite E in F2. cbn in F2. exists (rev l). split; [now symmetry|]. apply Permutation_rev.
  - intros _ k E. now rewrite <- F3.
Qed.
