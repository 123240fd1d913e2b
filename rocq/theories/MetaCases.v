(** * Concrete cases for the comparison of two runs *)

From Verif Require Import SpecMeta SortFacts ScanFacts TreeFacts MetaFacts Cases.
Open Scope Z_scope.

(** A copy of /home/u at /copy/u, in which the listings come in the reverse order. *)
Definition copy_table : table :=
  ([], IDir [js "copy"]) :: (names_of "copy", IDir [js "u"]) ::
  map (fun e => (js "copy" :: tl (fst e), reversed_inode (snd e)))
      (filter (fun e => jprefixb (js "home") (hd [] (fst e)) && (1 <? Z.of_nat (length (fst e)))) sample_table).
Definition copy_world : world := static_world (table_fs copy_table) sample_jvm.
Definition copy_disk : disk := static_disk (table_fs copy_table) sample_jvm.

Lemma copy_steady : steady copy_world copy_disk.
Proof. apply static_steady. Qed.
Lemma copy_distinct : distinct_names copy_disk.
Proof. apply table_distinct. vm_compute. reflexivity. Qed.

(** All that is listed at and below /home/u. *)
Definition listed_names : list (list jstring) :=
  map names_of [""; "Zoo"; "b.txt"; "a"; "src"; "link"; "src/main"; "src/main/java"; "src/main/java/B.java"; "src/main/java/A.java"]%string.

Lemma names_eqb_eq a b : names_eqb a b = true -> a = b.
Proof.
  revert b. induction a as [|x a IH]; intros [|y b] E; cbn in E; try discriminate; [reflexivity|].
  apply andb_prop in E. destruct E as [E1 E2]. f_equal; [|now apply IH].
  clear -E1. revert y E1. induction x as [|u x IH]; intros [|v y] E; cbn in E; try discriminate; [reflexivity|].
  apply andb_prop in E. destruct E as [E1 E2]. apply N.eqb_eq in E1. subst. f_equal. now apply IH.
Qed.

Lemma listed_in dk r (L : list (list jstring)) :
  existsb (names_eqb []) L = true ->
  forallb (fun ns => match d_list dk (deeper r ns) with
                     | Some l => forallb (fun n => existsb (names_eqb (ns ++ [n])) L) l
                     | None => true
                     end) L = true ->
  forall ns, listed dk r ns -> In ns L.
Proof.
  intros H0 H ns Hl. induction Hl as [|ns l n Hl IH _ E Hin].
  - apply existsb_exists in H0. destruct H0 as (x & Hx & Ex). apply names_eqb_eq in Ex. now subst.
  - rewrite forallb_forall in H. specialize (H ns IH). rewrite E in H. rewrite forallb_forall in H. specialize (H n Hin).
    apply existsb_exists in H. destruct H as (x & Hx & Ex). apply names_eqb_eq in Ex. now subst.
Qed.

Lemma sample_listed ns : listed sample_disk (pth "/home/u") ns -> In ns listed_names.
Proof. apply listed_in; vm_compute; reflexivity. Qed.

Lemma copy_content : same_content sample_disk (pth "/home/u") copy_disk (pth "/copy/u").
Proof.
  intros ns Hns. apply sample_listed in Hns. revert ns Hns.
  assert (Hk : map (fun ns => (d_kind sample_disk (deeper (pth "/home/u") ns), d_attr sample_disk (deeper (pth "/home/u") ns))) listed_names =
               map (fun ns => (d_kind copy_disk (deeper (pth "/copy/u") ns), d_attr copy_disk (deeper (pth "/copy/u") ns))) listed_names)
    by (vm_compute; reflexivity).
  assert (Hl : map (fun ns => d_list copy_disk (deeper (pth "/copy/u") ns)) listed_names =
               map (fun ns => option_map (@rev jstring) (d_list sample_disk (deeper (pth "/home/u") ns))) listed_names)
    by (vm_compute; reflexivity).
  generalize dependent listed_names. intros L Hk Hl. induction L as [|x L IH]; intros ns Hns; [contradiction|]. cbn [map] in Hk, Hl. destruct Hns as [<-|Hns].
  - apply (f_equal (hd (None, None))) in Hk. apply (f_equal (hd None)) in Hl. cbn [hd] in Hk, Hl.
    split; [exact (f_equal fst Hk)|]. split; [|intros _ k E; rewrite <- E; symmetry; exact (f_equal snd Hk)].
    intros _ l1 E. rewrite Hl, E. exists (rev l1). split; [reflexivity|apply Permutation_rev].
  - apply IH; [exact (f_equal (@tl _) Hk)|exact (f_equal (@tl _) Hl)|exact Hns].
Qed.

Lemma alphabetical_moves r1 r2 ns a b :
  alphabetical (deeper r1 (ns ++ [a])) (deeper r1 (ns ++ [b])) = alphabetical (deeper r2 (ns ++ [a])) (deeper r2 (ns ++ [b])).
Proof.
  assert (E : forall r n, alpha_key (deeper r (ns ++ [n])) = alpha_key (mkPath false [n])).
  { intros r n. unfold alpha_key, get_file_name, deeper. cbn [p_names]. now rewrite app_assoc, rev_app_distr. }
  unfold alphabetical. now rewrite !E.
Qed.

Lemma default_moves dk r1 r2 : same_settings dk default_settings r1 default_settings r2.
Proof.
  split; [intros; split; reflexivity|]. split; [reflexivity|]. intros ns a b _ _. f_equal. apply alphabetical_moves.
Qed.

Lemma plain_moves dk r1 r2 : same_view dk plain_view r1 plain_view r2.
Proof. split; [reflexivity|]. intros; split; reflexivity. Qed.

(** Limits and filters. *)
Definition first_two (p : path) : Z := if jeqb (last_name p) (js "java") then 1 else 2.
Definition not_a (p : path) : bool := negb (jeqb (last_name p) (js "a") || jeqb (last_name p) (js "main")).
Definition not_zoo (p : path) : bool := negb (jeqb (last_name p) (js "Zoo")).

(** The sample file system without "Zoo" and without "src/main" and what is below it. *)
Definition gone (q : path) : bool := existsb (fun d => names_eqb (p_names d) (firstn (length (p_names d)) (p_names q))) [pth "/home/u/Zoo"; pth "/home/u/src/main"].
Definition fewer_disk : disk := {|
  d_kind := fun q => if gone q then None else d_kind sample_disk q;
  d_attr := fun q => if gone q then None else d_attr sample_disk q;
  d_list := fun q => if gone q then None else option_map (filter (fun n => negb (gone (child q n)))) (d_list sample_disk q);
  d_length := fun q => if gone q then 0 else d_length sample_disk q
|}.
Definition fewer_world : world := {|
  w_lstat := fun _ => d_kind fewer_disk;
  w_stat := fun _ => d_attr fewer_disk;
  w_length := fun _ => d_length fewer_disk;
  w_open := fun _ q => opt_bind (d_list fewer_disk q) (fun l => Some (mkDirlist l false));
  w_close_ok := fun _ _ => true;
  w_jvm := sample_jvm
|}.

Lemma fewer_steady : steady fewer_world fewer_disk.
Proof. repeat split. Qed.

Lemma fewer_deleted : deleted gone sample_disk fewer_disk.
Proof.
  intros q Hq. cbn [fewer_disk d_kind d_attr d_list]. rewrite Hq. repeat split. intros l El. rewrite El. eexists. split; [reflexivity|apply Permutation_refl].
Qed.

Lemma fewer_distinct : distinct_names sample_disk -> distinct_names fewer_disk.
Proof.
  intros H q l E. cbn [fewer_disk d_list] in E. destruct (gone q); [discriminate|]. destruct (d_list sample_disk q) as [l0|] eqn:E0; [|discriminate].
  injection E as <-. apply NoDup_filter. eapply H. exact E0.
Qed.
