(** * The cases shown with C171 and C172 *)

From Verif Require Import SpecLines PathFacts ScanFacts TreeFacts MetaFacts Cases.
Close Scope Z_scope.

Definition sample_entry : entry :=
  EDir (pth "/home/u") [EFile (pth "/home/u/Zoo") KReg; EDir (pth "/home/u/a") []; EFile (pth "/home/u/b.txt") KReg; EFile (pth "/home/u/link") KDir;
    EDir (pth "/home/u/src") [EDir (pth "/home/u/src/main") [EDir (pth "/home/u/src/main/java")
      [EFile (pth "/home/u/src/main/java/A.java") KReg; EFile (pth "/home/u/src/main/java/B.java") KReg]]]].

Lemma sample_entry_tree : tree_at default_settings sample_disk 0 (pth "/home/u") sample_entry.
Proof.
  apply (handle_tree sample_world sample_disk default_options default_settings sample_steady (default_uses _) 20 0%Z (pth "/home/u") [] sample_entry
           (snd (handle 20 default_options 0%Z (pth "/home/u") (path_filter default_options) sample_world []))).
  vm_compute. reflexivity.
Qed.

Definition leaving : path := pth "/home/u/src/main/java/B.java".

(** The sample file system without [leaving]. *)
Definition left_disk : disk := {|
  d_kind := fun q => if path_eqb leaving q then None else d_kind sample_disk q;
  d_attr := fun q => if path_eqb leaving q then None else d_attr sample_disk q;
  d_list := fun q => if path_eqb leaving q then None else option_map (filter (fun n => negb (path_eqb leaving (child q n)))) (d_list sample_disk q);
  d_length := fun q => if path_eqb leaving q then 0%Z else d_length sample_disk q
|}.
Definition left_world : world := {|
  w_lstat := fun _ => d_kind left_disk;
  w_stat := fun _ => d_attr left_disk;
  w_length := fun _ => d_length left_disk;
  w_open := fun _ q => opt_bind (d_list left_disk q) (fun l => Some (mkDirlist l false));
  w_close_ok := fun _ _ => true;
  w_jvm := sample_jvm
|}.

Lemma left_steady : steady left_world left_disk.
Proof. repeat split. Qed.

Lemma left_deleted : deleted (path_eqb leaving) sample_disk left_disk.
Proof.
  intros q Hq. cbn [left_disk d_kind d_attr d_list]. rewrite Hq. repeat split. intros l El. rewrite El. eexists. split; [reflexivity|apply Permutation_refl].
Qed.

Lemma left_distinct : distinct_names left_disk.
Proof.
  intros q l E. cbn [left_disk d_list] in E. destruct (path_eqb leaving q); [discriminate|]. destruct (d_list sample_disk q) as [l0|] eqn:E0; [|discriminate].
  injection E as <-. apply NoDup_filter. eapply sample_distinct. exact E0.
Qed.

Lemma left_merges : merges_nothing default_settings sample_disk (set_compact true plain_view) (pth "/home/u") leaving.
Proof.
  intros _ d n names c E Hn HP Hc. exfalso. destruct d as [da dn]. pose proof (f_equal p_names E) as En. pose proof (f_equal p_abs E) as Ea. clear E. change (true = da) in Ea. subst da.
  change (names_of "home/u/src/main/java" ++ [js "B.java"] = dn ++ [n]) in En. apply app_inj_tail in En. destruct En as [<- <-].
  vm_compute in Hn. injection Hn as <-.
  assert (Hi : In c (filter (accepts default_settings sample_disk) (map (child (mkPath true (names_of "home/u/src/main/java"))) [js "B.java"; js "A.java"]))).
  { eapply Permutation_in; [symmetry; exact HP|right; now left]. }
  apply filter_In in Hi. destruct Hi as [[<-|[<-|[]]] _]; vm_compute in Hc; discriminate.
Qed.

(** ** A directory *)

Definition leaving_dir : path := pth "/home/u/src".
Definition in_leaving (q : path) : bool := p_abs q && names_eqb (p_names leaving_dir) (firstn (length (p_names leaving_dir)) (p_names q)).

Lemma in_leaving_below q : in_leaving q = true <-> below leaving_dir q.
Proof.
  unfold in_leaving, below. destruct q as [qa qn]. cbn [p_abs p_names]. rewrite andb_true_iff. split.
  - intros [-> H]. apply names_eqb_eq in H. exists (skipn (length (p_names leaving_dir)) qn). change (p_abs leaving_dir) with true. f_equal.
    rewrite H at 1. now rewrite firstn_skipn.
  - intros (ns & E). pose proof (f_equal p_names E) as En. pose proof (f_equal p_abs E) as Ea. cbn [p_names p_abs] in En, Ea. change (qa = true) in Ea. split; [exact Ea|]. apply names_eqb_eq.
    rewrite En. reflexivity.
Qed.

(** The sample file system without [leaving_dir]. *)
Definition bare_disk : disk := {|
  d_kind := fun q => if in_leaving q then None else d_kind sample_disk q;
  d_attr := fun q => if in_leaving q then None else d_attr sample_disk q;
  d_list := fun q => if in_leaving q then None else option_map (filter (fun n => negb (in_leaving (child q n)))) (d_list sample_disk q);
  d_length := fun q => if in_leaving q then 0%Z else d_length sample_disk q
|}.
Definition bare_world : world := {|
  w_lstat := fun _ => d_kind bare_disk;
  w_stat := fun _ => d_attr bare_disk;
  w_length := fun _ => d_length bare_disk;
  w_open := fun _ q => opt_bind (d_list bare_disk q) (fun l => Some (mkDirlist l false));
  w_close_ok := fun _ _ => true;
  w_jvm := sample_jvm
|}.

Lemma bare_steady : steady bare_world bare_disk.
Proof. repeat split. Qed.

Lemma bare_deleted : deleted in_leaving sample_disk bare_disk.
Proof.
  intros q Hq. cbn [bare_disk d_kind d_attr d_list]. rewrite Hq. repeat split. intros l El. rewrite El. eexists. split; [reflexivity|apply Permutation_refl].
Qed.

Lemma bare_distinct : distinct_names bare_disk.
Proof.
  intros q l E. cbn [bare_disk d_list] in E. destruct (in_leaving q); [discriminate|]. destruct (d_list sample_disk q) as [l0|] eqn:E0; [|discriminate].
  injection E as <-. apply NoDup_filter. eapply sample_distinct. exact E0.
Qed.

Lemma leaving_parent d n : leaving_dir = child d n -> d = pth "/home/u".
Proof.
  intro E. destruct d as [da dn]. pose proof (f_equal p_names E) as En. pose proof (f_equal p_abs E) as Ea. clear E. change (true = da) in Ea. subst da.
  change (names_of "home/u" ++ [js "src"] = dn ++ [n]) in En. apply app_inj_tail in En. destruct En as [<- _]. reflexivity.
Qed.

Lemma bare_alone : stands_alone default_settings sample_disk (set_compact true plain_view) (pth "/home/u") leaving_dir.
Proof.
  split.
  - intros _ d n names c E _ _ _. left. eapply leaving_parent. exact E.
  - intros _ _ d n names E _ _. left. eapply leaving_parent. exact E.
Qed.

(** ** With child limits *)

Definition few_limit (p : path) : Z := if jeqb (last_name p) (js "java") then 1%Z else 5%Z.
Definition few_options : options := with_child_limit_fn (fun p => ret (few_limit p)) default_options.
Definition few_settings : settings := set_limit few_limit default_settings.
Definition few_entry : entry :=
  EDir (pth "/home/u") [EFile (pth "/home/u/Zoo") KReg; EDir (pth "/home/u/a") []; EFile (pth "/home/u/b.txt") KReg; EFile (pth "/home/u/link") KDir;
    EDir (pth "/home/u/src") [EDir (pth "/home/u/src/main") [EDir (pth "/home/u/src/main/java")
      [EFile (pth "/home/u/src/main/java/A.java") KReg; ESkipped (pth "/home/u/src/main/java")]]]].

Lemma few_uses w : uses w few_options few_settings.
Proof. apply (uses_limit w default_options default_settings (fun p => ret (few_limit p)) few_limit); [apply default_uses|]. intros p h. now exists h. Qed.

Lemma few_entry_tree : tree_at few_settings sample_disk 0 (pth "/home/u") few_entry.
Proof.
  apply (handle_tree sample_world sample_disk few_options few_settings sample_steady (few_uses _) 20 0%Z (pth "/home/u") [] few_entry
           (snd (handle 20 few_options 0%Z (pth "/home/u") (path_filter few_options) sample_world []))).
  vm_compute. reflexivity.
Qed.

Definition zoo : path := pth "/home/u/Zoo".

(** The sample file system without [zoo]. *)
Definition zoo_disk : disk := {|
  d_kind := fun q => if path_eqb zoo q then None else d_kind sample_disk q;
  d_attr := fun q => if path_eqb zoo q then None else d_attr sample_disk q;
  d_list := fun q => if path_eqb zoo q then None else option_map (filter (fun n => negb (path_eqb zoo (child q n)))) (d_list sample_disk q);
  d_length := fun q => if path_eqb zoo q then 0%Z else d_length sample_disk q
|}.
Definition zoo_world : world := {|
  w_lstat := fun _ => d_kind zoo_disk;
  w_stat := fun _ => d_attr zoo_disk;
  w_length := fun _ => d_length zoo_disk;
  w_open := fun _ q => opt_bind (d_list zoo_disk q) (fun l => Some (mkDirlist l false));
  w_close_ok := fun _ _ => true;
  w_jvm := sample_jvm
|}.

Lemma zoo_steady : steady zoo_world zoo_disk.
Proof. repeat split. Qed.

Lemma zoo_deleted : deleted (path_eqb zoo) sample_disk zoo_disk.
Proof.
  intros q Hq. cbn [zoo_disk d_kind d_attr d_list]. rewrite Hq. repeat split. intros l El. rewrite El. eexists. split; [reflexivity|apply Permutation_refl].
Qed.

Lemma zoo_distinct : distinct_names zoo_disk.
Proof.
  intros q l E. cbn [zoo_disk d_list] in E. destruct (path_eqb zoo q); [discriminate|]. destruct (d_list sample_disk q) as [l0|] eqn:E0; [|discriminate].
  injection E as <-. apply NoDup_filter. eapply sample_distinct. exact E0.
Qed.

Lemma zoo_roomy : roomy few_settings (path_eqb zoo) sample_disk.
Proof.
  intros q names n _ Hn _ Hg _. right. apply path_eqb_eq in Hg. destruct q as [qa qn]. pose proof (f_equal p_names Hg) as En. pose proof (f_equal p_abs Hg) as Ea. clear Hg. change (true = qa) in Ea. subst qa.
  change (names_of "home/u" ++ [js "Zoo"] = qn ++ [n]) in En. apply app_inj_tail in En. destruct En as [<- _]. vm_compute in Hn. injection Hn as <-. vm_compute. discriminate.
Qed.
