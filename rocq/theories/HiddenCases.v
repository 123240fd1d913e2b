(** * Concrete cases for what has no influence *)

From Verif Require Import SpecHidden SortFacts ScanFacts TreeFacts MetaFacts Cases MetaCases.
Open Scope Z_scope.

(** The sample file system with another file in "a", another size of "b.txt" and other things below "src". *)
Definition busy_table : table := [
  ([], IDir [js "home"]);
  (names_of "home", IDir [js "u"]);
  (names_of "home/u", IDir [js "link"; js "b.txt"; js "src"; js "a"; js "Zoo"]);
  (names_of "home/u/Zoo", IReg 0);
  (names_of "home/u/b.txt", IReg 99);
  (names_of "home/u/a", IDir [js "secret"]);
  (names_of "home/u/a/secret", IReg 1);
  (names_of "home/u/src", IDir []);
  (names_of "home/u/link", ILink (Some TDir))
].
Definition busy_world : world := static_world (table_fs busy_table) sample_jvm.
Definition busy_disk : disk := static_disk (table_fs busy_table) sample_jvm.
Definition four_options : options := with_max_depth 1 (with_child_limit 4 default_options).
Definition four_settings : settings := set_depth 1 (set_limit (fun _ => 4) default_settings).
Definition four_entry : entry :=
  EDir (pth "/home/u") [EFile (pth "/home/u/Zoo") KReg; EDir (pth "/home/u/a") [EMaxDepth 1]; EFile (pth "/home/u/b.txt") KReg;
                        EFile (pth "/home/u/link") KDir; ESkipped (pth "/home/u")].

Lemma four_uses w : uses w four_options four_settings.
Proof. apply uses_depth. apply (uses_limit w default_options default_settings (fun _ => ret 4) (fun _ => 4)); [apply default_uses|]. intros p h. now exists h. Qed.

Lemma four_tree : tree_at four_settings sample_disk 0 (pth "/home/u") four_entry.
Proof.
  apply (handle_tree sample_world sample_disk four_options four_settings sample_steady (four_uses _) 2 0 (pth "/home/u") [] four_entry
           (snd (handle 2 four_options 0 (pth "/home/u") (path_filter four_options) sample_world []))).
  vm_compute. reflexivity.
Qed.
Lemma four_as_shown : as_shown sample_disk busy_disk (pth "/home/u") four_entry.
Proof.
  split; [|split].
  - intros q [->|H]; [reflexivity|]. cbv - [busy_disk sample_disk is_dirb js] in H. repeat destruct H as [<-|H]; try contradiction; vm_compute; reflexivity.
  - intros q H _. cbn [four_entry entry_paths flat_map app] in H. repeat destruct H as [<-|H]; try contradiction; vm_compute; reflexivity.
  - intros q l [<-|[]] E. vm_compute in E. injection E as <-. eexists. split; [vm_compute; reflexivity|].
    apply (Permutation_trans (l' := [js "link"; js "b.txt"; js "src"; js "a"; js "Zoo"])); [|reflexivity].
    apply NoDup_Permutation; [repeat constructor; vm_compute; intuition discriminate|repeat constructor; vm_compute; intuition discriminate|].
    intro x. cbn. intuition congruence.
Qed.
Lemma four_alike : treated_alike sample_disk four_settings four_settings four_entry.
Proof. repeat split. Qed.
