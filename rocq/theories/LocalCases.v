(** * The case shown with C179 *)

From Verif Require Import SpecLocal PathFacts ScanFacts TreeFacts ScanPrintFacts SortFacts BuilderFacts MetaFacts Cases LinesCases.
Open Scope Z_scope.

Definition new_file : path := pth "/home/u/src/T".

(** The sample file system with other contents of /home/u/src: one file of 9 bytes. *)
Definition refilled_disk : disk := {|
  d_kind := fun q => if in_leaving q then (if path_eqb leaving_dir q then Some KDir else if path_eqb new_file q then Some KReg else None) else d_kind sample_disk q;
  d_attr := fun q => if in_leaving q then (if path_eqb leaving_dir q then Some KDir else if path_eqb new_file q then Some KReg else None) else d_attr sample_disk q;
  d_list := fun q => if in_leaving q then (if path_eqb leaving_dir q then Some [js "T"] else None) else d_list sample_disk q;
  d_length := fun q => if in_leaving q then (if path_eqb new_file q then 9 else 0) else d_length sample_disk q
|}.
Definition refilled_world : world := {|
  w_lstat := fun _ => d_kind refilled_disk;
  w_stat := fun _ => d_attr refilled_disk;
  w_length := fun _ => d_length refilled_disk;
  w_open := fun _ q => opt_bind (d_list refilled_disk q) (fun l => Some (mkDirlist l false));
  w_close_ok := fun _ _ => true;
  w_jvm := sample_jvm
|}.

Lemma refilled_steady : steady refilled_world refilled_disk.
Proof. repeat split. Qed.

Lemma out_of_leaving q : ~ below leaving_dir q -> in_leaving q = false.
Proof. intro H. destruct (in_leaving q) eqn:E; [|reflexivity]. destruct H. now apply in_leaving_below. Qed.

Lemma refilled_same : same_except leaving_dir sample_disk refilled_disk.
Proof.
  split; [vm_compute; reflexivity|]. split; [vm_compute; reflexivity|]. intros q Hq. cbn [refilled_disk d_kind d_attr d_list]. rewrite (out_of_leaving q Hq).
  split; [reflexivity|]. split; [reflexivity|]. destruct (d_list sample_disk q); [apply Permutation_refl|exact I].
Qed.

Definition sized_options : options := with_sort BY_FILE_SIZE compact_options.
Definition sized_settings (dk : disk) : settings :=
  mkSettings (fun _ => true) (fun _ => true) (fun _ => -1) (then_by (by_size (is_dirb dk) (d_length dk)) alphabetical) 20.

Lemma sized_uses w dk : steady w dk -> uses w sized_options (sized_settings dk).
Proof. intro Hw. exact (sort_uses _ _ _ (by_file_size_answers _ _ Hw)). Qed.

Lemma sized_sees w : sees w sized_options (set_compact true plain_view).
Proof. exact (compact_sees w). Qed.

Lemma sized_configured w dk : steady w dk -> configured_order (s_cmp (sized_settings dk)).
Proof.
  intro Hw. refine (configured_of _ _ _ (sized_uses w dk Hw) (or_intror _)). exists BY_FILE_SIZE, (by_size (is_dirb dk) (d_length dk)).
  split; [apply contract_by_size|]. split; [now apply by_file_size_answers|reflexivity].
Qed.

Lemma sized_except : settings_except leaving_dir (sized_settings sample_disk) (sized_settings refilled_disk).
Proof.
  split; [reflexivity|]. split; [split; reflexivity|]. split; [reflexivity|].
  assert (H : forall q, ~ below leaving_dir q \/ q = leaving_dir ->
            (if is_dirb sample_disk q then 0 else d_length sample_disk q) = (if is_dirb refilled_disk q then 0 else d_length refilled_disk q)).
  { intros q [Hq | ->]; [|vm_compute; reflexivity]. unfold is_dirb. cbn [refilled_disk d_kind d_length]. now rewrite (out_of_leaving q Hq). }
  intros a b Ha Hb. cbn [sized_settings s_cmp]. unfold then_by, by_size. now rewrite (H a Ha), (H b Hb).
Qed.
