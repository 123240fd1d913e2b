(** * A concrete run of the program whose output is read *)

From Verif Require Export SpecReadCli Arguments SpecArgs DocCases ArgsCases CliRefs.
From Verif Require Import PathFacts.
Close Scope Z_scope.

Definition tellableb (n : jstring) : bool :=
  match rev n with [] => false | c :: _ => negb (N.eqb c 42) && negb (N.eqb c 63) end && negb (jeqb n (js "...")) &&
  negb (existsb (N.eqb c_slash) n) && negb (existsb (N.eqb c_nl) n) && negb (existsb (N.eqb c_percent) n).

Lemma absent c n : negb (existsb (N.eqb c) n) = true -> ~ In c n.
Proof.
  intros H Hi. apply Bool.negb_true_iff in H. assert (existsb (N.eqb c) n = true); [|congruence]. apply existsb_exists. exists c. split; [exact Hi|apply N.eqb_refl].
Qed.

Lemma tellableb_ok n : tellableb n = true -> tellable n.
Proof.
  unfold tellableb. intro H. repeat (apply andb_prop in H as [H ?]).
  split; [|split].
  - split; [intros ->; discriminate H|]. split; now apply absent.
  - split; [intros ->; discriminate|]. intro n'. split; intros ->; rewrite rev_app_distr in H; discriminate H.
  - now apply absent.
Qed.

Definition project_files : files := case_files [] [pth "/home/u/p"].
Definition project_cli : cworld := case_cli project_world project_files.

Lemma project_chosen : exists ex, chooses project_cli project_files (mkArgs (Some (pth "p")) None false) (pth "/home/u/p") ex UseDefault.
Proof.
  eexists. eapply ch_fallback with (here := pth "/home/u/.prettyprint") (home := pth "/r/.prettyprint"); [reflexivity| | |].
  - apply (name_resolved ".prettyprint"). vm_compute. reflexivity.
  - apply (plain_resolved _ (pth "/r/.prettyprint")); vm_compute; reflexivity.
  - repeat constructor.
Qed.

Lemma project_tellable ns n : listed project_disk (mkPath true project_names) (ns ++ [n]) -> tellable n.
Proof.
  intro H. apply (listed_closed project_disk _ project_paths) in H; [|vm_compute; reflexivity|apply path_inb_In; vm_compute; reflexivity].
  assert (A : forallb (fun p => match p_names p with [] => true | _ => tellableb (last_name p) end) project_paths = true) by (vm_compute; reflexivity).
  rewrite forallb_forall in A. specialize (A _ H). apply tellableb_ok. unfold deeper, last_name in A. cbn [p_names] in A. rewrite app_assoc, last_last in A.
  destruct ((project_names ++ ns) ++ [n]) eqn:E; [now apply app_eq_nil in E as [_ E]|exact A].
Qed.
