(** * Exit codes *)

From Verif Require Import SpecArgs.

Definition err_kept (s s' : cstate) : Prop := cs_err s' = cs_err s.
Definition err_grown (s s' : cstate) : Prop := exists x, cs_err s' = cs_err s ++ x.
Definition err_more (s s' : cstate) : Prop := exists x, x <> [] /\ cs_err s' = cs_err s ++ x.

Lemma kept_grown s s' : err_kept s s' -> err_grown s s'.
Proof. intro H. exists []. now rewrite app_nil_r. Qed.

Lemma more_grown s s' : err_more s s' -> err_grown s s'.
Proof. intros (x & _ & H). now exists x. Qed.

Lemma grown_more s s1 s' : err_grown s s1 -> err_more s1 s' -> err_more s s'.
Proof.
  intros (x & E) (y & N & E'). exists (x ++ y). split; [|now rewrite E', E, app_assoc]. destruct x; [exact N|discriminate].
Qed.

(** Nothing goes to standard error. *)
Definition silent {A} (m : C A) : Prop := forall w s, err_kept s (snd (m w s)).

Lemma silent_bind {A B} (m : C A) (k : A -> C B) : silent m -> (forall a, silent (k a)) -> silent (cbind m k).
Proof.
  intros Hm Hk w s. unfold cbind. specialize (Hm w s). destruct (m w s) as ([a|e] & s1); cbn in Hm |- *; [|exact Hm].
  unfold err_kept in *. rewrite (Hk a w s1). exact Hm.
Qed.

Lemma silent_ret {A} (a : A) : silent (cret a).
Proof. intros w s. reflexivity. Qed.

Lemma silent_throw {A} e : silent (@cthrow A e).
Proof. intros w s. reflexivity. Qed.

Lemma silent_ask f e p : silent (ask f e p).
Proof. intros w s. reflexivity. Qed.

Lemma silent_absolute p : silent (absolute p).
Proof. intros w s. reflexivity. Qed.

Lemma silent_world : silent get_world.
Proof. intros w s. reflexivity. Qed.

Lemma silent_library {A} (m : M A) : silent (library m).
Proof. intros w s. unfold library. now destruct (m (cw_world w) (cs_hist s)). Qed.

Lemma silent_out msg l : silent (printfln StdOut msg l).
Proof. intros w s. unfold printfln. destruct parse_format; [|reflexivity]. now destruct print_pieces. Qed.

Lemma silent_debug d msg l : silent (print_debug d msg l).
Proof. destruct d; [apply silent_out|apply silent_ret]. Qed.

Lemma silent_reading {A} p (m : C A) : silent m -> silent (reading p m).
Proof. intros H w s. specialize (H w s). unfold reading. now destruct (m w s) as ([a|e] & s1). Qed.

Create HintDb silent.
#[local] Hint Resolve silent_ret silent_throw silent_ask silent_absolute silent_world silent_library silent_out silent_debug : silent.

Ltac quiet := repeat (simple apply silent_bind; [|intros; cbv beta]); auto with silent.

Lemma silent_load d p : silent (load d p).
Proof.
  intros w s. unfold load. destruct (cw_load w s p).
  - reflexivity.
  - exact (silent_reading p _ (silent_bind _ _ (silent_debug d _ _) (fun _ => silent_ret None)) w (log (CLoad p) s)).
  - exact (silent_reading p _ (silent_bind _ _ (silent_debug d _ _) (fun _ => silent_ret (Some x))) w (log (CLoad p) s)).
Qed.

Lemma silent_validate x : silent (validate x).
Proof. destruct x as [x|]; cbn [validate]; [destruct (valid_options x)|]; auto with silent. Qed.
#[local] Hint Resolve silent_load silent_validate : silent.

Lemma silent_simple d p : silent (read_simple d p).
Proof.
  unfold read_simple, file_exists, is_file, can_read. quiet.
  destruct (negb _); [auto with silent|]. quiet. destruct (negb _); [auto with silent|]. quiet. destruct (negb _); [auto with silent|]. quiet.
Qed.
#[local] Hint Resolve silent_simple : silent.

Lemma silent_fallback d l : silent (read_fallback d l).
Proof. induction l as [|p l IH]; cbn [read_fallback]; [quiet|]. apply silent_bind; [auto with silent|]. intros [x|]; [auto with silent|quiet]. Qed.
#[local] Hint Resolve silent_fallback : silent.

Lemma silent_options d t e : silent (load_options d t e).
Proof.
  unfold load_options, read_options. apply silent_bind.
  - destruct e as [p|].
    + apply silent_bind; [auto with silent|]. intros [x|]; auto with silent.
    + apply silent_bind; [auto with silent|]. intros _. apply silent_bind; [auto with silent|]. intro w. apply silent_fallback.
  - intros [x|]; auto with silent.
Qed.
#[local] Hint Resolve silent_options : silent.

Lemma silent_call o p : silent (call_printer o p).
Proof. intros w s. exact (silent_library (pretty_print o p) w (log (CPrint p) s)). Qed.
#[local] Hint Resolve silent_call : silent.

Lemma silent_target a : silent (detect_target a).
Proof. unfold detect_target. quiet. destruct (a_target a); [auto with silent|quiet]. Qed.

(** ** Errors *)

Lemma error_writes msg l w s :
  match print_error msg l w s with (COk _, s') => err_more s s' | (CThrow _, s') => err_grown s s' end.
Proof.
  unfold print_error, printfln.
  change (js "[ERROR] " ++ msg) with (91%N :: js "ERROR] " ++ msg). cbn [app parse_format].
  change (91 =? c_percent)%N with false. cbv iota.
  destruct (parse_format _ _ 0 _) as [ps|]; [|now apply kept_grown].
  cbn [print_pieces]. destruct (print_pieces l ps) as (t & ok). destruct ok; [|eexists; reflexivity].
  eexists. split; [|reflexivity]. discriminate.
Qed.

Definition told (s : cstate) (r : cres Z) (s' : cstate) : Prop :=
  match r with
  | COk c => (c = 0%Z /\ err_kept s s') \/ (c = 1%Z /\ err_more s s')
  | CThrow _ => err_grown s s'
  end.

Definition tells (m : C Z) : Prop := forall w s, let (r, s') := m w s in told s r s'.

Lemma tells_bind {A} (m : C A) (k : A -> C Z) : silent m -> (forall a, tells (k a)) -> tells (cbind m k).
Proof.
  intros Hm Hk w s. unfold cbind. specialize (Hm w s). destruct (m w s) as ([a|e] & s1); cbn in Hm; [|now apply kept_grown].
  specialize (Hk a w s1). destruct (k a w s1) as (r & s2). unfold told, err_kept, err_more, err_grown in *. now rewrite <- Hm.
Qed.

Lemma tells_done : tells (cret 0%Z).
Proof. intros w s. left. now split. Qed.

Lemma tells_error msg l : tells (print_error msg l ~; cret 1%Z).
Proof.
  intros w s. unfold cbind. pose proof (error_writes msg l w s) as H. destruct (print_error msg l w s) as ([u|e] & s1); [|exact H]. right. now split.
Qed.

Lemma told_command a : tells (command a).
Proof.
  unfold command. apply tells_bind; [apply silent_target|]. intro T. apply tells_bind; [apply silent_ask|]. intro x.
  destruct (negb x); [apply tells_error|].
  apply tells_bind; [destruct (a_options a); [quiet|auto with silent]|]. intro f.
  apply tells_bind; [auto with silent|]. intro o. apply tells_bind; [auto with silent|]. intro t. apply tells_bind; [apply silent_out|]. intros _. apply tells_done.
Qed.

Lemma told_cli a w s : (forall e, cw_stack_trace w e <> []) ->
  let (code, s') := run_cli a w s in (code = 0%Z /\ err_kept s s') \/ (code = 1%Z /\ err_more s s').
Proof.
  intro N. unfold run_cli. pose proof (told_command a w s) as H. destruct (command a w s) as ([c|e] & s1); cbn in H; [exact H|].
  unfold handle_exception, cbind, get_world, cret.
  match goal with |- context [print_error ?m [] w s1] => pose proof (error_writes m [] w s1) as H2; destruct (print_error m [] w s1) as ([u|e'] & s2) end.
  - right. split; [reflexivity|]. eapply grown_more; eassumption.
  - right. split; [reflexivity|]. eapply grown_more; [|exists (cw_stack_trace w e'); split; [apply N|reflexivity]].
    destruct H as (x & E), H2 as (y & E'). exists (x ++ y). now rewrite E', E, app_assoc.
Qed.

Lemma exit_lemma : forall pc w s args,
  (forall e, cw_stack_trace w e <> []) -> (forall l, pc_refusal pc l <> []) -> pc_trace pc <> [] ->
  exists code s', execute pc args w s = (code, s') /\
    ((code = 0%Z /\ cs_err s' = cs_err s) \/
     (code = 1%Z /\ exists x, x <> [] /\ cs_err s' = cs_err s ++ x) \/
     (code = 2%Z /\ (exists x, x <> [] /\ cs_err s' = cs_err s ++ x) /\ no_access s s' /\ cs_out s' = cs_out s)).
Proof.
  intros pc w s args N1 N2 N3. unfold execute. destruct requested.
  - pose proof (told_cli a w s N1) as H. destruct (run_cli a w s) as (code & s'). exists code, s'. split; [reflexivity|]. destruct H; [now left|right; now left].
  - do 2 eexists. split; [reflexivity|]. now left.
  - destruct (get_version _); do 2 eexists; (split; [reflexivity|]); [now left|]. right. left. split; [reflexivity|]. now exists (pc_trace pc).
  - do 2 eexists. split; [reflexivity|]. right. right. split; [reflexivity|]. split; [now exists (pc_refusal pc args)|]. now repeat split.
  - do 2 eexists. split; [reflexivity|]. right. left. split; [reflexivity|]. now exists (pc_trace pc).
Qed.
