(** * Options files used by the examples and counterexamples about their contents; the theorems about the command *)

From Verif Require Import PathFacts DocFacts CliFacts CliRefs.
From Verif Require Export SchemaFacts CliCases SpecFormat FormatFacts.
Close Scope Z_scope.

(** ** The command *)

Lemma usual_no_percent l : usual_linesep l -> no_percent l.
Proof. intros [-> | ->]; vm_compute; intuition discriminate. Qed.

Lemma C100_command_lemma w fs a T q t : given w fs a T q t -> usual_linesep (cw_linesep w) ->
  unambiguous t -> plain_numbers t -> conforms t options_schema = true ->
  (filled t /\ numbers_fit t -> exists x, written t x /\ acceptable x /\ chooses w fs a T [q] (UseDocument x) /\ command_uses w a T x) /\
  (~ (filled t /\ numbers_fit t) -> forall s, exists s', run_cli a w s = (1%Z, s') /\ cs_out s' = cs_out s).
Proof.
  intros [G1 G2 G3 G4 (p & G5 & G6) (G7 & G8 & G9) G10] Hl U P C. destruct (C100_reading t _ U P C G10) as [K1 K2]. split.
  - intro F. destruct (K1 F) as (x & E & A & W). exists x. split; [exact W|]. split; [exact A|].
    assert (H : chooses w fs a T [q] (UseDocument x)) by (apply ch_explicit with p; auto; exact (conj G7 (conj G8 (conj G9 (conj E A))))).
    split; [exact H|]. exact (chosen_used w fs a T [q] x Hl G1 G2 G3 G4 H).
  - intros N s. assert (exists msg, chooses w fs a T [q] (Refuse msg)) as [msg Hc].
    { destruct (state_of_file w fs q) as [H|[(x & H)|(msg & H)]].
      - unfold missing in H. congruence.
      - destruct H as (_ & _ & _ & E & A). exfalso. apply N. now apply (K2 x).
      - exists msg. now apply ch_defective with p. }
    destruct (C52_refused_lemma w fs a T [q] msg s G1 (usual_no_percent _ Hl) G2 G3 G4 Hc) as (s' & new & H1 & H2 & _). eauto.
Qed.

Lemma written_chosen w fs a T q t x : given w fs a T q t -> unambiguous t -> acceptable x -> written t x ->
  chooses w fs a T [q] (UseDocument x).
Proof.
  intros [G1 G2 G3 G4 (p & G5 & G6) (G7 & G8 & G9) G10] U A W. apply ch_explicit with p; auto.
  apply read_what_is_written in W; [|exact U|exact A]. apply W in G10. exact (conj G7 (conj G8 (conj G9 (conj G10 A)))).
Qed.

Lemma C102_command_lemma w fs a T q t x : given w fs a T q t -> usual_linesep (cw_linesep w) -> unambiguous t -> acceptable x -> written t x ->
  chooses w fs a T [q] (UseDocument x) /\ command_uses w a T x.
Proof.
  intros G Hls U A W. pose proof (written_chosen w fs a T q t x G U A W) as H. split; [exact H|]. destruct G as [G1 G2 G3 G4 _ _ _].
  exact (chosen_used w fs a T [q] x Hls G1 G2 G3 G4 H).
Qed.

(** ** Checking files *)

Fixpoint everywhere (p : tree -> bool) (t : tree) : bool :=
  p t && match t with
         | TArr l => forallb (everywhere p) l
         | TObj f => (fix go (f : list (jstring * tree)) := match f with [] => true | (_, v) :: f' => everywhere p v && go f' end) f
         | _ => true
         end.

Lemma everywhere_within p t : everywhere p t = true -> forall v, within v t -> p v = true.
Proof.
  intros H v W. induction W as [|l x Hx W IH|f k x Hx W IH].
  - destruct v; cbn [everywhere] in H; apply andb_prop in H; apply H.
  - apply IH. cbn [everywhere] in H. apply andb_prop in H. destruct H as [_ H]. rewrite forallb_forall in H. now apply H.
  - apply IH. cbn [everywhere] in H. apply andb_prop in H. destruct H as [_ H]. clear - H Hx. induction f as [|[k' y] f IHf]; [destruct Hx|].
    apply andb_prop in H. destruct H as [H1 H2]. destruct Hx as [[= _ ->]|Hx]; [exact H1|now apply IHf].
Qed.

Definition tidy (t : tree) : bool :=
  everywhere (fun v => match v with TObj f => distinct_keys f | TFloat _ _ => false | _ => true end) t.

Lemma tidy_unambiguous t : tidy t = true -> unambiguous t.
Proof. intros H f W. apply distinct_keys_iff. apply (everywhere_within _ _ H _ W). Qed.
Lemma tidy_plain t : tidy t = true -> plain_numbers t.
Proof. intros H z b W. discriminate (everywhere_within _ _ H _ W). Qed.

(** ** Files *)

Definition name_glob (g : string) : tree := TObj [(js "type", TStr (js "name")); (js "glob", TStr (js g))].

(** Conforming to the schema: an empty glob, an empty list of matchers, one of limits, a number that does not fit. *)
Definition empty_glob_file : tree := TObj [(js "filter", TObj [(js "file", name_glob "")])].
Definition empty_matchers_file : tree :=
  TObj [(js "filter", TObj [(js "dir", TObj [(js "type", TStr (js "anyOf")); (js "matchers", TArr [])])])].
Definition empty_limits_file : tree := TObj [(js "childLimit", TObj [(js "type", TStr (js "dynamic")); (js "limits", TArr [])])].
Definition big_number_file : tree := TObj [(js "maxDepth", TInt 3000000000)].

(** Not conforming: a misspelt key, a null value, a negative limit other than -1, the key "$schema", a matcher with a key of another. *)
Definition misspelt_file : tree := TObj [(js "maxdepth", TInt 1)].
Definition null_file : tree := TObj [(js "childLimit", TNull)].
Definition limit_file : tree :=
  TObj [(js "childLimit", TObj [(js "type", TStr (js "dynamic"));
    (js "limits", TArr [TObj [(js "limit", TInt (-2)); (js "matcher", TObj [(js "type", TStr (js "everything"))])]])])].
Definition schema_file : tree := TObj [(js "$schema", TStr (js "jfiletreeprettyprinter-options.schema.json")); (js "maxDepth", TInt 1)].
Definition extra_file : tree :=
  TObj [(js "filter", TObj [(js "file", TObj [(js "type", TStr (js "everything")); (js "glob", TStr (js "*.java"))])])].

(** The file of [rich_document]. *)
Definition rich_file : tree :=
  TObj [(js "emojis", TBool false); (js "compactDirectories", TBool true); (js "maxDepth", TInt 5);
        (js "childLimit", TObj [(js "type", TStr (js "dynamic"));
           (js "limits", TArr [TObj [(js "limit", TInt (-1)); (js "matcher", name_glob "src")];
                               TObj [(js "limit", TInt 2); (js "matcher", TObj [(js "type", TStr (js "everything"))])]])]);
        (js "filter", TObj [(js "file", TObj [(js "type", TStr (js "anyOf"));
           (js "matchers", TArr [name_glob "*.java";
              TObj [(js "type", TStr (js "noneOf"));
                    (js "matchers", TArr [TObj [(js "type", TStr (js "path")); (js "glob", TStr (js "b.txt"))];
                                          TObj [(js "type", TStr (js "nothing"))]])]])])]);
        (js "lineExtensions", TArr [TObj [(js "extension", TStr (js " // here"));
           (js "matcher", TObj [(js "type", TStr (js "allOf"));
              (js "matchers", TArr [TObj [(js "type", TStr (js "path")); (js "glob", TStr (js "src"))];
                                    TObj [(js "type", TStr (js "everything"))]])])]])].

(** The same with its keys in another order, comments and unknown keys. *)
Definition shallow_file : tree := TObj [(js "maxDepth", TInt 1)].
Definition commented_file : tree := TObj [(js "comment", TArr [TNull; TFloat 3 false]); (js "maxDepth", TInt 1); (js "$schema", TStr (js "s"))].

(** The options file /home/u/o.yml for the target /home/u. *)
Definition file_case (r : loaded) : files := case_files [(pth "/home/u/o.yml", r)] [pth "/home/u"].
Definition read_loaded (t : tree) : loaded :=
  match bind_options t with Bound x => LoadDoc x | _ => LoadFails end.
Definition file_world (t : tree) : cworld := case_cli sample_world (file_case (read_loaded t)).

Lemma given_case t : t <> TNull -> given (file_world t) (file_case (read_loaded t)) (explicit_args "o.yml") (pth "/home/u") (pth "/home/u/o.yml") t.
Proof.
  intro N. constructor.
  - apply case_steady.
  - reflexivity.
  - apply no_target_resolved.
  - unfold file_case. generalize (read_loaded t). intro r. vm_compute. reflexivity.
  - exists (pth "o.yml"). split; [reflexivity|]. apply (name_resolved "o.yml"). vm_compute. reflexivity.
  - unfold file_case. generalize (read_loaded t). intro r. vm_compute. auto.
  - assert (E : f_load (file_case (read_loaded t)) (pth "/home/u/o.yml") = read_loaded t).
    { unfold file_case. generalize (read_loaded t). intro r. vm_compute. reflexivity. }
    rewrite E. unfold read_loaded, reads_as. destruct t; try contradiction; try exact I. now destruct (bind_options (TObj fields)).
Qed.

(** A conforming file the command refuses. *)
Definition refused_though_conforming (t : tree) : Prop :=
  conforms t options_schema = true /\ unambiguous t /\ plain_numbers t /\
  exists w fs a T q, given w fs a T q t /\ fst (run_cli a w cli_start) = 1%Z /\ cs_out (snd (run_cli a w cli_start)) = [].

Lemma refused_case t : t <> TNull -> tidy t = true -> conforms t options_schema = true ->
  (let r := run_cli (explicit_args "o.yml") (file_world t) cli_start in (fst r, cs_out (snd r)) = (1%Z, [])) -> refused_though_conforming t.
Proof.
  intros N Ti C R. split; [exact C|]. split; [now apply tidy_unambiguous|]. split; [now apply tidy_plain|].
  do 5 eexists. split; [now apply given_case|]. cbv zeta in R. injection R as R1 R2. now split.
Qed.

Lemma C99_counterexamples : Forall refused_though_conforming [empty_glob_file; empty_matchers_file; empty_limits_file; big_number_file].
Proof. repeat (apply Forall_cons; [apply refused_case; [discriminate|vm_compute; reflexivity..]|]). apply Forall_nil. Qed.

(** A file that does not conform and that the command accepts. *)
Definition accepted_though_not_conforming (t : tree) : Prop :=
  conforms t options_schema = false /\ unambiguous t /\ plain_numbers t /\ (exists x, read_as t x /\ acceptable x) /\
  exists w fs a T q, given w fs a T q t /\ fst (run_cli a w cli_start) = 0%Z.

Lemma accepted_case t : t <> TNull -> tidy t = true -> conforms t options_schema = false ->
  match bind_options t with Bound x => valid_options x = true | _ => False end ->
  fst (run_cli (explicit_args "o.yml") (file_world t) cli_start) = 0%Z -> accepted_though_not_conforming t.
Proof.
  intros N Ti C V R. split; [exact C|]. split; [now apply tidy_unambiguous|]. split; [now apply tidy_plain|]. split.
  - destruct (bind_options t) as [x| |] eqn:E; try contradiction. exists x. split; [now apply read_as_bound|now apply valid_options_iff].
  - do 5 eexists. split; [now apply given_case|exact R].
Qed.

Lemma C101_counterexamples : Forall accepted_though_not_conforming [misspelt_file; null_file; limit_file; schema_file; extra_file].
Proof. repeat (apply Forall_cons; [apply accepted_case; [discriminate|vm_compute; reflexivity..]|]). apply Forall_nil. Qed.
