(** * Facts about the documents that are accepted *)

From Verif Require Export SpecCli.
From Coq Require Import Lia.
Close Scope Z_scope.

(** Induction over the matchers of documents. *)
Lemma xmatcher_ind' (Q : xmatcher -> Prop) :
  Q XmNull -> Q XmTrue -> Q XmFalse ->
  (forall l, Forall Q l -> Q (XmAllOf (Some l)) /\ Q (XmAnyOf (Some l)) /\ Q (XmNoneOf (Some l))) ->
  Q (XmAllOf None) -> Q (XmAnyOf None) -> Q (XmNoneOf None) ->
  (forall g, Q (XmName g)) -> (forall g, Q (XmPath g)) -> forall m, Q m.
Proof.
  intros Hn Ht Hf Hl Ha Hy Ho Hname Hpath. fix IH 1. intros [| | |[l|]|[l|]|[l|]|g|g]; try assumption; try apply Hname; try apply Hpath;
  (assert (F : Forall Q l) by (induction l as [|x l IHl]; constructor; [apply IH|exact IHl])); apply (Hl l F).
Qed.

Lemma valid_matchers l : Forall (fun m => valid_matcher m = true <-> usable_matcher m) l ->
  match l with x :: l' => valid_matcher x && forallb valid_matcher l' | [] => false end = true <->
  l <> [] /\ forall m, In m l -> usable_matcher m.
Proof.
  intro F. assert (K : forallb valid_matcher l = true <-> forall m, In m l -> usable_matcher m).
  { rewrite forallb_forall. rewrite Forall_forall in F. split; intros H m Hm; apply (F m Hm), H, Hm. }
  destruct l as [|x l]; [split; [discriminate|intros [[] _]; reflexivity]|].
  change (forallb valid_matcher (x :: l) = true <-> x :: l <> [] /\ forall m, In m (x :: l) -> usable_matcher m).
  rewrite K. split; [intro H; split; [discriminate|exact H]|intros [_ H]; exact H].
Qed.

Lemma valid_matcher_iff m : valid_matcher m = true <-> usable_matcher m.
Proof.
  apply (xmatcher_ind' (fun m => valid_matcher m = true <-> usable_matcher m)); clear m;
    try (split; [discriminate|intro H; inversion H]; fail); try (split; [constructor|reflexivity]; fail).
  - intros l F. apply valid_matchers in F. cbn [valid_matcher]. rewrite F.
    repeat split; try (now constructor); try (intros [? ?]; now constructor); match goal with H : usable_matcher _ |- _ => inversion H; assumption end.
  - intros [[|c g]|]; cbn [valid_matcher valid_glob]; split; intro H; try discriminate; try (inversion H; congruence); constructor; discriminate.
  - intros [[|c g]|]; cbn [valid_matcher valid_glob]; split; intro H; try discriminate; try (inversion H; congruence); constructor; discriminate.
Qed.

Lemma valid_or_null_iff m : valid_or_null m = true <-> m = XmNull \/ usable_matcher m.
Proof.
  destruct m; [split; [now left|reflexivity]|..]; (match goal with |- valid_or_null ?m = true <-> _ => change (valid_matcher m = true <-> m = XmNull \/ usable_matcher m) end);
    rewrite valid_matcher_iff; (split; [now right|intros [H|H]; [discriminate|exact H]]).
Qed.

Lemma valid_item_iff i : valid_item i = true <-> exists n m, i = Some (mkXItem (Some n) m) /\ usable_matcher m.
Proof.
  destruct i as [[[n|] m]|]; cbn [valid_item xi_limit xi_matcher is_some]; (split; [|intros (n' & m' & E & H)]); try discriminate.
  - intro H. exists n, m. split; [reflexivity|]. now apply valid_matcher_iff.
  - injection E as -> ->. now apply valid_matcher_iff.
Qed.

Lemma valid_extension_iff i : valid_extension i = true <-> exists s m, i = Some (mkXExtension (Some s) m) /\ usable_matcher m.
Proof.
  destruct i as [[[n|] m]|]; cbn [valid_extension xe_extension xe_matcher is_some]; (split; [|intros (n' & m' & E & H)]); try discriminate.
  - intro H. exists n, m. split; [reflexivity|]. now apply valid_matcher_iff.
  - injection E as -> ->. now apply valid_matcher_iff.
Qed.

Theorem valid_options_iff x : valid_options x = true <-> acceptable x.
Proof.
  unfold valid_options. rewrite !Bool.andb_true_iff. split.
  - intros [[Hl Hf] He]. constructor.
    + intros l E. rewrite E in Hl. destruct l as [[n|]|[[|i l]|]]; try discriminate.
      * left. now exists n.
      * right. exists (i :: l). split; [reflexivity|]. split; [discriminate|]. rewrite forallb_forall in Hl.
        intros k Hk. now apply valid_item_iff, Hl.
    + intros f E. rewrite E in Hf. apply Bool.andb_true_iff in Hf. now rewrite !valid_or_null_iff in Hf.
    + intros l E. rewrite E in He. rewrite forallb_forall in He. intros e Hi. now apply valid_extension_iff, He.
  - intros [Hl Hf He]. repeat split.
    + destruct (x_child_limit x) as [l|]; [|reflexivity]. destruct (Hl l eq_refl) as [(n & ->)|(items & -> & Hn & H)]; [reflexivity|].
      destruct items as [|i items]; [contradiction|]. apply forallb_forall. intros k Hk. now apply valid_item_iff, H.
    + destruct (x_filter x) as [f|]; [|reflexivity]. apply Bool.andb_true_iff. rewrite !valid_or_null_iff. now apply Hf.
    + destruct (x_line_extensions x) as [l|]; [|reflexivity]. apply forallb_forall. intros e Hi. apply valid_extension_iff. now apply (He l).
Qed.

Lemma invalid_options_iff x : valid_options x = false <-> ~ acceptable x.
Proof. rewrite <- valid_options_iff. destruct (valid_options x); split; congruence. Qed.

Lemma is_good fs p x : f_exists fs p = true -> f_is_file fs p = true -> f_can_read fs p = true -> f_load fs p = LoadDoc x ->
  valid_options x = true -> good fs p x.
Proof. intros. do 4 (split; [assumption|]). now apply valid_options_iff. Qed.

Theorem C78_lemma : forall x w s,
  (acceptable x <-> fst (validate (Some x) w s) = COk x) /\
  (~ acceptable x <-> fst (validate (Some x) w s) = CThrow (XViolations x)) /\
  snd (validate (Some x) w s) = s.
Proof.
  intros x w s. rewrite <- valid_options_iff. cbn [validate]. destruct (valid_options x); cbn; repeat split; congruence.
Qed.
