(** * Proofs about the text of --version *)

From Verif Require Import SpecVersion SortFacts.
Open Scope nat_scope.

Lemma lower_same : forall c d, lower_ascii c = lower_ascii d <-> same_letter c d.
Proof.
  intros c d. unfold lower_ascii, same_letter.
  destruct (N.leb_spec 65 c); destruct (N.leb_spec c 90); destruct (N.leb_spec 65 d); destruct (N.leb_spec d 90); cbn [andb]; lia.
Qed.
Lemma same_attribute_name : forall a b, same_attribute a b = true <-> same_name a b.
Proof.
  unfold same_attribute, same_name. intros a b.
  assert (E : jeqb (map lower_ascii a) (map lower_ascii b) = true <-> map lower_ascii a = map lower_ascii b).
  { split; [apply jeqb_eq|]. intros ->. apply jeqb_eq. reflexivity. }
  rewrite E. clear E. revert b. induction a as [|c a IH]; intros [|d b]; cbn [map]; split; intros H; try discriminate; try constructor;
    try (inversion H; fail).
  - apply lower_same. congruence.
  - apply IH. congruence.
  - inversion H; subst. f_equal; [apply lower_same|apply IH]; assumption.
Qed.

Lemma get_value_none : forall l n, get_value l n = None <-> lacks_attribute l n.
Proof.
  intros l n. induction l as [|[k v] l IH]; cbn [get_value].
  - split; [intros _ k v []|reflexivity].
  - destruct (get_value l n) eqn:G.
    + split; [discriminate|]. intros H. exfalso. assert (E : Some l0 = None) by (apply IH; intros k' v' I; apply (H k' v'); right; exact I).
      discriminate.
    + destruct (same_attribute k n) eqn:S.
      * split; [discriminate|]. intros H. exfalso. apply (H k v); [left; reflexivity|]. apply same_attribute_name. exact S.
      * split; [|reflexivity]. intros _ k' v' [E|I] N.
        -- injection E as -> ->. apply same_attribute_name in N. congruence.
        -- apply (proj1 IH eq_refl k' v' I N).
Qed.
Lemma get_value_some : forall l n v, get_value l n = Some v <-> has_attribute l n v.
Proof.
  intros l n. induction l as [|[k x] l IH]; intros v; cbn [get_value].
  - split; [discriminate|]. intros (b & k & a & E & _). destruct b; discriminate.
  - destruct (get_value l n) as [y|] eqn:G.
    + split.
      * intros E. injection E as ->. destruct (proj1 (IH v) eq_refl) as (b & k' & a & -> & S & L).
        exists ((k, x) :: b), k', a. repeat split; assumption.
      * intros (b & k' & a & E & S & L). apply IH. destruct b as [|p b]; cbn [app] in E.
        -- injection E as -> -> ->. apply get_value_none in L. congruence.
        -- injection E as _ ->. exists b, k', a. repeat split; assumption.
    + assert (L : lacks_attribute l n) by (apply get_value_none; exact G). destruct (same_attribute k n) eqn:S.
      * split.
        -- intros E. injection E as ->. exists [], k, l. split; [reflexivity|]. split; [apply same_attribute_name; exact S|exact L].
        -- intros (b & k' & a & E & S' & L'). destruct b as [|p b]; cbn [app] in E; [injection E as _ -> _; reflexivity|].
           injection E as _ ->. exfalso. apply (L k' v); [|exact S']. apply in_or_app. right. left. reflexivity.
      * split; [discriminate|]. intros (b & k' & a & E & S' & L'). destruct b as [|p b]; cbn [app] in E.
        -- injection E as -> -> ->. apply same_attribute_name in S'. congruence.
        -- injection E as _ ->. exfalso. apply (L k' v); [|exact S']. apply in_or_app. right. left. reflexivity.
Qed.

Lemma displayed_value : forall l n, displayed l n (value_or_unknown (get_value l n)).
Proof.
  intros l n. destruct (get_value l n) eqn:G; cbn [value_or_unknown]; [left; apply get_value_some; exact G|].
  right. split; [apply get_value_none; exact G|reflexivity].
Qed.
Lemma displayed_unique : forall l n v, displayed l n v -> v = value_or_unknown (get_value l n).
Proof.
  intros l n v [H|[H ->]].
  - apply get_value_some in H. rewrite H. reflexivity.
  - apply get_value_none in H. rewrite H. reflexivity.
Qed.
Lemma get_resource_after : forall before r after, no_manifest before -> get_resource (before ++ Some r :: after) = Some r.
Proof. intros b r a H. induction H as [|x l E H IH]; cbn [app get_resource]; [reflexivity|]. rewrite E. exact IH. Qed.
Lemma get_resource_none : forall l, no_manifest l -> get_resource l = None.
Proof. intros l H. induction H as [|x l E H IH]; cbn [get_resource]; [reflexivity|]. rewrite E. exact IH. Qed.

Lemma version_first : forall before attributes after lines, no_manifest before ->
  (get_version (before ++ Some (MainAttributes attributes) :: after) = Some lines <-> version_text attributes lines).
Proof.
  intros b l a lines H. unfold get_version. rewrite (get_resource_after _ _ _ H). split.
  - intros E. injection E as <-. unfold version_text.
    do 6 eexists. do 6 (split; [apply displayed_value|]). reflexivity.
  - intros (v & d & i & t & u & bt & H1 & H2 & H3 & H4 & H5 & H6 & ->).
    apply displayed_unique in H1, H2, H3, H4, H5, H6. subst. reflexivity.
Qed.
Lemma version_malformed : forall before after, no_manifest before -> get_version (before ++ Some Malformed :: after) = None.
Proof. intros b a H. unfold get_version. rewrite (get_resource_after _ _ _ H). reflexivity. Qed.
Lemma version_none : forall places, no_manifest places ->
  get_version places = Some (map js ["JFileTreePrettyPrinter unknown"; "unknown"; "Repository: unknown"; "Commit: unknown (unknown)"; "Built on: unknown"]%string).
Proof. intros l H. unfold get_version. rewrite (get_resource_none _ H). reflexivity. Qed.

Lemma get_value_app : forall l1 l2 n, get_value (l1 ++ l2) n = match get_value l2 n with Some v => Some v | None => get_value l1 n end.
Proof.
  intros l1 l2 n. induction l1 as [|[k v] l1 IH]; cbn [app get_value]; [destruct (get_value l2 n); reflexivity|].
  rewrite IH. destruct (get_value l2 n); reflexivity.
Qed.
Lemma version_built : forall before after version built id time desc url more, no_manifest before ->
  get_version (before ++ Some (built_manifest version built id time desc url more) :: after) =
  Some [ js "JFileTreePrettyPrinter " ++ version; desc; js "Repository: " ++ url; js "Commit: " ++ id ++ js " (" ++ time ++ js ")"; js "Built on: " ++ built ].
Proof.
  intros b a v bt i t d u more H. unfold get_version, built_manifest. rewrite (get_resource_after _ _ _ H). rewrite !get_value_app. reflexivity.
Qed.
Lemma version_counterexample : exists before own after lines,
  get_version [Some own] = Some lines /\ get_version (before ++ Some own :: after) <> Some lines.
Proof.
  exists [Some (MainAttributes [(js "Manifest-Version", js "1.0"); (js "Implementation-Version", js "2.20")])].
  exists (built_manifest (js "0.4") (js "today") (js "8a70ef7") (js "yesterday") (js "a library") (js "https://x") []), [].
  eexists. split; [reflexivity|]. vm_compute. discriminate.
Qed.
