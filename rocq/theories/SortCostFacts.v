(** * Proofs about what a run costs when the functions in the options access the file system *)

From Coq Require Import Lia Arith.
From Verif Require Import SpecSortCost CompareFacts ComparedFacts CallFacts RenderFacts ScanFacts HistFacts ShownFacts PrintFacts SortFacts.
Open Scope nat_scope.

(** ** The orders of the library *)

Lemma cost_bind A B w (m : M A) (f : A -> M B) i j h :
  length (snd (m w h)) <= length h + i -> (forall a h', length (snd (f a w h')) <= length h' + j) -> length (snd (bind m f w h)) <= length h + (i + j).
Proof. intros H1 H2. unfold bind. destruct (m w h) as [[a|x] h1]; cbn [snd] in *; [|lia]. specialize (H2 a h1). lia. Qed.

Lemma cost_more w A (m : M A) i j h : length (snd (m w h)) <= length h + i -> i <= j -> length (snd (m w h)) <= length h + j.
Proof. lia. Qed.

Lemma cost_is_dir w p h : length (snd (pm_is_directory p w h)) <= length h + 1.
Proof. unfold pm_is_directory. rewrite has_kind_run. cbn. lia. Qed.

Lemma cost_comparing w k key : at_most w k key -> compares_at_most w (2 * k) (comparing key).
Proof.
  intros H a b h. unfold comparing. replace (2 * k) with (k + (k + 0)) by lia. apply cost_bind; [apply H|]. intros x h1. apply cost_bind; [apply H|].
  intros y h2. cbn. lia.
Qed.

Lemma cost_then w i j c1 c2 : compares_at_most w i c1 -> compares_at_most w j c2 -> compares_at_most w (i + j) (then_comparing c1 c2).
Proof. intros H1 H2 a b h. unfold then_comparing. apply cost_bind; [apply H1|]. intros z h1. destruct (z =? 0)%Z; [apply H2|cbn; lia]. Qed.

Lemma cost_reversed w k c : compares_at_most w k c -> compares_at_most w k (reversed c).
Proof. intros H a b h. apply H. Qed.

Lemma cost_alphabetical w : compares_at_most w 0 ALPHABETICAL.
Proof. intros a b h. cbn. lia. Qed.

Lemma cost_file_size w : compares_at_most w 4 BY_FILE_SIZE.
Proof.
  change 4 with (2 * 2). apply cost_comparing. intros p h. change 2 with (1 + 1). apply cost_bind; [apply cost_is_dir|].
  intros [] h1; cbn; lia.
Qed.

Lemma cost_directory_first w : compares_at_most w 2 DIRECTORY_FIRST.
Proof.
  intros a b h. unfold DIRECTORY_FIRST. change 2 with (1 + (1 + 0)). apply cost_bind; [apply cost_is_dir|]. intros x h1. apply cost_bind; [apply cost_is_dir|].
  intros y h2. cbn. lia.
Qed.

Lemma cost_extension w : compares_at_most w 2 BY_EXTENSION.
Proof.
  intros a b h. unfold BY_EXTENSION. change 2 with (1 + (1 + 0)). apply cost_bind; [apply cost_is_dir|]. intros x h1. apply cost_bind; [apply cost_is_dir|].
  intros y h2. destruct x; [|destruct y]; cbn; lia.
Qed.

Lemma cost_rules w k rules : Forall (at_most w k) rules -> forall r p h, length (snd (sort_precedence_loop r rules p w h)) <= length h + length rules * k.
Proof.
  induction 1 as [|rule rules H1 H2 IH]; intros r p h; cbn [sort_precedence_loop length Nat.mul]; [cbn; lia|].
  apply cost_bind; [apply H1|]. intros z h1. destruct (negb _); [cbn; lia|apply IH].
Qed.

Lemma cost_built w k rules : Forall (at_most w k) rules -> compares_at_most w (2 * (length rules * k)) (sort_build rules).
Proof.
  intro H. unfold sort_build. rewrite <- (Nat.add_0_r (2 * (length rules * k))). apply cost_then; [|apply cost_alphabetical].
  apply cost_comparing. intros p h. apply cost_rules. exact H.
Qed.

Theorem orders_cost w :
  compares_at_most w 0 ALPHABETICAL /\ compares_at_most w 4 BY_FILE_SIZE /\ compares_at_most w 2 DIRECTORY_FIRST /\
  compares_at_most w 2 DIRECTORY_LAST /\ compares_at_most w 2 BY_EXTENSION /\
  (forall i j c1 c2, compares_at_most w i c1 -> compares_at_most w j c2 -> compares_at_most w (i + j) (then_comparing c1 c2)) /\
  (forall k c, compares_at_most w k c -> compares_at_most w k (reversed c)) /\
  (forall k rules, Forall (at_most w k) rules -> compares_at_most w (2 * (length rules * k)) (sort_build rules)).
Proof.
  split; [apply cost_alphabetical|]. split; [apply cost_file_size|]. split; [apply cost_directory_first|].
  split; [apply cost_reversed, cost_directory_first|]. split; [apply cost_extension|]. split; [intros; now apply cost_then|].
  split; [intros; now apply cost_reversed|intros; now apply cost_built].
Qed.

(** ** One sort *)

Lemma run_sorting_length w k c : compares_at_most w k c -> forall s n, costs n s -> forall h, length (snd (run_sorting c s w h)) <= length h + n * k.
Proof.
  intros Hc s. induction s as [l| | |a b f IH]; intros n H h; cbn [run_sorting]; try (unfold ret, throw; cbn [snd]; lia).
  destruct n as [|n]; [destruct H|]. cbn [costs Nat.mul] in *. apply cost_bind; [apply Hc|]. intros z h1. apply IH. apply H.
Qed.

Lemma sorted_length w k c l h : compares_at_most w k c -> length (snd (sorted c l w h)) <= length h + most_comparisons (length l) * k.
Proof. intro H. unfold sorted. apply run_sorting_length; [exact H|]. apply tim_sort_cost. Qed.

(** ** A whole run *)

Section Scan.
  Context (w : world) (o : options) (B : path -> nat).
  Hypothesis HB : forall p h0 dl h x h', w_open w h0 p = Some dl -> prepare o p dl w h = (Ok x, h') -> length h' <= length h + B p.

  Definition price (e : entry) : nat := 3 * length (entry_paths e) + list_sum (map B (opened e)).
  Definition prices (es : list entry) : nat := 3 * length (flat_map entry_paths es) + list_sum (map B (flat_map opened es)).

  Lemma loop_length (hc : path -> M (option entry)) hl mc :
    (forall c h e h', hc c w h = (Ok (Some e), h') -> (exists q, entry_path e = Some q) /\ length h' <= length h + price e) ->
    (forall c h h', hc c w h <> (Ok None, h')) ->
    forall it n acc h es rest h', children_loop hc hl mc n acc it w h = (Ok (es, rest), h') ->
    exists new, es = acc ++ new /\ (forall e, In e new -> exists q, entry_path e = Some q) /\ length h' <= length h + prices new.
  Proof.
    intros Hc Hnn. induction it as [|c it IH]; intros n acc h es rest h' H.
    - cbn in H. injection H as <- <- <-. exists []. rewrite app_nil_r. split; [reflexivity|]. split; [intros ? []|cbn; lia].
    - cbn [children_loop] in H. destruct (hl && (mc <? n + 1)%Z).
      + injection H as <- <- <-. exists []. rewrite app_nil_r. split; [reflexivity|]. split; [intros ? []|cbn; lia].
      + apply bind_ok in H. destruct H as (e & h1 & He & H). destruct e as [e|]; [|exfalso; eapply Hnn; exact He].
        destruct (Hc _ _ _ _ He) as [Hq Hce]. destruct (IH _ _ _ _ _ _ H) as (new & -> & Hnew & Hcn).
        exists (e :: new). rewrite <- app_assoc. split; [reflexivity|]. split.
        * intros x [<-|Hx]; auto.
        * unfold price, prices in *. cbn [flat_map]. rewrite map_app, list_sum_app, app_length. lia.
  Qed.

  Lemma handle_length fuel : forall d p h e h', handle fuel o d p (path_filter o) w h = (Ok (Some e), h') -> length h' <= length h + price e.
  Proof.
    induction fuel as [|fuel IH]; intros d p h e h' H; pose proof H as H0; apply handle_ok in H0;
      destruct H0 as [(k & E & Hk & Hs)|[(Hk & Hd & Hd0 & E)|(fuel' & dl & es & h1 & h2 & Ef & Hk & Hd & -> & Ho & Hh & Hc & -> & E)]];
      injection E as ->; try discriminate.
    1, 3: cbn [handle] in H; apply bind_ok in H; destruct H as (b & h1 & Hb & H); unfold pm_is_directory, has_kind, lstat, bind in Hb; cbn in Hb;
      injection Hb as <- <-; destruct (w_lstat w h p) as [[]|] eqn:El; cbn in H; try (exfalso; eapply Hk; reflexivity);
      unfold bind, stat in H; rewrite Hs in H; cbn in H; injection H as <-; unfold price; cbn; lia.
    1, 2: cbn [handle] in H; apply bind_ok in H; destruct H as (b & h1 & Hb & H); unfold pm_is_directory, has_kind, lstat, bind in Hb; cbn in Hb;
      injection Hb as <- <-; rewrite Hk in H; cbn in H; rewrite (proj2 (Z.leb_le _ _) Hd) in H; unfold new_max_depth_entry in H;
      destruct (Z.ltb_spec d 0); [lia|]; cbn in H; injection H as <-; unfold price; cbn; lia.
    injection Ef as <-. clear H. rewrite hdc_prepare in Hh. apply bind_ok in Hh. destruct Hh as ([mc it] & h3 & Hp & Hh).
    apply bind_ok in Hh. destruct Hh as ([new rest] & h4 & Hl & Hh). injection Hh as <- <-. cbn [fst snd] in Hl.
    destruct (loop_length (fun c => handle fuel o (d + 1)%Z c (path_filter o)) (0 <=? mc)%Z mc) with (3 := Hl) as (new' & E & Hnew & Hcalls).
    { intros c h5 e5 h6 H5. split; [eapply handle_entry; exact H5|]. eapply IH. exact H5. }
    { intros c h5 h6. apply handle_not_none. }
    cbn [app] in E. subst new'. pose proof (HB _ _ _ _ _ _ Ho Hp) as Hb. unfold price. cbn [length] in *.
    rewrite opened_dir.
    - assert (E1 : flat_map entry_paths (match rest with [] => [] | _ :: _ => [ESkipped p] end) = []) by now destruct rest.
      assert (E2 : flat_map opened (match rest with [] => [] | _ :: _ => [ESkipped p] end) = []) by now destruct rest.
      cbn [entry_paths]. rewrite !flat_map_app, E1, E2, !app_nil_r. unfold prices in Hcalls. cbn [length map].
      change (list_sum (B p :: map B (flat_map opened new))) with (B p + list_sum (map B (flat_map opened new))). lia.
    - intros n En. destruct new as [|x new].
      + destruct rest; discriminate.
      + injection En as -> _. destruct (Hnew _ (or_introl eq_refl)) as [q Hq]. discriminate.
  Qed.
End Scan.

Section Run.
  Context (w : world) (o : options) (dk : disk) (dirs files : path -> bool) (k f m : nat).
  Hypothesis Hs : steady w dk.
  Hypothesis Hcmp : compares_at_most w k (o_comparator o).
  Hypothesis Hl : at_most w m (o_child_limit o).
  Hypothesis Hd : at_most w f (o_dir_matcher o).
  Hypothesis Hf : at_most w f (o_file_matcher o).
  Hypothesis Ad : answers w (o_dir_matcher o) dirs.
  Hypothesis Af : answers w (o_file_matcher o) files.

  Lemma filter_length c h : length (snd (path_filter o c w h)) <= length h + (1 + f).
  Proof. unfold path_filter, pm_if_then_else. apply cost_bind; [apply cost_is_dir|]. intros [] h1; [apply Hd|apply Hf]. Qed.

  Lemma filterM_length l : forall h, length (snd (filterM (path_filter o) l w h)) <= length h + length l * (1 + f).
  Proof.
    induction l as [|c l IH]; intro h; [cbn; lia|]. cbn [filterM length]. change (S (length l) * (1 + f)) with ((1 + f) + length l * (1 + f)).
    apply cost_bind; [apply filter_length|]. intros b h1. rewrite <- (Nat.add_0_r (length l * (1 + f))). apply cost_bind; [apply IH|]. intros r h2. cbn. lia.
  Qed.

  Definition listed_in (p : path) : nat := match d_list dk p with Some names => length names | None => 0 end.

  Lemma prepare_length p h0 dl h x h' : w_open w h0 p = Some dl -> prepare o p dl w h = (Ok x, h') ->
    length h' <= length h + (m + listed_in p * (1 + f) + most_comparisons (accepted_in dirs files dk p) * k).
  Proof.
    intros Ho H. unfold prepare in H. apply bind_ok in H. destruct H as (mc & h1 & H1 & H). apply bind_ok in H. destruct H as (u & h2 & H2 & H).
    apply bind_ok in H. destruct H as (it & h3 & H3 & H). injection H as <- <-.
    pose proof (Hl p h) as E1. rewrite H1 in E1. cbn [snd] in E1.
    pose proof (sorted_length w k (o_comparator o) u h2 Hcmp) as E3. rewrite H3 in E3. cbn [snd] in E3.
    unfold stream_paths in H2. apply bind_ok in H2. destruct H2 as (l & h4 & Hfl & H2). destruct (dl_fail dl) eqn:Efl; [discriminate|]. injection H2 as <- <-.
    pose proof (filterM_length (map (resolve_name p) (dl_names dl)) h1) as E2. rewrite Hfl in E2. cbn [snd] in E2.
    pose proof (filterM_accepted w o dk dirs files Hs Ad Af _ _ _ _ Hfl) as ->.
    unfold accepted_in, listed_in. destruct Hs as (_ & _ & Hop & _). rewrite Hop in Ho. destruct (d_list dk p) as [names|]; [|discriminate].
    cbn in Ho. injection Ho as <-. cbn [dl_names] in *. rewrite map_length in E2. change (resolve_name p) with (child p) in *. lia.
  Qed.
End Run.

Lemma sum_prices dk dirs files k f m l :
  list_sum (map (fun p => m + listed_in dk p * (1 + f) + most_comparisons (accepted_in dirs files dk p) * k) l) =
  m * length l + (1 + f) * length (contained dk l) + k * list_sum (map (fun q => most_comparisons (accepted_in dirs files dk q)) l).
Proof.
  induction l as [|p l IH]; [cbn; lia|]. cbn [map length].
  change (list_sum (?x :: ?r)) with (x + list_sum r). unfold contained in *. cbn [flat_map]. rewrite app_length.
  change (list_sum (m + listed_in dk p * (1 + f) + most_comparisons (accepted_in dirs files dk p) * k :: map (fun p => m + listed_in dk p * (1 + f) + most_comparisons (accepted_in dirs files dk p) * k) l))
    with ((m + listed_in dk p * (1 + f) + most_comparisons (accepted_in dirs files dk p) * k) + list_sum (map (fun p => m + listed_in dk p * (1 + f) + most_comparisons (accepted_in dirs files dk p) * k) l)).
  change (list_sum (most_comparisons (accepted_in dirs files dk p) :: map (fun q => most_comparisons (accepted_in dirs files dk q)) l))
    with (most_comparisons (accepted_in dirs files dk p) + list_sum (map (fun q => most_comparisons (accepted_in dirs files dk q)) l)).
  rewrite IH. unfold listed_in. destruct (d_list dk p) as [names|]; rewrite ?map_length; cbn [length]; ring_simplify; lia.
Qed.

Theorem run_length o c k f m dirs files p w h out h' dk :
  sorts_by c o -> compares_at_most w k c ->
  at_most w m (o_child_limit o) -> at_most w f (o_dir_matcher o) -> at_most w f (o_file_matcher o) ->
  eventless (o_emoji o) -> match o_line_extension o with Some g => eventless g | None => True end ->
  answers w (o_dir_matcher o) dirs -> answers w (o_file_matcher o) files -> steady w dk ->
  pretty_print o p w h = (Ok out, h') ->
  exists e h0, scan o (location w p) w h = (Ok e, h0) /\
    length h' <= length h + 3 * length (entry_paths e) + m * length (opened e) + (1 + f) * length (contained dk (opened e)) +
                 k * list_sum (map (fun q => most_comparisons (accepted_in dirs files dk q)) (opened e)).
Proof.
  intros Ho Hc Hl Hd Hf He Hx Ad Af Hs H. rewrite pretty_print_split in H. apply bind_ok in H. destruct H as (e & h1 & Hsc & Hr). exists e, h1. split; [exact Hsc|].
  pose proof (render_events w o e h1 He Hx) as E. rewrite Hr in E. cbn [snd] in E. subst h1. apply scan_handle in Hsc.
  assert (Hcmp : compares_at_most w k (o_comparator o)).
  { rewrite Ho. cbn. rewrite <- (Nat.add_0_r k). apply cost_then; [exact Hc|apply cost_alphabetical]. }
  eapply handle_length in Hsc; [|intros q h0 dl h2 x h3 Hop Hp; eapply (prepare_length w o dk dirs files k f m); eauto].
  unfold price in Hsc. rewrite sum_prices in Hsc. lia.
Qed.
