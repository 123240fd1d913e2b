(** * Proofs about how often the order is asked *)

From Coq Require Import Lia Arith.
From Verif Require Import SpecCompare CompareFacts CallFacts RenderFacts ScanFacts HistFacts ShownFacts PrintFacts SortFacts.
Open Scope nat_scope.

Lemma times_cons_other tag ev h : (forall t p, ev <> EvUser t p) -> times tag (ev :: h) = times tag h.
Proof. intro H. unfold times. now rewrite calls_cons_other. Qed.

Lemma counted_once tag c a b w h : silent_comparator tag c -> times tag (snd (counted tag c a b w h)) = S (times tag h).
Proof. intro H. unfold counted, times. rewrite (H a), calls_cons_same, app_length. cbn. lia. Qed.

(** One call for each comparison. *)
Definition once (tag : nat) (w : world) (c : comparator) : Prop := forall a b h, times tag (snd (c a b w h)) = S (times tag h).

Lemma run_sorting_times tag w c : once tag w c -> forall s n, costs n s -> forall h, times tag (snd (run_sorting c s w h)) <= times tag h + n.
Proof.
  intros Hc s. induction s as [l| | |a b k IH]; intros n H h; cbn [run_sorting]; try (unfold ret, throw; cbn [snd]; lia).
  unfold bind. pose proof (Hc a b h) as E. destruct n as [|n]; [destruct H|]. cbn [costs] in H.
  destruct (c a b w h) as [[z|x] h1]; cbn [snd] in *; [|lia]. pose proof (IH z n (H z) h1). lia.
Qed.

Lemma sorted_times tag w c l h : once tag w c -> times tag (snd (sorted c l w h)) <= times tag h + most_comparisons (length l).
Proof. intro H. unfold sorted. apply run_sorting_times; [exact H|]. apply tim_sort_cost. Qed.

Theorem one_sort_times tag c w l h : silent_comparator tag c ->
  times tag (snd (sorted (counted tag c) l w h)) <= times tag h + most_comparisons (length l).
Proof. intro H. apply sorted_times. intros a b h'. now apply counted_once. Qed.

(** ** Sorted listings *)

(** The comparisons made when they are answered by [ord]. *)
Fixpoint comparisons (ord : ordering) (s : sorting) : nat :=
  match s with Compare a b k => S (comparisons ord (k (ord a b))) | _ => 0 end.

Lemma run_sorting_exact tag w c ord : once tag w c -> (forall a b h, fst (c a b w h) = Ok (ord a b)) ->
  forall s h, times tag (snd (run_sorting c s w h)) = times tag h + comparisons ord s.
Proof.
  intros Hc Ho s. induction s as [l| | |a b k IH]; intro h; cbn [run_sorting comparisons]; try (unfold ret, throw; cbn [snd]; lia).
  unfold bind. pose proof (Hc a b h) as E. pose proof (Ho a b h) as E1. destruct (c a b w h) as [[z|x] h1]; cbn [fst snd] in *; [|discriminate].
  injection E1 as ->. rewrite IH. lia.
Qed.

Lemma extend_all ord (d : bool) k : forall rest last run,
  (if d then falling ord (last :: rest) else rising ord (last :: rest)) ->
  comparisons ord (extend_run d last run rest k) = length rest + comparisons ord (k (rev rest ++ run) []).
Proof.
  induction rest as [|x rest IH]; intros last run H; cbn [extend_run].
  - reflexivity.
  - cbn [comparisons length rev].
    assert (E : Bool.eqb (ord x last <? 0)%Z d = true /\ (if d then falling ord (x :: rest) else rising ord (x :: rest))).
    { destruct d; destruct H as [H1 H2]; (split; [|exact H2]); [now apply Z.ltb_lt in H1 as ->|]. now apply Z.ltb_ge in H1 as ->. }
    destruct E as [-> H']. rewrite (IH x (x :: run) H'), <- app_assoc. reflexivity.
Qed.

Lemma sorted_costs ord l : rising ord l \/ falling ord l -> comparisons ord (tim_sort l) = length l - 1.
Proof.
  intro H. assert (E : exists run, length run = length l /\ forall k, comparisons ord (count_run l k) = length l - 1 + comparisons ord (k run [])).
  { destruct l as [|x [|y l]]; [exists []; auto|exists [x]; auto|].
    destruct H as [[H1 H2]|[H1 H2]].
    - exists (rev (rev l ++ [y; x])). split; [rewrite rev_length, app_length, rev_length; cbn; lia|]. intro k. cbn [count_run comparisons].
      apply Z.ltb_ge in H1 as ->. rewrite (extend_all ord false); [|exact H2]. cbn [length]. lia.
    - exists (rev l ++ [y; x]). split; [rewrite app_length, rev_length; cbn; lia|]. intro k. cbn [count_run comparisons].
      apply Z.ltb_lt in H1 as ->. rewrite (extend_all ord true); [|exact H2]. cbn [length]. lia. }
  destruct E as (run & El & E). unfold tim_sort. destruct (length l <? MIN_MERGE)%nat eqn:Es.
  - rewrite E. cbn. lia.
  - destruct l as [|x l]; [discriminate|]. cbn [length sort_runs]. rewrite E. rewrite firstn_nil, skipn_nil. cbn [binary_sort merge_collapse merge_force_collapse length comparisons]. lia.
Qed.

Theorem in_order_times tag c ord w l h : silent_comparator tag c -> (forall a b h, fst (c a b w h) = Ok (ord a b)) ->
  rising ord l \/ falling ord l ->
  times tag (snd (sorted (counted tag c) l w h)) = times tag h + (length l - 1).
Proof.
  intros Hs Ho H. unfold sorted. rewrite (run_sorting_exact tag w _ ord).
  - now rewrite sorted_costs.
  - intros a b h'. now apply counted_once.
  - intros a b h'. unfold counted. apply Ho.
Qed.

(** ** A whole run *)

Section Scan.
  Context (tag : nat) (w : world) (o : options) (B : path -> nat).
  Hypothesis HB : forall p h0 dl h x h', w_open w h0 p = Some dl -> prepare o p dl w h = (Ok x, h') -> times tag h' <= times tag h + B p.

  Lemma loop_times (hc : path -> M (option entry)) hl mc :
    (forall c h e h', hc c w h = (Ok (Some e), h') -> (exists q, entry_path e = Some q) /\ times tag h' <= times tag h + list_sum (map B (opened e))) ->
    (forall c h h', hc c w h <> (Ok None, h')) ->
    forall it n acc h es rest h', children_loop hc hl mc n acc it w h = (Ok (es, rest), h') ->
    exists new, es = acc ++ new /\ (forall e, In e new -> exists q, entry_path e = Some q) /\
      times tag h' <= times tag h + list_sum (map B (flat_map opened new)).
  Proof.
    intros Hc Hnn. induction it as [|c it IH]; intros n acc h es rest h' H.
    - cbn in H. injection H as <- <- <-. exists []. rewrite app_nil_r. split; [reflexivity|]. split; [intros ? []|cbn; lia].
    - cbn [children_loop] in H. destruct (hl && (mc <? n + 1)%Z).
      + injection H as <- <- <-. exists []. rewrite app_nil_r. split; [reflexivity|]. split; [intros ? []|cbn; lia].
      + apply bind_ok in H. destruct H as (e & h1 & He & H). destruct e as [e|]; [|exfalso; eapply Hnn; exact He].
        destruct (Hc _ _ _ _ He) as [Hq Hce]. destruct (IH _ _ _ _ _ _ H) as (new & -> & Hnew & Hcn).
        exists (e :: new). rewrite <- app_assoc. split; [reflexivity|]. split.
        * intros x [<-|Hx]; auto.
        * cbn [flat_map]. rewrite map_app, list_sum_app. lia.
  Qed.

  Lemma handle_times fuel : forall d p h e h', handle fuel o d p (path_filter o) w h = (Ok (Some e), h') ->
    times tag h' <= times tag h + list_sum (map B (opened e)).
  Proof.
    induction fuel as [|fuel IH]; intros d p h e h' H; pose proof H as H0; apply handle_ok in H0;
      destruct H0 as [(k & E & Hk & Hs)|[(Hk & Hd & Hd0 & E)|(fuel' & dl & es & h1 & h2 & Ef & Hk & Hd & -> & Ho & Hh & Hc & -> & E)]];
      injection E as ->; try discriminate.
    1, 3: cbn [handle] in H; apply bind_ok in H; destruct H as (b & h1 & Hb & H); unfold pm_is_directory, has_kind, lstat, bind in Hb; cbn in Hb;
      injection Hb as <- <-; destruct (w_lstat w h p) as [[]|] eqn:El; cbn in H; try (exfalso; eapply Hk; reflexivity);
      unfold bind, stat in H; rewrite Hs in H; cbn in H; injection H as <-; rewrite !times_cons_other by discriminate; cbn; lia.
    1, 2: cbn [handle] in H; apply bind_ok in H; destruct H as (b & h1 & Hb & H); unfold pm_is_directory, has_kind, lstat, bind in Hb; cbn in Hb;
      injection Hb as <- <-; rewrite Hk in H; cbn in H; rewrite (proj2 (Z.leb_le _ _) Hd) in H; unfold new_max_depth_entry in H;
      destruct (Z.ltb_spec d 0); [lia|]; cbn in H; injection H as <-; rewrite times_cons_other by discriminate; cbn; lia.
    injection Ef as <-. clear H. rewrite hdc_prepare in Hh. apply bind_ok in Hh. destruct Hh as ([mc it] & h3 & Hp & Hh).
    apply bind_ok in Hh. destruct Hh as ([new rest] & h4 & Hl & Hh). injection Hh as <- <-. cbn [fst snd] in Hl.
    destruct (loop_times (fun c => handle fuel o (d + 1)%Z c (path_filter o)) (0 <=? mc)%Z mc) with (3 := Hl) as (new' & E & Hnew & Hcalls).
    { intros c h5 e5 h6 H5. split; [eapply handle_entry; exact H5|]. eapply IH. exact H5. }
    { intros c h5 h6. apply handle_not_none. }
    cbn [app] in E. subst new'. pose proof (HB _ _ _ _ _ _ Ho Hp) as Hb. rewrite !times_cons_other in * by discriminate.
    rewrite opened_dir.
    - rewrite flat_map_app. cbn [map list_sum]. rewrite map_app. unfold list_sum in *. cbn [fold_right]. fold (list_sum (map B (flat_map opened new) ++ map B (flat_map opened match rest with [] => [] | _ :: _ => [ESkipped p] end))).
      rewrite list_sum_app. unfold list_sum. lia.
    - intros n En. destruct new as [|x new].
      + destruct rest; discriminate.
      + injection En as -> _. destruct (Hnew _ (or_introl eq_refl)) as [q Hq]. discriminate.
  Qed.
End Scan.

Section Run.
  Context (tag : nat) (w : world) (o : options) (dk : disk) (dirs files : path -> bool).
  Hypothesis Hs : steady w dk.
  Hypothesis Hcmp : once tag w (o_comparator o).
  Hypothesis Hl : silent tag (o_child_limit o).
  Hypothesis Hd : silent tag (o_dir_matcher o).
  Hypothesis Hf : silent tag (o_file_matcher o).
  Hypothesis Ad : answers w (o_dir_matcher o) dirs.
  Hypothesis Af : answers w (o_file_matcher o) files.

  Lemma filter_answers c h r h' : path_filter o c w h = (Ok r, h') -> r = if is_dirb dk c then dirs c else files c.
  Proof.
    intro H. unfold path_filter, pm_if_then_else, bind, pm_is_directory in H. rewrite has_kind_run in H. destruct Hs as [Hk _]. rewrite Hk in H.
    unfold is_dirb. destruct (d_kind dk c) as [k|]; [|].
    - destruct k; cbn [kind_eqb] in H; match type of H with o_dir_matcher o c w ?h0 = _ => destruct (Ad c h0) as [h2 E] | o_file_matcher o c w ?h0 = _ => destruct (Af c h0) as [h2 E] end;
        rewrite E in H; now injection H.
    - match type of H with o_file_matcher o c w ?h0 = _ => destruct (Af c h0) as [h2 E] end. rewrite E in H. now injection H.
  Qed.

  Lemma filterM_accepted l : forall h r h', filterM (path_filter o) l w h = (Ok r, h') -> r = filter (fun c => if is_dirb dk c then dirs c else files c) l.
  Proof.
    induction l as [|c l IH]; intros h r h' H.
    - cbn in H. now injection H.
    - cbn [filterM] in H. apply bind_ok in H. destruct H as (b & h1 & Hb & H). apply bind_ok in H. destruct H as (r' & h2 & Hr & H). injection H as <- <-.
      apply filter_answers in Hb. apply IH in Hr. subst b r'. cbn [filter]. destruct (if is_dirb dk c then dirs c else files c); reflexivity.
  Qed.

  Lemma prepare_times p h0 dl h x h' : w_open w h0 p = Some dl -> prepare o p dl w h = (Ok x, h') ->
    times tag h' <= times tag h + most_comparisons (accepted_in dirs files dk p).
  Proof.
    intros Ho H. unfold prepare in H. apply bind_ok in H. destruct H as (mc & h1 & H1 & H). apply bind_ok in H. destruct H as (u & h2 & H2 & H).
    apply bind_ok in H. destruct H as (it & h3 & H3 & H). injection H as <- <-.
    pose proof (Hl p w h) as E1. rewrite H1 in E1. cbn [snd] in E1.
    pose proof (stream_silent tag w o Hd Hf p dl h1) as E2. rewrite H2 in E2. cbn [snd] in E2.
    pose proof (sorted_times tag w (o_comparator o) u h2 Hcmp) as E3. rewrite H3 in E3. cbn [snd] in E3.
    assert (Eu : length u = accepted_in dirs files dk p).
    { unfold stream_paths in H2. apply bind_ok in H2. destruct H2 as (l & h4 & Hfl & H2). destruct (dl_fail dl) eqn:Efl; [discriminate|]. injection H2 as <- <-.
      apply filterM_accepted in Hfl. subst l. unfold accepted_in. destruct Hs as (_ & _ & Hop & _). rewrite Hop in Ho. destruct (d_list dk p) as [names|]; [|discriminate].
      cbn in Ho. injection Ho as <-. reflexivity. }
    rewrite Eu in E3. unfold times in *. rewrite E2, E1 in E3. exact E3.
  Qed.
End Run.

Lemma sort_once tag w c o : sorts_by (counted tag c) o -> silent_comparator tag c -> once tag w (o_comparator o).
Proof.
  intros Hs Hc a b h. rewrite Hs. cbn. unfold then_comparing, bind. pose proof (counted_once tag c a b w h Hc) as E.
  destruct (counted tag c a b w h) as [[z|x] h1]; cbn [snd] in *; [|exact E]. destruct (z =? 0)%Z; exact E.
Qed.

Theorem run_times tag o c dirs files p w h out h' dk :
  sorts_by (counted tag c) o -> silent_comparator tag c ->
  silent tag (o_child_limit o) -> silent tag (o_dir_matcher o) -> silent tag (o_file_matcher o) -> silent_lines tag o ->
  answers w (o_dir_matcher o) dirs -> answers w (o_file_matcher o) files -> steady w dk ->
  pretty_print o p w h = (Ok out, h') ->
  exists e h0, scan o (location w p) w h = (Ok e, h0) /\
    times tag h' <= times tag h + list_sum (map (fun q => most_comparisons (accepted_in dirs files dk q)) (opened e)).
Proof.
  intros Ho Hc Hl Hd Hf Hlines Ad Af Hs H. rewrite pretty_print_split in H. apply bind_ok in H. destruct H as (e & h1 & Hsc & Hr). exists e, h1. split; [exact Hsc|].
  pose proof (render_silent tag w o e h1 Hlines) as E. rewrite Hr in E. cbn [snd] in E. unfold times at 1. rewrite E.
  apply scan_handle in Hsc. eapply handle_times; [|exact Hsc]. intros q h0 dl h2 x h3 Hop Hp. eapply prepare_times; eauto. eapply sort_once; eauto.
Qed.
