(** * Proofs about what is displayed in a world that may change *)

From Verif Require Import SpecSeen RenderFacts SortFacts ScanFacts PathFacts TreeFacts TraceFacts PrintFacts ShownFacts RunFacts ScanPrintFacts.
Open Scope Z_scope.

Lemma truthful_nil w h : truthful_from w h [].
Proof. intros [|? ?] ev t2 E; discriminate. Qed.

Lemma truthful_app w h t t' : truthful_from w h t -> truthful_from w (rev t ++ h) t' -> truthful_from w h (t ++ t').
Proof.
  intros H H' t1 ev t2 E. apply app_eq_app in E. destruct E as (l & [[-> E]|[-> E]]).
  - destruct l as [|x l].
    + rewrite app_nil_r in *. cbn in E. subst. specialize (H' [] ev t2 eq_refl). exact H'.
    + cbn in E. injection E as <- ->. apply (H t1 ev l). reflexivity.
  - specialize (H' l ev t2 E). rewrite rev_app_distr, <- app_assoc. exact H'.
Qed.

Lemma truthful_one w h ev : match ev with
    | EvLstat q a => w_lstat w h q = a
    | EvStat q a => w_stat w h q = a
    | EvLength q n => w_length w h q = n
    | EvOpen q => w_open w h q <> None
    | EvOpenFail q => w_open w h q = None
    | EvClose q ok => w_close_ok w h q = ok
    | EvIterFail _ | EvUser _ _ => True
    end -> truthful_from w h [ev].
Proof.
  intros H [|x t1] y t2 E.
  - injection E as <- <-. exact H.
  - apply (f_equal (@length event)) in E. cbn in E. rewrite app_length in E. cbn in E. lia.
Qed.

Lemma seen_dir_shift w o h t1 t t2 q es : seen_dir w o (rev t1 ++ h) t q es -> seen_dir w o h (t1 ++ t ++ t2) q es.
Proof.
  intros (u1 & u2 & u3 & u4 & u5 & limit & seen & order & real & -> & Ho & Hl & Ha & Hc & Hor & Hs & He & Hp).
  exists (t1 ++ u1), u2, u3, u4, (u5 ++ t2), limit, seen, order, real.
  split; [now rewrite <- !app_assoc|]. cbn zeta. rewrite rev_app_distr, <- app_assoc. auto 12.
Qed.

Lemma seen_entry_shift w o h t1 t t2 d x : seen_entry w o (rev t1 ++ h) t d x -> seen_entry w o h (t1 ++ t ++ t2) d x.
Proof.
  destruct x as [q es|q k|q|n]; cbn [seen_entry]; auto.
  - destruct (d <? o_max_depth o); [apply seen_dir_shift|]. intros [-> (u1 & u2 & ->)]. split; [reflexivity|].
    exists (t1 ++ u1), (u2 ++ t2). now rewrite <- !app_assoc.
  - intros (u1 & a & u2 & -> & Ha). exists (t1 ++ u1), a, (u2 ++ t2). split; [|exact Ha]. now rewrite <- !app_assoc.
Qed.

Lemma Forall2_mono A B (R R' : A -> B -> Prop) l l' : (forall a b, R a b -> R' a b) -> Forall2 R l l' -> Forall2 R' l l'.
Proof. intros H HF. induction HF; constructor; auto. Qed.

Definition seen_tree (w : world) (o : options) (d : Z) (p : path) (h : hist) (e : entry) (t : trace) : Prop :=
  entry_path e = Some p /\ truthful_from w h t /\ forall k x, at_depth k e x -> seen_entry w o h t (d + Z.of_nat k) x.

(** ** Only paths of the list are compared *)

Inductive compares (l : list path) : sorting -> Prop :=
| compares_done l' : compares l (Sorted l')
| compares_violation : compares l Violation
| compares_exhausted : compares l Exhausted
| compares_next a b k : In a l -> In b l -> (forall z, compares l (k z)) -> compares l (Compare a b k).

Lemma compares_incl l l' : incl l l' -> forall s, compares l s -> compares l' s.
Proof. intros H s Hs. induction Hs; constructor; auto. Qed.

Lemma holds_compares from P s : holds (fun _ _ _ => True) from True P s -> compares from s.
Proof. induction s as [l| | |a b k IH]; cbn; try constructor; try tauto. intro z. apply IH, H, I. Qed.

Lemma tim_sort_compares l : compares l (tim_sort l).
Proof. eapply holds_compares, tim_sort_holds. Qed.

Section Seen.
  Context (w : world) (o : options).
  Hypothesis Hd : honest w (o_dir_matcher o).
  Hypothesis Hf : honest w (o_file_matcher o).
  Hypothesis Hl : honest w (o_child_limit o).
  Hypothesis Hcmp : forall a, honest w (o_comparator o a).

  Lemma filterM_seen q ns : forall h l' h', filterM (path_filter o) (map (child q) ns) w h = (Ok l', h') ->
    exists seen t, h' = rev t ++ h /\ truthful_from w h t /\ map fst seen = ns /\ looked_at w o q h seen t /\
      l' = map (fun nb => child q (fst nb)) (filter snd seen).
  Proof.
    induction ns as [|n ns IH]; intros h l' h' H.
    - cbn in H. injection H as <- <-. exists [], []. repeat split; [apply truthful_nil|constructor].
    - cbn [filterM map] in H. apply bind_ok in H. destruct H as (b & h1 & Hb & H). apply bind_ok in H. destruct H as (r & h2 & Hr & H).
      injection H as <- <-. set (c := child q n) in *. set (a := w_lstat w h c).
      assert (E : path_filter o c w h = (match a with Some KDir => o_dir_matcher o | _ => o_file_matcher o end) c w (EvLstat c a :: h)).
      { unfold path_filter, pm_if_then_else, bind, pm_is_directory, has_kind, lstat, bind. cbn. fold a. destruct a as [[]|]; reflexivity. }
      assert (Hx : honest w (match a with Some KDir => o_dir_matcher o | _ => o_file_matcher o end)) by (destruct a as [[]|]; assumption).
      destruct (Hx c (EvLstat c a :: h)) as (r' & u & Eu & Hu). pose proof (eq_trans (eq_sym Eu) (eq_trans (eq_sym E) Hb)) as E2. injection E2 as -> <-.
      destruct (IH _ _ _ Hr) as (seen & t' & -> & Ht' & Hs & Ha & ->).
      exists ((n, b) :: seen), (EvLstat c a :: u ++ t'). split.
      { change (EvLstat c a :: u ++ t') with ([EvLstat c a] ++ u ++ t'). now rewrite !rev_app_distr, <- !app_assoc. }
      split; [|split; [cbn; now rewrite Hs|split; [|cbn [filter snd]; destruct b; reflexivity]]].
      + change (EvLstat c a :: u ++ t') with ([EvLstat c a] ++ u ++ t'). apply truthful_app; [now apply truthful_one|].
        apply truthful_app; [exact Hu|exact Ht'].
      + apply looked_at_next; [reflexivity|exact Eu|exact Ha].
  Qed.

  Lemma run_sorting_seen from s : compares from s -> forall h l h', run_sorting (o_comparator o) s w h = (Ok l, h') ->
    exists t, h' = rev t ++ h /\ truthful_from w h t /\ compared w (o_comparator o) from h t /\
      forall c, (forall a, agrees w (o_comparator o a) (c a)) -> eval c s = Some l.
  Proof.
    induction 1 as [l0| | |a b k Ha Hb Hk IH]; cbn [run_sorting eval]; intros h l h' H; [|discriminate H|discriminate H|].
    - injection H as <- <-. exists []. split; [reflexivity|]. split; [apply truthful_nil|]. split; [constructor|reflexivity].
    - apply bind_ok in H. destruct H as (z & h1 & Hz & H). destruct (Hcmp a b h) as (r & u & Eu & Hu). pose proof Eu as E2.
      rewrite Hz in E2. injection E2 as <- ->.
      destruct (IH z _ _ _ H) as (t & -> & Ht & Hc & Hg). exists (u ++ t). rewrite rev_app_distr, <- app_assoc.
      split; [reflexivity|]. split; [now apply truthful_app|]. split; [exact (compared_next w _ from h a b z u t Ha Hb Hz Hc)|].
      intros c Hcc. rewrite <- (Hcc a b h z _ Hz). now apply Hg.
  Qed.

  Lemma sorted_seen l h l' h' : sorted (o_comparator o) l w h = (Ok l', h') ->
    exists t, h' = rev t ++ h /\ truthful_from w h t /\ compared w (o_comparator o) l' h t /\ Permutation l l' /\
      forall c, (forall a, agrees w (o_comparator o a) (c a)) -> contract c -> StronglySorted (fun a b => (c a b <= 0)%Z) l'.
  Proof.
    intro H. pose proof (sorted_perm _ _ _ _ _ _ H) as HP. unfold sorted in H.
    destruct (run_sorting_seen l' _ (compares_incl _ _ (fun q => Permutation_in q HP) _ (tim_sort_compares l)) _ _ _ H) as (t & -> & Ht & Hc & Hg). exists t. split; [reflexivity|]. split; [exact Ht|]. split; [exact Hc|].
    split; [exact HP|]. intros c Hcc Hco. pose proof (tim_sort_sorted c l Hco) as HS. unfold psort in HS. rewrite (Hg c Hcc) in HS. exact HS.
  Qed.

  Lemma loop_seen (P : path -> hist -> entry -> trace -> Prop) (hc : path -> M (option entry)) mc :
    (forall c h e h', hc c w h = (Ok (Some e), h') -> exists t, h' = rev t ++ h /\ P c h e t /\ truthful_from w h t) ->
    (forall c h h', hc c w h <> (Ok None, h')) ->
    forall it n acc h es rest h', 0 <= n ->
      children_loop hc (0 <=? mc) mc n acc it w h = (Ok (es, rest), h') ->
      exists new t taken, es = acc ++ new /\ h' = rev t ++ h /\ truthful_from w h t /\ it = taken ++ rest /\
        (mc < 0 -> rest = []) /\ (0 <= mc -> taken = firstn (Z.to_nat (mc - n)) it) /\
        Forall2 (fun c e => exists t1 tc t2, t = t1 ++ tc ++ t2 /\ P c (rev t1 ++ h) e tc) taken new.
  Proof.
    intros HP Hnn. induction it as [|c it IH]; intros n acc h es rest h' Hn H.
    - cbn in H. injection H as <- <- <-. exists [], [], []. rewrite app_nil_r. repeat split; auto; [apply truthful_nil|].
      intros _. now rewrite firstn_nil.
    - cbn [children_loop] in H. destruct ((0 <=? mc) && (mc <? n + 1)) eqn:E.
      + cbn in H. injection H as <- <- <-. apply andb_prop in E. destruct E as [E1 E2]. apply Z.leb_le in E1. apply Z.ltb_lt in E2.
        exists [], [], []. rewrite app_nil_r. repeat split; auto; [apply truthful_nil|lia|].
        intros _. replace (Z.to_nat (mc - n)) with 0%nat by lia. reflexivity.
      + apply bind_ok in H. destruct H as (e & h1 & He & H). destruct e as [e|]; [|exfalso; eapply Hnn; exact He].
        destruct (HP _ _ _ _ He) as (tc & -> & HPc & Htc).
        destruct (IH (n + 1) _ _ _ _ _ ltac:(lia) H) as (new & t & taken & -> & -> & Ht & -> & H1 & H2 & HF).
        exists (e :: new), (tc ++ t), (c :: taken). rewrite <- app_assoc. split; [reflexivity|].
        rewrite rev_app_distr, <- app_assoc. split; [reflexivity|]. split; [now apply truthful_app|]. split; [reflexivity|].
        split; [exact H1|]. split.
        * intro Hmc. destruct (Z.leb_spec 0 mc); [|lia]. cbn [andb] in E. apply Z.ltb_ge in E.
          replace (Z.to_nat (mc - n)) with (S (Z.to_nat (mc - (n + 1)))) by lia. cbn [firstn]. f_equal. now apply H2.
        * constructor; [exists [], tc, t; auto|]. eapply Forall2_mono; [|exact HF]. cbn.
          intros c' e' (t1 & tc' & t2 & -> & HP'). exists (tc ++ t1), tc', t2. rewrite rev_app_distr, <- !app_assoc. auto.
  Qed.

  Lemma loop_limited mc (it taken rest : list path) : it = taken ++ rest -> (mc < 0 -> rest = []) ->
    (0 <= mc -> taken = firstn (Z.to_nat (mc - 0)) it) ->
    taken = limited mc it /\ (match rest with [] => [] | _ :: _ => [] end = @nil entry) /\
    forall p, match rest with [] => [] | _ :: _ => [ESkipped p] end = marker mc it p.
  Proof.
    intros -> H1 H2. unfold limited, marker. rewrite Z.sub_0_r in H2. destruct (Z.ltb_spec mc 0).
    - rewrite (H1 H). rewrite app_nil_r. repeat split. intro p. destruct (Z.leb_spec 0 mc); [lia|reflexivity].
    - specialize (H2 H). split; [exact H2|]. split; [now destruct rest|]. intro p. destruct (Z.leb_spec 0 mc); [|lia]. cbn [andb].
      apply (f_equal (@length path)) in H2. rewrite firstn_length, app_length in H2.
      destruct (Z.ltb_spec mc (Z.of_nat (length (taken ++ rest)))) as [Hlt|Hge]; rewrite app_length in *; destruct rest; cbn in *; try reflexivity; lia.
  Qed.

  Lemma handle_seen fuel : forall d p h e h', 0 <= d -> handle fuel o d p (path_filter o) w h = (Ok (Some e), h') ->
    exists t, h' = rev t ++ h /\ seen_tree w o d p h e t.
  Proof.
    assert (Hfile : forall d p h e h' a, w_lstat w h p = a -> a <> Some KDir -> handle_file p w (EvLstat p a :: h) = (Ok (Some e), h') ->
              exists t, h' = rev t ++ h /\ seen_tree w o d p h e t).
    { intros d p h e h' a Ea Hna H. unfold handle_file, bind, stat in H.
      destruct (w_stat w (EvLstat p a :: h) p) as [k|] eqn:Es; cbn in H; [|discriminate]. injection H as <- <-.
      exists [EvLstat p a; EvStat p (Some k)]. split; [reflexivity|]. split; [reflexivity|]. split.
      - change [EvLstat p a; EvStat p (Some k)] with ([EvLstat p a] ++ [EvStat p (Some k)]).
        apply truthful_app; apply truthful_one; [exact Ea|exact Es].
      - intros j x Hat. inversion Hat; subst. cbn. exists [], (w_lstat w h p), []. auto. }
    assert (Hcut : forall d p h, 0 <= d -> o_max_depth o <= d -> w_lstat w h p = Some KDir ->
              seen_tree w o d p h (EDir p [EMaxDepth d]) [EvLstat p (Some KDir)]).
    { intros d p h Hd0 Hle Ea. split; [reflexivity|]. split; [now apply truthful_one|].
      intros j x Hat. inversion Hat as [|j' d0 es0 c y Hin Hat']; subst.
      - cbn [seen_entry]. destruct (Z.ltb_spec (d + Z.of_nat 0) (o_max_depth o)); [lia|]. rewrite Z.add_0_r. split; [reflexivity|].
        exists [], []. reflexivity.
      - destruct Hin as [<-|[]]. inversion Hat'. exact I. }
    induction fuel as [|fuel IH]; intros d p h e h' Hd0 H; cbn [handle] in H; apply bind_ok in H; destruct H as (b & h1 & Hb & H);
      unfold pm_is_directory, has_kind, bind, lstat in Hb; cbn in Hb; injection Hb as <- <-.
    - destruct (w_lstat w h p) as [[]|] eqn:Ea; cbn in H; try (eapply Hfile; [exact Ea|discriminate|exact H]).
      destruct (Z.leb_spec (o_max_depth o) d); [|discriminate].
      unfold bind, new_max_depth_entry in H. destruct (Z.ltb_spec d 0); [lia|]. cbn in H. injection H as <- <-.
      exists [EvLstat p (Some KDir)]. split; [reflexivity|]. apply Hcut; auto; lia.
    - destruct (w_lstat w h p) as [[]|] eqn:Ea; cbn in H; try (eapply Hfile; [exact Ea|discriminate|exact H]).
      destruct (Z.leb_spec (o_max_depth o) d).
      { unfold bind, new_max_depth_entry in H. destruct (Z.ltb_spec d 0); [lia|]. cbn in H. injection H as <- <-.
        exists [EvLstat p (Some KDir)]. split; [reflexivity|]. apply Hcut; auto; lia. }
      apply bind_ok in H. destruct H as (dl & h2 & Ho & H). unfold open_dir in Ho.
      destruct (w_open w (EvLstat p (Some KDir) :: h) p) as [dl'|] eqn:Eo; injection Ho as <- <-; [|discriminate].
      apply bind_ok in H. destruct H as (es & h3 & Hc & H). injection H as <- <-.
      unfold with_close in Hc. destruct (handle_directory_children o _ p dl' _ w _) as [[es'|x] h4] eqn:Eh; [|discriminate].
      unfold close_dir in Hc. destruct (w_close_ok w h4 p) eqn:Ec; [|discriminate]. injection Hc as <- <-.
      unfold handle_directory_children in Eh. apply bind_ok in Eh. destruct Eh as (mc & h5 & Hmc & Eh).
      destruct (Hl p (EvOpen p :: EvLstat p (Some KDir) :: h)) as (rl & tl & Etl & Hql). pose proof Etl as Emc. rewrite Hmc in Emc. injection Emc as <- ->.
      rewrite Hmc in Etl. clear Etl.
      apply bind_ok in Eh. destruct Eh as (l & h6 & Hst & Eh). unfold stream_paths in Hst. apply bind_ok in Hst.
      destruct Hst as (l0 & h7 & Hfl & Hst). destruct (dl_fail dl') eqn:Edl; [discriminate|]. injection Hst as <- <-.
      destruct (filterM_seen _ _ _ _ _ Hfl) as (seen & tf & -> & Htf & Hseen & Hff & ->).
      apply bind_ok in Eh. destruct Eh as (order & h8 & Hso & Eh).
      destruct (sorted_seen _ _ _ _ Hso) as (ts & -> & Hts & Hcd & HP & Hord).
      apply bind_ok in Eh. destruct Eh as ([ces rest] & h9 & Hlo & Eh). injection Eh as <- <-.
      set (h0 := EvOpen p :: EvLstat p (Some KDir) :: h) in *.
      destruct (loop_seen (fun c h e t => seen_tree w o (d + 1) c h e t) (fun c => handle fuel o (d + 1) c (path_filter o)) mc) with (4 := Hlo)
        as (new & tk & taken & Ees & -> & Htk & Eit & Hr1 & Hr2 & HF); [| |lia|].
      { intros c h10 e10 h11 H10. destruct (IH (d + 1) c h10 e10 h11 ltac:(lia) H10) as (t & Et & Hs).
        exists t. split; [exact Et|]. split; [exact Hs|apply Hs]. }
      { intros c h10 h11. apply handle_not_none. }
      cbn [app] in Ees. subst ces.
      destruct (loop_limited _ _ _ _ Eit Hr1 Hr2) as (Htaken & _ & Hmark). clear Eit Hr1 Hr2.
      set (t := [EvLstat p (Some KDir)] ++ [EvOpen p] ++ (tl ++ tf ++ ts ++ tk) ++ [EvClose p true]).
      exists t. split.
      { unfold t. rewrite !rev_app_distr. cbn [rev app]. rewrite <- !app_assoc. reflexivity. }
      split; [reflexivity|]. split.
      { unfold t. apply truthful_app; [now apply truthful_one|]. apply truthful_app; [apply truthful_one; cbn [rev app]; now rewrite Eo|].
        apply truthful_app.
        - apply truthful_app; [exact Hql|]. apply truthful_app; [exact Htf|]. apply truthful_app; [exact Hts|exact Htk].
        - apply truthful_one. rewrite !rev_app_distr, <- !app_assoc. exact Ec. }
      intros j x Hat. inversion Hat as [|j' d1 es1 c y Hin Hat']; subst.
      + rewrite Z.add_0_r. cbn [seen_entry]. destruct (Z.ltb_spec d (o_max_depth o)); [|lia].
        exists [], tl, tf, ts, (tk ++ [EvClose p true]), mc, seen, order, new.
        split; [unfold t; cbn [app]; now rewrite <- !app_assoc|]. cbn zeta. cbn [rev app]. fold h0. split.
        { rewrite Eo, Hseen. destruct dl' as [ns fl]. cbn in *. now subst. }
        split; [exact Hmc|]. split; [exact Hff|]. split; [exact Hcd|]. split; [exact HP|]. split; [exact Hord|].
        split; [now rewrite Hmark|]. revert HF. generalize (limited mc order). clear. intros taken HF. induction HF as [|c e taken new (t1 & tc & t2 & _ & He & _) HF IHF]; [reflexivity|]. cbn. now rewrite He, IHF.
      + apply in_app_or in Hin. destruct Hin as [Hin|Hin].
        * destruct (Forall2_in_r _ _ _ _ _ _ HF Hin) as (q & Hq & t1 & tc & t2 & -> & _ & _ & Hch).
          specialize (Hch j' x Hat'). replace (d + Z.of_nat (S j')) with (d + 1 + Z.of_nat j') by lia.
          unfold t. replace ([EvLstat p (Some KDir)] ++ [EvOpen p] ++ (tl ++ tf ++ ts ++ t1 ++ tc ++ t2) ++ [EvClose p true])
            with (([EvLstat p (Some KDir)] ++ [EvOpen p] ++ tl ++ tf ++ ts ++ t1) ++ tc ++ (t2 ++ [EvClose p true])) by (now rewrite <- !app_assoc).
          apply seen_entry_shift. rewrite !rev_app_distr, <- !app_assoc. exact Hch.
        * destruct rest; [destruct Hin|]. destruct Hin as [<-|[]]. inversion Hat'. exact I.
  Qed.
End Seen.

Lemma render_honest w o : honest_callbacks w o -> forall e h, exists r t, render_tree o (line_renderer_create o) e w h = (r, rev t ++ h) /\ truthful_from w h t.
Proof.
  intros (_ & _ & _ & He & Hx & _) e. unfold render_tree.
  apply (closed_render (fun A (m : M A) => forall h, exists r t, m w h = (r, rev t ++ h) /\ truthful_from w h t)).
  - intros A a h. exists (Ok a), []. split; [reflexivity|apply truthful_nil].
  - intros A h. exists (Throw ExNullPointer), []. split; [reflexivity|apply truthful_nil].
  - intros A B m f Hm Hf h. destruct (Hm h) as (r & t & Er & Ht). unfold bind. rewrite Er. destruct r as [a|x]; [|exists (Throw x), t; auto].
    destruct (Hf a (rev t ++ h)) as (r' & t' & Er' & Ht'). exists r', (t ++ t'). rewrite Er', rev_app_distr, <- app_assoc.
    split; [reflexivity|now apply truthful_app].
  - intros p h. apply He.
  - intros p h. unfold compute_line_extension. destruct (o_line_extension o) as [f|]; [apply Hx|].
    exists (Ok None), []. split; [reflexivity|apply truthful_nil].
Qed.

Lemma C94_lemma : forall o p w h out h' v,
  honest_callbacks w o -> sees w o v -> pretty_print o p w h = (Ok out, h') ->
  exists e s t, shows v true e s /\ out = text (o_tree_format o) (labelled v s) /\ h' = rev t ++ h /\
    truthful_from w h t /\ entry_path e = Some (location w p) /\
    forall k x, at_depth k e x -> seen_entry w o h t (Z.of_nat k) x.
Proof.
  intros o p w h out h' v Hc Hv Hp.
  destruct (pretty_print_scan _ _ _ _ _ _ Hp) as (e & h1 & He & Hr). pose proof Hc as (C1 & C2 & C3 & _ & _ & C6).
  destruct (handle_seen w o C1 C2 C3 C6 _ 0 _ _ _ _ ltac:(lia) He) as (t & -> & Hpath & Ht & Hx).
  destruct (render_honest w o Hc e (rev t ++ h)) as (r & t' & Hr' & Hq). rewrite Hr in Hr'. injection Hr' as <- ->.
  destruct (print_displays _ _ _ _ _ _ _ Hv Hp) as (e' & h1 & Hs & s & Hsh & Ho).
  pose proof (proj2 (scan_handle _ _ _ _ _ _) He) as Hs'. rewrite Hs' in Hs. injection Hs as <- <-.
  exists e, s, (t ++ t'). split; [exact Hsh|]. split; [exact Ho|]. split; [now rewrite rev_app_distr, <- app_assoc|].
  split; [apply truthful_app; [exact Ht|exact Hq]|]. split; [exact Hpath|].
  intros k x Hat. change (t ++ t') with ([] ++ t ++ t'). apply seen_entry_shift. cbn [rev app].
  replace (Z.of_nat k) with (0 + Z.of_nat k) by lia. now apply Hx.
Qed.
