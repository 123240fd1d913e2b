(** * Event traces of the scanner in an arbitrary world *)

From Verif Require Import SpecHist SortFacts RenderFacts ScanFacts PathFacts TreeFacts.
Open Scope Z_scope.

(** [m], started in history [h], returns [r] after the events [t]. *)
Definition runs {A} (w : world) (m : M A) (h : hist) (r : res A) (t : trace) : Prop :=
  m w h = (r, rev t ++ h).

Lemma runs_bind_ok A B w (m : M A) (f : A -> M B) h a t r t' :
  runs w m h (Ok a) t -> runs w (f a) (rev t ++ h) r t' -> runs w (bind m f) h r (t ++ t').
Proof.
  unfold runs, bind. intros E1 E2. rewrite E1, E2. rewrite rev_app_distr, <- app_assoc. reflexivity.
Qed.

Lemma runs_bind_throw A B w (m : M A) (f : A -> M B) h x t :
  runs w m h (Throw x) t -> runs w (bind m f) h (Throw x) t.
Proof. unfold runs, bind. intros ->. reflexivity. Qed.

(** A family of computations all of whose runs satisfy [C]. *)
Definition obeys {A B} (w : world) (f : A -> M B) (C : A -> res B -> trace -> Prop) : Prop :=
  forall a h, exists r t, runs w (f a) h r t /\ C a r t.

Section Trace.
  Context (w : world) (o : options).
  (** Runs of the callbacks. *)
  Context (Cd Cf : path -> res bool -> trace -> Prop) (Cl : path -> res Z -> trace -> Prop) (Cc : path -> path -> res Z -> trace -> Prop).
  Hypothesis Hd : obeys w (o_dir_matcher o) Cd.
  Hypothesis Hf : obeys w (o_file_matcher o) Cf.
  Hypothesis Hl : obeys w (o_child_limit o) Cl.
  Hypothesis Hc : forall a, obeys w (o_comparator o a) (Cc a).

  (** Runs of the filter: an attribute read, then the directory or the file filter. *)
  Definition flt_run (c : path) (r : res bool) (t : trace) : Prop :=
    exists h a u, a = w_lstat w h c /\ t = EvLstat c a :: u /\
      ((a = Some KDir /\ Cd c r u) \/ (a <> Some KDir /\ Cf c r u)).

  Inductive filter_run : list path -> res (list path) -> trace -> Prop :=
  | fr_nil : filter_run [] (Ok []) []
  | fr_throw c l x t : flt_run c (Throw x) t -> filter_run (c :: l) (Throw x) t
  | fr_ok c l b t l' t' : flt_run c (Ok b) t -> filter_run l (Ok l') t' ->
      filter_run (c :: l) (Ok (if b then c :: l' else l')) (t ++ t')
  | fr_later c l b t x t' : flt_run c (Ok b) t -> filter_run l (Throw x) t' ->
      filter_run (c :: l) (Throw x) (t ++ t').

  Inductive kids_run (Q : path -> res (option entry) -> trace -> Prop) (hl : bool) (mc : Z)
    : Z -> list path -> res (list entry * list path) -> trace -> Prop :=
  | kr_nil n : kids_run Q hl mc n [] (Ok ([], [])) []
  | kr_cut n c it : hl = true -> mc < n + 1 -> kids_run Q hl mc n (c :: it) (Ok ([], c :: it)) []
  | kr_throw n c it x t : hl && (mc <? n + 1) = false -> Q c (Throw x) t -> kids_run Q hl mc n (c :: it) (Throw x) t
  | kr_ok n c it e t es rest t' : hl && (mc <? n + 1) = false -> Q c (Ok (Some e)) t -> kids_run Q hl mc (n + 1) it (Ok (es, rest)) t' ->
      kids_run Q hl mc n (c :: it) (Ok (e :: es, rest)) (t ++ t')
  | kr_later n c it e t x t' : hl && (mc <? n + 1) = false -> Q c (Ok (Some e)) t -> kids_run Q hl mc (n + 1) it (Throw x) t' ->
      kids_run Q hl mc n (c :: it) (Throw x) (t ++ t').

  (** Runs of the sort: comparisons that return; at the end, one may throw. *)
  Inductive compare_run : trace -> Prop :=
  | cr_nil : compare_run []
  | cr_cons a b z t t' : Cc a b (Ok z) t -> compare_run t' -> compare_run (t ++ t').

  Definition order_run (l : list path) (r : res (list path)) (t : trace) : Prop :=
    match r with
    | Ok l' => compare_run t /\ Permutation l l' /\ forall g : ordering, (forall a b z u, Cc a b (Ok z) u -> z = g a b) -> in_order g l l'
    | Throw x => (exists a b t1 t2, t = t1 ++ t2 /\ compare_run t1 /\ Cc a b (Throw x) t2) \/ (compare_run t /\ x = ExIllegalArgument /\ (32 <= length l)%nat /\
                   forall g : ordering, contract g -> ~ forall a, agrees w (o_comparator o a) (g a))
    end.

  Inductive body_run (Q : path -> res (option entry) -> trace -> Prop) (p : path) (dl : dirlist) : res (list entry) -> trace -> Prop :=
  | br_limit x t : Cl p (Throw x) t -> body_run Q p dl (Throw x) t
  | br_filter mc t x t' : Cl p (Ok mc) t -> filter_run (map (child p) (dl_names dl)) (Throw x) t' ->
      body_run Q p dl (Throw x) (t ++ t')
  | br_iter mc t l t' : Cl p (Ok mc) t -> filter_run (map (child p) (dl_names dl)) (Ok l) t' -> dl_fail dl = true ->
      body_run Q p dl (Throw (ExDirectoryIterator p)) (t ++ t' ++ [EvIterFail p])
  | br_sort mc t l t' x ts : Cl p (Ok mc) t -> filter_run (map (child p) (dl_names dl)) (Ok l) t' -> dl_fail dl = false ->
      order_run l (Throw x) ts -> body_run Q p dl (Throw x) (t ++ t' ++ ts)
  | br_kids_throw mc t l t' order ts x t'' : Cl p (Ok mc) t -> filter_run (map (child p) (dl_names dl)) (Ok l) t' -> dl_fail dl = false ->
      order_run l (Ok order) ts -> kids_run Q (0 <=? mc) mc 0 order (Throw x) t'' ->
      body_run Q p dl (Throw x) (t ++ t' ++ ts ++ t'')
  | br_kids mc t l t' order ts es rest t'' : Cl p (Ok mc) t -> filter_run (map (child p) (dl_names dl)) (Ok l) t' -> dl_fail dl = false ->
      order_run l (Ok order) ts -> kids_run Q (0 <=? mc) mc 0 order (Ok (es, rest)) t'' ->
      body_run Q p dl (Ok (es ++ match rest with [] => [] | _ :: _ => [ESkipped p] end)) (t ++ t' ++ ts ++ t'').

  Definition after_close (p : path) (rb : res (list entry)) (ok : bool) : res (option entry) :=
    match rb with
    | Throw x => Throw x
    | Ok es => if ok then Ok (Some (EDir p es)) else Throw (ExUncheckedIO ListFiles p)
    end.

  Lemma path_filter_runs c h : exists r t, runs w (path_filter o c) h r t /\ flt_run c r t.
  Proof.
    unfold path_filter, pm_if_then_else.
    set (a := w_lstat w h c).
    assert (E : runs w (pm_is_directory c) h (Ok (match a with Some k' => kind_eqb k' KDir | None => false end)) [EvLstat c a])
      by reflexivity.
    destruct (match a with Some k' => kind_eqb k' KDir | None => false end) eqn:Eb.
    - destruct (Hd c (EvLstat c a :: h)) as (r & t & Hr & HC). exists r, (EvLstat c a :: t). split.
      + change (EvLstat c a :: t) with ([EvLstat c a] ++ t). eapply runs_bind_ok; [exact E|]. exact Hr.
      + exists h, a, t. split; [reflexivity|]. split; [reflexivity|left]. split; [|exact HC]. destruct a as [[]|]; discriminate || reflexivity.
    - destruct (Hf c (EvLstat c a :: h)) as (r & t & Hr & HC). exists r, (EvLstat c a :: t). split.
      + change (EvLstat c a :: t) with ([EvLstat c a] ++ t). eapply runs_bind_ok; [exact E|]. exact Hr.
      + exists h, a, t. split; [reflexivity|]. split; [reflexivity|right]. split; [|exact HC]. intros ->. discriminate.
  Qed.

  Lemma filterM_runs l : forall h, exists r t, runs w (filterM (path_filter o) l) h r t /\ filter_run l r t.
  Proof.
    induction l as [|c l IH]; intro h.
    - exists (Ok []), []. split; [reflexivity|constructor].
    - destruct (path_filter_runs c h) as (r & t & Hr & HC). destruct r as [b|x].
      + destruct (IH (rev t ++ h)) as (r' & t' & Hr' & HC'). destruct r' as [l'|x].
        * exists (Ok (if b then c :: l' else l')), (t ++ t'). split; [|econstructor; eauto].
          cbn [filterM]. eapply runs_bind_ok; [exact Hr|]. rewrite <- (app_nil_r t').
          eapply runs_bind_ok; [exact Hr'|]. reflexivity.
        * exists (Throw x), (t ++ t'). split; [|eapply fr_later; eauto].
          cbn [filterM]. eapply runs_bind_ok; [exact Hr|]. eapply runs_bind_throw. exact Hr'.
      + exists (Throw x), t. split; [|constructor; exact HC]. cbn [filterM]. eapply runs_bind_throw. exact Hr.
  Qed.

  Lemma run_sorting_runs (P : list path -> Prop) s : outcomes P s -> forall h, exists r t, runs w (run_sorting (o_comparator o) s) h r t /\
    match r with
    | Ok l' => compare_run t /\ P l' /\ forall g : ordering, (forall a b z u, Cc a b (Ok z) u -> z = g a b) -> eval g s = Some l'
    | Throw x => (exists a b t1 t2, t = t1 ++ t2 /\ compare_run t1 /\ Cc a b (Throw x) t2) \/
                 (compare_run t /\ x = ExIllegalArgument /\ (forall from Q, ~ holds (fun _ _ _ => True) from False Q s) /\
                  forall g : ordering, (forall a, agrees w (o_comparator o a) (g a)) -> eval g s = None)
    end.
  Proof.
    induction s as [l| | |a b k IH]; cbn [outcomes run_sorting]; intros HP h.
    - exists (Ok l), []. split; [reflexivity|]. split; [constructor|]. split; [exact HP|]. reflexivity.
    - exists (Throw ExIllegalArgument), []. split; [reflexivity|]. right. split; [constructor|]. split; [reflexivity|]. split; [intros from Q []|reflexivity].
    - destruct HP.
    - destruct (Hc a b h) as (r & t & Hr & HC). destruct r as [z|x].
      + destruct (IH z (HP z) (rev t ++ h)) as (r' & t' & Hr' & H'). exists r', (t ++ t'). split; [eapply runs_bind_ok; eauto|].
        destruct r' as [l'|x].
        * destruct H' as (H1 & H2 & H3). split; [econstructor; eauto|]. split; [exact H2|]. intros g Hg. cbn [eval].
          rewrite <- (Hg a b z t HC). now apply H3.
        * destruct H' as [(a' & b' & t1 & t2 & -> & H1 & H2)|(H1 & -> & H2 & H3)].
          { left. exists a', b', (t ++ t1), t2. split; [apply app_assoc|]. split; [econstructor; eauto|exact H2]. }
          right. split; [econstructor; eauto|]. split; [reflexivity|]. split.
          { intros from Q (_ & _ & Hk). eapply H2, Hk, I. }
          intros g Hg. cbn [eval]. rewrite <- (Hg a b h z _ Hr). now apply H3.
      + exists (Throw x), t. split; [eapply runs_bind_throw; exact Hr|]. left. exists a, b, [], t. split; [reflexivity|]. split; [constructor|exact HC].
  Qed.

  Lemma sorted_runs l h : exists r t, runs w (sorted (o_comparator o) l) h r t /\ order_run l r t.
  Proof.
    destruct (run_sorting_runs (Permutation l) (tim_sort l) (tim_sort_outcomes l) h) as (r & t & Hr & HC). unfold sorted.
    exists r, t. split; [exact Hr|]. destruct r as [l'|x].
    - destruct HC as (H1 & H2 & H3). split; [exact H1|]. split; [exact H2|]. intros g Hg. pose proof (tim_sort_in_order g l) as HO. unfold psort in HO.
      now rewrite (H3 g Hg) in HO.
    - destruct HC as [HC|(H1 & H2 & H3 & H4)]; [now left|right]. split; [exact H1|]. split; [exact H2|]. split.
      + destruct (Nat.le_gt_cases 32 (length l)) as [L|L]; [exact L|]. exfalso. apply (H3 l (fun _ => True)).
        apply tim_sort_ok with (H := False) (g := fun _ _ => 0); [intros []|auto|apply incl_refl|auto].
      + intros g Hg Ha. pose proof (sort_fine g l (or_introl Hg)) as HF. unfold sort_fails in HF. now rewrite (H4 g Ha) in HF.
  Qed.

  Lemma children_loop_runs (Q : path -> res (option entry) -> trace -> Prop) (hc : path -> M (option entry)) hl mc :
    obeys w hc Q -> (forall c w h h', hc c w h <> (Ok None, h')) ->
    forall it n acc h, exists r t,
      kids_run Q hl mc n it r t /\
      runs w (children_loop hc hl mc n acc it) h
        (match r with Ok (es, rest) => Ok (acc ++ es, rest) | Throw x => Throw x end) t.
  Proof.
    intros HQ Hnn. induction it as [|c it IH]; intros n acc h.
    - exists (Ok ([], [])), []. split; [constructor|]. unfold runs. cbn. now rewrite app_nil_r.
    - cbn [children_loop]. destruct (hl && (mc <? n + 1)) eqn:E.
      + apply andb_prop in E. destruct E as [E1 E2]. apply Z.ltb_lt in E2.
        exists (Ok ([], c :: it)), []. split; [now constructor|]. unfold runs. cbn. now rewrite app_nil_r.
      + destruct (HQ c h) as (r & t & Hr & HC). destruct r as [[e|]|x].
        * destruct (IH (n + 1) (acc ++ [e]) (rev t ++ h)) as (r' & t' & Hk & Hr'). destruct r' as [[es rest]|x].
          -- exists (Ok (e :: es, rest)), (t ++ t'). split; [econstructor; eauto|].
             eapply runs_bind_ok; [exact Hr|]. cbn beta iota. rewrite <- app_assoc in Hr'. exact Hr'.
          -- exists (Throw x), (t ++ t'). split; [eapply kr_later; eauto|].
             eapply runs_bind_ok; [exact Hr|]. exact Hr'.
        * exfalso. eapply Hnn. exact Hr.
        * exists (Throw x), t. split; [now constructor|]. eapply runs_bind_throw. exact Hr.
  Qed.

  Lemma hdc_runs (Q : path -> res (option entry) -> trace -> Prop) (hc : path -> M (option entry)) p dl :
    obeys w hc Q -> (forall c w h h', hc c w h <> (Ok None, h')) ->
    forall h, exists r t, body_run Q p dl r t /\ runs w (handle_directory_children o hc p dl (path_filter o)) h r t.
  Proof.
    intros HQ Hnn h. unfold handle_directory_children.
    destruct (Hl p h) as (r & t & Hr & HC). destruct r as [mc|x].
    2:{ exists (Throw x), t. split; [now constructor|]. eapply runs_bind_throw. exact Hr. }
    destruct (filterM_runs (map (child p) (dl_names dl)) (rev t ++ h)) as (r' & t' & Hr' & HC').
    destruct r' as [l|x].
    2:{ exists (Throw x), (t ++ t'). split; [eapply br_filter; eauto|].
        eapply runs_bind_ok; [exact Hr|]. eapply runs_bind_throw. unfold stream_paths. eapply runs_bind_throw. exact Hr'. }
    destruct (dl_fail dl) eqn:Ed.
    { exists (Throw (ExDirectoryIterator p)), (t ++ t' ++ [EvIterFail p]). split; [eapply br_iter; eauto|].
      eapply runs_bind_ok; [exact Hr|]. eapply runs_bind_throw. unfold stream_paths. eapply runs_bind_ok; [exact Hr'|].
      rewrite Ed. reflexivity. }
    assert (Hst : runs w (stream_paths p dl (path_filter o)) (rev t ++ h) (Ok l) t').
    { unfold stream_paths. rewrite <- (app_nil_r t'). eapply runs_bind_ok; [exact Hr'|]. rewrite Ed. reflexivity. }
    destruct (sorted_runs l (rev t' ++ rev t ++ h)) as (ro & ts & Hso & HCo). destruct ro as [order|x].
    2:{ exists (Throw x), (t ++ t' ++ ts). split; [eapply br_sort; eauto|].
      eapply runs_bind_ok; [exact Hr|]. eapply runs_bind_ok; [exact Hst|]. eapply runs_bind_throw. exact Hso. }
    destruct (children_loop_runs Q hc (0 <=? mc) mc HQ Hnn order 0 [] (rev ts ++ rev t' ++ rev t ++ h))
      as (r'' & t'' & Hk & Hr''). destruct r'' as [[es rest]|x].
    - exists (Ok (es ++ match rest with [] => [] | _ :: _ => [ESkipped p] end)), (t ++ t' ++ ts ++ t'').
      split; [eapply br_kids; eauto|].
      eapply runs_bind_ok; [exact Hr|]. eapply runs_bind_ok; [exact Hst|].
      eapply runs_bind_ok; [exact Hso|]. rewrite <- (app_nil_r t'').
      eapply runs_bind_ok; [exact Hr''|]. reflexivity.
    - exists (Throw x), (t ++ t' ++ ts ++ t''). split; [eapply br_kids_throw; eauto|].
      eapply runs_bind_ok; [exact Hr|]. eapply runs_bind_ok; [exact Hst|].
      eapply runs_bind_ok; [exact Hso|]. eapply runs_bind_throw. exact Hr''.
  Qed.

  (** The induction principle: [Q] holds of every run of [handle] if it is closed under these cases. *)
  Section Induct.
    Context (Q : Z -> path -> res (option entry) -> trace -> Prop).
    Hypothesis Qfile : forall d p h a k, w_lstat w h p = a -> a <> Some KDir -> w_stat w (EvLstat p a :: h) p = Some k ->
      Q d p (Ok (Some (EFile p k))) [EvLstat p a; EvStat p (Some k)].
    Hypothesis Qfile_fail : forall d p h a, w_lstat w h p = a -> a <> Some KDir -> w_stat w (EvLstat p a :: h) p = None ->
      Q d p (Throw (ExUncheckedIO ReadAttributes p)) [EvLstat p a; EvStat p None].
    Hypothesis Qcut : forall d p h, w_lstat w h p = Some KDir -> 0 <= d -> o_max_depth o <= d -> Q d p (Ok (Some (EDir p [EMaxDepth d]))) [EvLstat p (Some KDir)].
    Hypothesis Qopen_fail : forall d p h, w_lstat w h p = Some KDir -> 0 <= d -> d < o_max_depth o -> w_open w (EvLstat p (Some KDir) :: h) p = None ->
      Q d p (Throw (ExUncheckedIO ListFiles p)) [EvLstat p (Some KDir); EvOpenFail p].
    Hypothesis Qdir : forall d p h dl rb t ok, w_lstat w h p = Some KDir -> 0 <= d -> d < o_max_depth o ->
      w_open w (EvLstat p (Some KDir) :: h) p = Some dl -> body_run (Q (d + 1)) p dl rb t -> (exists h', ok = w_close_ok w h' p) ->
      Q d p (after_close p rb ok) ([EvLstat p (Some KDir); EvOpen p] ++ t ++ [EvClose p ok]).

    Lemma handle_runs fuel : forall d, 0 <= d -> (Z.to_nat (o_max_depth o - d) <= fuel)%nat ->
      obeys w (fun p => handle fuel o d p (path_filter o)) (Q d).
    Proof.
      assert (Hfile : forall d p a h, w_lstat w h p = a -> a <> Some KDir -> forall h1, h1 = EvLstat p a :: h ->
                exists r t, runs w (handle_file p) h1 r t /\ Q d p r ([EvLstat p a] ++ t)).
      { intros d p a h Ea Hna h1 ->. unfold handle_file.
        destruct (w_stat w (EvLstat p a :: h) p) as [k|] eqn:Es.
        - exists (Ok (Some (EFile p k))), [EvStat p (Some k)]. split; [|now apply (Qfile d p h a k)].
          unfold runs, bind, stat. now rewrite Es.
        - exists (Throw (ExUncheckedIO ReadAttributes p)), [EvStat p None]. split; [|now apply (Qfile_fail d p h a)].
          unfold runs, bind, stat. now rewrite Es. }
      induction fuel as [|fuel IH]; intros d Hd0 Hfuel p h; cbn [handle];
        set (a := w_lstat w h p);
        assert (E : runs w (pm_is_directory p) h (Ok (match a with Some k' => kind_eqb k' KDir | None => false end)) [EvLstat p a])
          by reflexivity;
        destruct (match a with Some k' => kind_eqb k' KDir | None => false end) eqn:Eb.
      - assert (Ha : a = Some KDir) by (destruct a as [[]|]; discriminate || reflexivity).
        rewrite Ha in E. exists (Ok (Some (EDir p [EMaxDepth d]))), [EvLstat p (Some KDir)]. split; [|apply (Qcut d p h Ha); lia].
        rewrite <- (app_nil_r [EvLstat p (Some KDir)]). eapply runs_bind_ok; [exact E|]. cbn iota.
        destruct (Z.leb_spec (o_max_depth o) d); [|lia]. unfold new_max_depth_entry.
        destruct (Z.ltb_spec d 0); [lia|]. reflexivity.
      - assert (Ha : a <> Some KDir) by (intro Ha; rewrite Ha in Eb; discriminate).
        destruct (Hfile d p a h eq_refl Ha _ eq_refl) as (r & t & Hr & HQ). exists r, ([EvLstat p a] ++ t). split; [|exact HQ].
        eapply runs_bind_ok; [exact E|]. exact Hr.
      - assert (Ha : a = Some KDir) by (destruct a as [[]|]; discriminate || reflexivity).
        rewrite Ha in E. destruct (Z.leb_spec (o_max_depth o) d) as [Hle|Hgt].
        + exists (Ok (Some (EDir p [EMaxDepth d]))), [EvLstat p (Some KDir)]. split; [|apply (Qcut d p h Ha); lia].
          rewrite <- (app_nil_r [EvLstat p (Some KDir)]). eapply runs_bind_ok; [exact E|]. cbn iota.
          unfold new_max_depth_entry. destruct (Z.ltb_spec d 0); [lia|]. reflexivity.
        + destruct (w_open w (EvLstat p (Some KDir) :: h) p) as [dl|] eqn:Eo.
          * assert (HQ : obeys w (fun c => handle fuel o (d + 1) c (path_filter o)) (Q (d + 1))) by (apply IH; lia).
            destruct (hdc_runs (Q (d + 1)) _ p dl HQ ltac:(intros; apply handle_not_none) (EvOpen p :: EvLstat p (Some KDir) :: h))
              as (rb & t & Hb & Hr).
            set (h2 := rev t ++ EvOpen p :: EvLstat p (Some KDir) :: h) in *.
            exists (after_close p rb (w_close_ok w h2 p)), ([EvLstat p (Some KDir); EvOpen p] ++ t ++ [EvClose p (w_close_ok w h2 p)]).
            split; [|apply (Qdir d p h dl rb t _ Ha Hd0 Hgt Eo Hb (ex_intro _ h2 eq_refl))]. cbn [app].
            change (EvLstat p (Some KDir) :: EvOpen p :: t ++ [EvClose p (w_close_ok w h2 p)])
              with ([EvLstat p (Some KDir)] ++ [EvOpen p] ++ t ++ [EvClose p (w_close_ok w h2 p)]).
            eapply runs_bind_ok; [exact E|]. cbn iota. eapply runs_bind_ok.
            { unfold runs, open_dir. cbn [rev app]. rewrite Eo. reflexivity. }
            cbn iota. unfold runs, bind, with_close. unfold runs in Hr. cbn [rev app]. rewrite Hr. fold h2.
            rewrite rev_app_distr. cbn [rev app].
            destruct rb as [es|x]; cbn [after_close]; unfold close_dir.
            -- destruct (w_close_ok w h2 p) eqn:Ec; reflexivity.
            -- reflexivity.
          * exists (Throw (ExUncheckedIO ListFiles p)), [EvLstat p (Some KDir); EvOpenFail p]. split; [|now apply (Qopen_fail d p h)].
            change [EvLstat p (Some KDir); EvOpenFail p] with ([EvLstat p (Some KDir)] ++ [EvOpenFail p]).
            eapply runs_bind_ok; [exact E|]. cbn iota. rewrite <- (app_nil_r [EvOpenFail p]). eapply runs_bind_ok.
            { unfold runs, open_dir. cbn [rev app]. rewrite Eo. reflexivity. }
            reflexivity.
      - assert (Ha : a <> Some KDir) by (intro Ha; rewrite Ha in Eb; discriminate).
        destruct (Hfile d p a h eq_refl Ha _ eq_refl) as (r & t & Hr & HQ). exists r, ([EvLstat p a] ++ t). split; [|exact HQ].
        eapply runs_bind_ok; [exact E|]. exact Hr.
    Qed.
  End Induct.
End Trace.
