(** * Debug mode when the paths contain percent signs *)

From Verif Require Import SpecFormat FormatFacts DebugFacts PathFacts CliFacts.
Close Scope Z_scope.

Section Trail.
  Context (w : cworld) (fs : files) (Hw : steady_files w fs) (Hu : usual_linesep (cw_linesep w)).
  Let cwd := jv_cwd (w_jvm (cw_world w)).
  Let ls := cw_linesep w.

  Lemma usual_plain : no_percent ls.
  Proof. exact (linesep_plain _ Hu). Qed.

  Lemma written_prefix p s o : no_percent p -> written_as ls (p ++ s) (p ++ o) <-> written_as ls s o.
  Proof.
    intro Hp. split.
    - intro H. apply written_cut in H as (o' & E & H); [|exact Hp]. now apply app_inv_head in E as ->.
    - intro H. apply written_app; [now apply written_plain|exact H].
  Qed.

  Lemma intro_plain : no_percent (js "[DEBUG] Options file does not exist: ").
  Proof. clear. unfold no_percent. vm_compute. intuition discriminate. Qed.

  (** The message about a missing file. *)
  Lemma missing_message p s :
    (exists o, written_as ls (path_str p) o /\
       print_debug true (js "Options file does not exist: " ++ path_str p) [] w s =
         (COk tt, write_out (js "[DEBUG] " ++ (js "Options file does not exist: " ++ o) ++ ls) s)) \/
    ((forall o, ~ written_as ls (path_str p) o) /\ exists b, begun ls (js "[DEBUG] Options file does not exist: " ++ path_str p) b /\
       print_debug true (js "Options file does not exist: " ++ path_str p) [] w s =
         (CThrow (XFormat (js "[DEBUG] Options file does not exist: " ++ path_str p ++ ls)), write_out b s)).
  Proof.
    unfold print_debug.
    change (js "[DEBUG] " ++ js "Options file does not exist: " ++ path_str p) with (js "[DEBUG] Options file does not exist: " ++ path_str p).
    destruct (put_out w Hu StdOut (js "[DEBUG] Options file does not exist: " ++ path_str p) s) as [(o & Ho & E)|(Hno & b & Hb & E)].
    - left. apply written_cut in Ho as (o' & -> & Ho); [|exact intro_plain]. exists o'. split; [exact Ho|]. rewrite E. f_equal.
    - right. split; [|exists b; split; [exact Hb|]; now rewrite E, <- app_assoc]. intros o Ho.
      apply (Hno (js "[DEBUG] Options file does not exist: " ++ o)). apply written_prefix; [exact intro_plain|exact Ho].
  Qed.

  Lemma sim_missing p o : written_as ls (path_str p) o ->
    sim w (print_debug true (js "Options file does not exist: " ++ path_str p) []) (print_debug false (js "Options file does not exist: " ++ path_str p) [])
      (COk tt) [js "Options file does not exist: " ++ o].
  Proof.
    intros Ho sd sp (H1 & H2 & H3). destruct (missing_message p sd) as [(o' & Ho' & E)|(Hno & _)]; [|now destruct (Hno o)].
    rewrite (written_function _ _ _ _ Ho Ho'). eexists _, sp. split; [exact E|]. split; [reflexivity|]. split; [repeat split; assumption|].
    cbn [write_out cs_out debug_lines flat_map]. rewrite app_nil_r. now split.
  Qed.

  Lemma read_missing b p q s : resolved cwd p q -> missing fs q -> read_simple b p w s = (COk None, log (CExists q) s).
  Proof.
    intros Hq Hm. unfold read_simple, cbind, absolute, cbind, get_world, cret. fold cwd. rewrite (resolved_absolute _ _ _ Hq).
    unfold file_exists, ask. rewrite (proj1 (Hw _ q)). unfold missing in Hm. now rewrite Hm.
  Qed.

  Lemma trail_exists l : Forall (fun pq => resolved cwd (fst pq) (snd pq)) l -> exists msgs stop, trail w fs l msgs stop /\
    match stop with
    | None => exists r, sim w (read_fallback true (map fst l)) (read_fallback false (map fst l)) r msgs
    | Some p => forall s, exists new b, begun ls (js "[DEBUG] Options file does not exist: " ++ path_str p) b /\
        read_fallback true (map fst l) w s =
          (CThrow (XFormat (js "[DEBUG] Options file does not exist: " ++ path_str p ++ ls)),
           mkCState (new ++ cs_events s) (cs_hist s) (cs_out s ++ debug_text ls msgs ++ b) (cs_err s)) /\
        Forall (fun e => exists q, e = CExists q /\ In q (map snd l)) new
    end.
  Proof.
    induction l as [|[p q] l IH]; intro HF; cbn [map read_fallback fst].
    - eexists _, None. split; [apply tr_none|]. exists (COk None). change [?a] with ([a] ++ []).
      eapply sim_bind; [apply sim_report; [exact usual_plain|apply np; reflexivity]|]. apply sim_ret.
    - apply Forall_cons_iff in HF. destruct HF as [Hq HF]. cbn [fst snd] in Hq. destruct (f_exists fs q) eqn:E.
      + destruct (sim_read_simple w fs Hw usual_plain p q Hq) as (r & m & Ht & Hs & _ & He). exists m, None. split; [now apply tr_found|].
        exists r. destruct r as [[x|]|e]; [|now destruct (He E)|now apply sim_stop].
        rewrite <- (app_nil_r m). eapply sim_bind; [exact Hs|]. apply sim_ret.
      + destruct (missing_message p (mkCState [] [] [] [])) as [(o & Ho & _)|(Hno & _)].
        * destruct (IH HF) as (msgs & stop & Ht & K). exists ((js "Options file does not exist: " ++ o) :: msgs), stop.
          split; [apply tr_skip; assumption|]. destruct stop as [p'|].
          -- intro s. set (s1 := write_out (js "[DEBUG] " ++ (js "Options file does not exist: " ++ o) ++ ls) (log (CExists q) s)).
             destruct (K s1) as (new & b & Hb & Er & Hn). exists (new ++ [CExists q]), b. split; [exact Hb|]. split.
             ++ unfold cbind at 1. rewrite (read_missing true p q s Hq E). unfold cbind.
                destruct (missing_message p (log (CExists q) s)) as [(o' & Ho' & Ep)|(Hno & _)]; [|now destruct (Hno o)].
                rewrite (written_function _ _ _ _ Ho' Ho) in Ep. fold s1 in Ep. rewrite Ep, Er. cbn [s1 write_out log cs_events cs_hist cs_out cs_err].
                unfold debug_text. cbn [flat_map]. now rewrite <- !app_assoc.
             ++ apply Forall_app. split; [|constructor; [exists q; split; [reflexivity|now left]|constructor]].
                eapply Forall_impl; [|exact Hn]. intros e (q' & -> & Hq'). exists q'. split; [reflexivity|now right].
          -- destruct K as (r & Hs). exists r. destruct (sim_read_simple w fs Hw usual_plain p q Hq) as (r1 & m1 & _ & Hs1 & Hm & _).
             destruct (Hm E) as [-> ->]. change (?a :: msgs) with ([] ++ [a] ++ msgs). eapply sim_bind; [exact Hs1|]. eapply sim_bind; [|exact Hs].
             now apply sim_missing.
        * exists [], (Some p). split; [now apply tr_stop|]. intro s. unfold cbind at 1. rewrite (read_missing true p q s Hq E). unfold cbind.
          destruct (missing_message p (log (CExists q) s)) as [(o & Ho & _)|(_ & b & Hb & Ep)]; [now destruct (Hno o)|].
          exists [CExists q], b. split; [exact Hb|]. rewrite Ep. split; [reflexivity|]. constructor; [|constructor]. exists q. split; [reflexivity|now left].
  Qed.

  Lemma fallbacks_resolved T here home : resolved cwd T T -> resolved cwd (mkPath false [js ".prettyprint"]) here ->
    resolved cwd (mkPath (p_abs (cw_home w)) (p_names (cw_home w) ++ [js ".prettyprint"])) home ->
    Forall (fun pq => resolved cwd (fst pq) (snd pq)) (fallbacks w T here home) /\ map fst (fallbacks w T here home) = fallback_paths (cw_home w) T.
  Proof.
    intros (Ta & _ & Tf) Hhere Hhome. split.
    - unfold fallbacks. repeat apply Forall_cons; try apply Forall_nil; cbn [fst snd].
      + apply resolved_self; [reflexivity|]. cbn [p_names]. apply Forall_app. split; [exact Tf|]. constructor; [|constructor]. split; vm_compute; discriminate.
      + destruct Hhere as (H1 & H2 & H3). split; [exact H1|]. split; [|exact H3].
        eapply same_trans; [|exact H2]. apply (same_dot cwd false [] [js ".prettyprint"]).
      + exact Hhome.
    - unfold fallbacks, fallback_paths, resolve_name, options_name. rewrite Ta. reflexivity.
  Qed.

  Theorem debug_fallback t T here home s : resolved cwd (asked_target (mkArgs t None false)) T -> f_exists fs T = true ->
    resolved cwd (mkPath false [js ".prettyprint"]) here ->
    resolved cwd (mkPath (p_abs (cw_home w)) (p_names (cw_home w) ++ [js ".prettyprint"])) home ->
    exists msgs stop, trail w fs (fallbacks w T here home) msgs stop /\
      let plain := run_cli (mkArgs t None false) w s in let debug := run_cli (mkArgs t None true) w s in
      match stop with
      | None => exists text,
          fst debug = fst plain /\ cs_events (snd debug) = cs_events (snd plain) /\ cs_hist (snd debug) = cs_hist (snd plain) /\
          cs_err (snd debug) = cs_err (snd plain) /\
          cs_out (snd plain) = cs_out s ++ text /\ cs_out (snd debug) = cs_out s ++ debug_text ls (debug_opening t T ++ msgs) ++ text
      | Some p => exists b new err,
          fst debug = 1%Z /\ cs_hist (snd debug) = cs_hist s /\
          cs_events (snd debug) = new ++ cs_events s /\
          Forall (fun e => exists q, e = CExists q /\ In q (T :: map snd (fallbacks w T here home))) new /\
          begun ls (js "[DEBUG] Options file does not exist: " ++ path_str p) b /\
          cs_out (snd debug) = cs_out s ++ debug_text ls (debug_opening t T ++ msgs) ++ b /\
          error_output w (js "Error while pretty printing: " ++ cw_message w (XFormat (js "[DEBUG] Options file does not exist: " ++ path_str p ++ ls))) err /\
          cs_err (snd debug) = cs_err s ++ err
      end.
  Proof.
    intros HT Te Hhere Hhome. assert (HTT : resolved cwd T T) by (destruct HT as (H1 & _ & H3); now apply resolved_self).
    destruct (fallbacks_resolved T here home HTT Hhere Hhome) as [HF Hmap]. set (l := fallbacks w T here home) in *.
    destruct (trail_exists l HF) as (msgs & stop & Ht & K). exists msgs, stop. split; [exact Ht|]. cbn zeta. rewrite Hmap in K.
    assert (Hlook : no_percent (js "No options file provided, looking for fallback options files...")) by (apply np; reflexivity).
    destruct stop as [p|].
    - destruct (sim_target w usual_plain t None T HT s s (conj eq_refl (conj eq_refl eq_refl))) as (s1 & sp & E1 & E2 & (V1 & V2 & V3) & O1 & _).
      assert (Esp : sp = s).
      { unfold detect_target in E2. cbn [a_target a_debug] in E2. destruct t; unfold cbind, absolute, cbind, get_world, cret, print_debug in E2; now inversion E2. }
      subst sp. set (s2 := log (CExists T) s1).
      destruct (sim_report w usual_plain _ Hlook s2 s2 (conj eq_refl (conj eq_refl eq_refl))) as (s3 & sp & E3 & E4 & (V4 & V5 & V6) & O3 & _).
      assert (sp = s2) by (unfold print_debug in E4; now inversion E4). subst sp.
      destruct (K s3) as (new & b & Hb & Er & Hn).
      assert (Ec : command (mkArgs t None true) w s =
        (CThrow (XFormat (js "[DEBUG] Options file does not exist: " ++ path_str p ++ ls)),
         mkCState (new ++ cs_events s3) (cs_hist s3) (cs_out s3 ++ debug_text ls msgs ++ b) (cs_err s3))).
      { unfold command. unfold cbind at 1. rewrite E1. unfold cbind at 1. unfold file_exists, ask. rewrite (proj1 (Hw _ T)), Te. cbn [negb]. fold s2.
        cbn [a_options a_debug]. unfold cbind at 1, cret at 1. unfold cbind at 1. unfold load_options. unfold cbind at 1. cbn [read_options].
        unfold cbind at 1. rewrite E3. unfold cbind at 1, get_world. rewrite Er. reflexivity. }
      unfold run_cli. rewrite Ec.
      destruct (FormatFacts.reported w Hu (XFormat (js "[DEBUG] Options file does not exist: " ++ path_str p ++ ls))
        (mkCState (new ++ cs_events s3) (cs_hist s3) (cs_out s3 ++ debug_text ls msgs ++ b) (cs_err s3))) as (err & He & ->).
      exists b, (new ++ [CExists T]), err. cbn [fst snd write_err cs_events cs_hist cs_out cs_err].
      split; [reflexivity|]. split; [rewrite V5; exact V2|].
      split; [rewrite V4, <- app_assoc; cbn [s2 log cs_events app]; now rewrite V1|].
      split. { apply Forall_app. split; [|constructor; [exists T; split; [reflexivity|now left]|constructor]].
        eapply Forall_impl; [|exact Hn]. intros e (q & -> & Hq). exists q. split; [reflexivity|now right]. }
      split; [exact Hb|]. split; [|split; [exact He|]].
      + rewrite O3. cbn [s2 log cs_out]. rewrite O1. unfold debug_opening, debug_text, debug_lines. rewrite !flat_map_app. cbn [flat_map].
        now rewrite ?app_nil_r, <- !app_assoc.
      + f_equal. rewrite V6. exact V3.
    - destruct K as (r & Hs).
      destruct (both_runs w t None (debug_opening t T ++ msgs) s) as (text & H1 & (H2 & H3 & H4) & H5 & H6).
      + unfold debug_opening. rewrite <- app_assoc. apply (both_read w fs Hw usual_plain t None T r); [exact HT|exact Te|].
        change (_ :: msgs) with ([] ++ [js "No options file provided, looking for fallback options files..."] ++ msgs).
        eapply sim_bind; [apply sim_ret|]. cbn [read_options]. eapply sim_bind; [apply sim_report; [exact usual_plain|exact Hlook]|].
        intros sd sp Ha. unfold cbind, get_world. now apply Hs.
      + exists text. repeat split; assumption.
  Qed.
End Trail.
