(** * Facts about debug mode *)

From Verif Require Import DocFacts PathFacts CliFacts.
From Coq Require Import Lia.
Close Scope Z_scope.

Local Ltac fin := repeat match goal with |- _ /\ _ => split end; first [reflexivity|assumption|repeat split; assumption].

Section Debug.
  Context (w : cworld) (fs : files) (Hw : steady_files w fs) (Hls : no_percent (cw_linesep w)).
  Let cwd := jv_cwd (w_jvm (cw_world w)).

  Definition debug_lines (msgs : list jstring) : jstring := flat_map (fun m => js "[DEBUG] " ++ m ++ cw_linesep w) msgs.

  Lemma debug_lines_app l l' : debug_lines (l ++ l') = debug_lines l ++ debug_lines l'.
  Proof. apply flat_map_app. Qed.

  (** The two runs, apart from standard output. *)
  Definition alike (sd sp : cstate) : Prop := cs_events sd = cs_events sp /\ cs_hist sd = cs_hist sp /\ cs_err sd = cs_err sp.

  (** [md] does what [mp] does, and reports [msgs]. *)
  Definition sim {A} (md mp : C A) (r : cres A) (msgs : list jstring) : Prop :=
    forall sd sp, alike sd sp -> exists sd' sp', md w sd = (r, sd') /\ mp w sp = (r, sp') /\ alike sd' sp' /\
      cs_out sd' = cs_out sd ++ debug_lines msgs /\ cs_out sp' = cs_out sp.

  Lemma sim_ret {A} (a : A) : sim (cret a) (cret a) (COk a) [].
  Proof. intros sd sp H. exists sd, sp. rewrite app_nil_r. repeat split; apply H. Qed.

  Lemma sim_throw {A} e : sim (cthrow (A := A) e) (cthrow e) (CThrow e) [].
  Proof. intros sd sp H. exists sd, sp. rewrite app_nil_r. repeat split; apply H. Qed.

  Lemma sim_bind {A B} (md mp : C A) a msgs (fd fp : A -> C B) r msgs' :
    sim md mp (COk a) msgs -> sim (fd a) (fp a) r msgs' -> sim (x <~ md; fd x) (x <~ mp; fp x) r (msgs ++ msgs').
  Proof.
    intros H H' sd sp Ha. destruct (H sd sp Ha) as (sd1 & sp1 & E1 & E2 & Ha1 & O1 & O2).
    destruct (H' sd1 sp1 Ha1) as (sd2 & sp2 & E3 & E4 & Ha2 & O3 & O4). exists sd2, sp2. unfold cbind. rewrite E1, E2.
    split; [exact E3|]. split; [exact E4|]. split; [exact Ha2|]. rewrite O3, O1, debug_lines_app, app_assoc. split; [reflexivity|congruence].
  Qed.

  Lemma sim_stop {A B} (md mp : C A) e msgs (fd fp : A -> C B) :
    sim md mp (CThrow e) msgs -> sim (x <~ md; fd x) (x <~ mp; fp x) (CThrow e) msgs.
  Proof.
    intros H sd sp Ha. destruct (H sd sp Ha) as (sd1 & sp1 & E1 & E2 & Ha1 & O1 & O2). exists sd1, sp1. unfold cbind. rewrite E1, E2.
    repeat split; first [exact O1|exact O2|apply Ha1].
  Qed.

  Lemma sim_report (msg : jstring) : no_percent msg -> sim (print_debug true msg []) (print_debug false msg []) (COk tt) [msg].
  Proof.
    intros Hn sd sp (H1 & H2 & H3). unfold print_debug. rewrite printfln_plain; [|apply no_percent_app; split; [|exact Hn]|exact Hls].
    - eexists _, sp. split; [reflexivity|]. split; [reflexivity|]. split; [repeat split; assumption|].
      cbn [put_to write_out cs_out debug_lines flat_map]. rewrite app_nil_r, <- !app_assoc. now split.
    - vm_compute. intuition discriminate.
  Qed.

  Lemma sim_report_s msg arg : no_percent msg ->
    sim (print_debug true (msg ++ js "%s") [arg]) (print_debug false (msg ++ js "%s") [arg]) (COk tt) [msg ++ arg].
  Proof.
    intros Hn sd sp (H1 & H2 & H3). unfold print_debug. rewrite app_assoc, printfln_s; [|apply no_percent_app; split; [|exact Hn]|exact Hls].
    - eexists _, sp. split; [reflexivity|]. split; [reflexivity|]. split; [repeat split; assumption|].
      cbn [put_to write_out cs_out debug_lines flat_map]. rewrite app_nil_r, <- !app_assoc. now split.
    - vm_compute. intuition discriminate.
  Qed.

  Lemma sim_ask f e p b : (forall s, f w s p = b) -> sim (ask f e p) (ask f e p) (COk b) [].
  Proof.
    intros Hf sd sp (H1 & H2 & H3). unfold ask. rewrite !Hf. do 2 eexists. split; [reflexivity|]. split; [reflexivity|].
    split; [repeat split; cbn [log cs_events cs_hist cs_err]; congruence|]. cbn [log cs_out debug_lines flat_map]. now rewrite app_nil_r.
  Qed.

  Lemma sim_absolute p q : resolved cwd p q -> sim (absolute p) (absolute p) (COk q) [].
  Proof.
    intros Hq sd sp H. exists sd, sp. unfold absolute, cbind, get_world, cret. fold cwd. rewrite (resolved_absolute _ _ _ Hq), app_nil_r.
    repeat split; apply H.
  Qed.

  Lemma sim_reading {A} p (md mp : C A) a msgs : sim md mp (COk a) msgs -> sim (reading p md) (reading p mp) (COk a) msgs.
  Proof.
    intros H sd sp Ha. destruct (H sd sp Ha) as (sd' & sp' & E1 & E2 & Ha' & O). exists sd', sp'. unfold reading. rewrite E1, E2. now repeat split; try apply Ha'; apply O.
  Qed.

  Lemma sim_load q x msg : match f_load fs q with
      | LoadFails => x = CThrow (XOptions q (js "IO error or malformed options file")) /\ msg = []
      | LoadNull => x = COk None /\ msg = [js "null"]
      | LoadDoc d => x = COk (Some d) /\ msg = [to_text_block (cw_linesep w) (v_options d)] end ->
    sim (load true q) (load false q) x msg.
  Proof.
    intros Hx sd sp Ha. unfold load. rewrite !(proj2 (proj2 (proj2 (Hw _ q)))).
    assert (Ha' : alike (log (CLoad q) sd) (log (CLoad q) sp)) by (destruct Ha as (H1 & H2 & H3); repeat split; cbn [log cs_events cs_hist cs_err]; congruence).
    assert (K : forall t (d : option xoptions), sim (reading q (print_debug true (js "%s") [t] ~; cret d)) (reading q (print_debug false (js "%s") [t] ~; cret d)) (COk d) [t]).
    { intros t d. apply sim_reading. change [t] with ([t] ++ []). eapply sim_bind; [|apply sim_ret]. apply (sim_report_s [] t). intros []. }
    destruct (f_load fs q) as [| |d]; destruct Hx as [-> ->].
    - do 2 eexists. split; [reflexivity|]. split; [reflexivity|]. split; [exact Ha'|]. cbn. now rewrite app_nil_r.
    - exact (K (js "null") None _ _ Ha').
    - exact (K (to_text_block (cw_linesep w) (v_options d)) (Some d) _ _ Ha').
  Qed.

  Lemma np (s : jstring) : forallb (fun c => negb (c =? c_percent)%N) s = true -> no_percent s.
  Proof. rewrite forallb_forall. intros H Hi. specialize (H _ Hi). now rewrite N.eqb_refl in H. Qed.

  Lemma sim_read_simple p q : resolved cwd p q ->
    exists r msgs, told w fs q msgs /\ sim (read_simple true p) (read_simple false p) r msgs /\
      (missing fs q -> r = COk None /\ msgs = []) /\ (f_exists fs q = true -> r <> COk None).
  Proof.
    intro Hq. unfold read_simple.
    assert (H1 : forall s, cw_exists w s q = f_exists fs q) by (intro; apply Hw).
    assert (H2 : forall s, cw_is_file w s q = f_is_file fs q) by (intro; apply Hw).
    assert (H3 : forall s, cw_can_read w s q = f_can_read fs q) by (intro; apply Hw).
    set (rest (b : bool) := (exists_ <~ file_exists q;
      if negb exists_ then cret None else
      file <~ is_file q;
      if negb file then cthrow (XOptions q (js "Options file is actually not a file")) else
      readable <~ can_read q;
      if negb readable then cthrow (XOptions q (js "Options file exist but is not readable")) else
      print_debug b (js "Options file found: %s") [path_str q] ~;
      x <~ load b q; x <~ validate x; print_debug b (js "Options file is valid") [] ~; cret (Some x))).
    cut (exists r msgs, told w fs q msgs /\ sim (rest true) (rest false) r msgs /\
          (missing fs q -> r = COk None /\ msgs = []) /\ (f_exists fs q = true -> r <> COk None)).
    { intros (r & msgs & Ht & Hs & Hr). exists r, msgs. split; [exact Ht|]. split; [|exact Hr]. change msgs with ([] ++ msgs).
      eapply (sim_bind _ _ q); [now apply sim_absolute|exact Hs]. }
    unfold rest. destruct (f_exists fs q) eqn:E1.
    2:{ exists (COk None), []. split; [apply td_unread; tauto|]. split; [|split; [now split|discriminate]].
        change (@nil jstring) with (@nil jstring ++ []). eapply sim_bind; [apply sim_ask; exact H1|]. apply sim_ret. }
    assert (Hm : missing fs q -> forall r : cres (option xoptions), r = COk None /\ [] = @nil jstring) by (unfold missing; congruence).
    destruct (f_is_file fs q) eqn:E2.
    2:{ eexists _, []. split; [apply td_unread; tauto|]. split; [|split; [intro; now apply Hm|]].
        - change (@nil jstring) with (@nil jstring ++ []). eapply sim_bind; [apply sim_ask; exact H1|]. cbn [negb].
          change (@nil jstring) with (@nil jstring ++ []). eapply sim_bind; [apply sim_ask; exact H2|]. cbn [negb]. apply sim_throw.
        - discriminate. }
    destruct (f_can_read fs q) eqn:E3.
    2:{ eexists _, []. split; [apply td_unread; tauto|]. split; [|split; [intro; now apply Hm|]].
        - change (@nil jstring) with (@nil jstring ++ []). eapply sim_bind; [apply sim_ask; exact H1|]. cbn [negb].
          change (@nil jstring) with (@nil jstring ++ []). eapply sim_bind; [apply sim_ask; exact H2|]. cbn [negb].
          change (@nil jstring) with (@nil jstring ++ []). eapply sim_bind; [apply sim_ask; exact H3|]. cbn [negb]. apply sim_throw.
        - discriminate. }
    assert (K : forall r m, sim (x <~ load true q; x <~ validate x; print_debug true (js "Options file is valid") [] ~; cret (Some x))
                                (x <~ load false q; x <~ validate x; print_debug false (js "Options file is valid") [] ~; cret (Some x)) r m ->
      sim (rest true) (rest false) r ((js "Options file found: " ++ path_str q) :: m)).
    { intros r m H. unfold rest.
      change (?a :: m) with ([] ++ [] ++ [] ++ [a] ++ m). eapply sim_bind; [apply sim_ask; exact H1|]. cbn [negb].
      eapply sim_bind; [apply sim_ask; exact H2|]. cbn [negb]. eapply sim_bind; [apply sim_ask; exact H3|]. cbn [negb].
      eapply sim_bind; [|exact H]. apply (sim_report_s (js "Options file found: ") (path_str q)). apply np; reflexivity. }
    fold (rest true) (rest false).
    pose proof (sim_load q) as Hload. destruct (f_load fs q) as [| |x] eqn:E4.
    - eexists _, _. split; [now apply td_malformed|]. split; [|split; [unfold missing; congruence|]].
      + apply K. eapply sim_stop. now apply Hload.
      + discriminate.
    - exists (CThrow XNullDocument). eexists. split; [now apply td_null|]. split; [|split; [unfold missing; congruence|discriminate]].
      apply K. change [js "null"] with ([js "null"] ++ []). eapply sim_bind; [now apply Hload|]. cbn [validate]. eapply sim_stop. apply sim_throw.
    - destruct (valid_options x) eqn:E5.
      + exists (COk (Some x)). eexists. split; [apply (td_valid w fs q x), is_good; assumption|]. split; [|split; [unfold missing; congruence|discriminate]].
        apply K. change [?a; ?b] with ([a] ++ [] ++ [b] ++ []). eapply sim_bind; [now apply Hload|]. cbn [validate]. rewrite E5.
        eapply sim_bind; [apply sim_ret|]. eapply sim_bind; [apply sim_report; apply np; reflexivity|]. apply sim_ret.
      + exists (CThrow (XViolations x)). eexists. split; [apply (td_invalid w fs q x); try assumption; now apply invalid_options_iff|].
        split; [|split; [unfold missing; congruence|discriminate]].
        apply K. change [?a] with ([a] ++ []). eapply sim_bind; [now apply Hload|]. cbn [validate]. rewrite E5. eapply sim_stop. apply sim_throw.
  Qed.

  Lemma sim_read_fallback l : Forall (fun pq => resolved cwd (fst pq) (snd pq) /\ no_percent (path_str (fst pq))) l ->
    exists r msgs, told_fallback w fs l msgs /\ sim (read_fallback true (map fst l)) (read_fallback false (map fst l)) r msgs.
  Proof.
    induction l as [|[p q] l IH]; intro HF; cbn [map read_fallback fst].
    - exists (COk None). eexists. split; [apply tf_none|]. change [?a] with ([a] ++ []). eapply sim_bind; [apply sim_report; apply np; reflexivity|]. apply sim_ret.
    - apply Forall_cons_iff in HF. destruct HF as [[Hq Hp] HF]. cbn [fst snd] in Hq, Hp. destruct (IH HF) as (r & msgs & Ht & Hs).
      destruct (sim_read_simple p q Hq) as (r1 & m1 & Ht1 & Hs1 & Hm & He). destruct (f_exists fs q) eqn:E.
      + exists r1, m1. split; [now apply tf_found|]. destruct r1 as [[x|]|e]; [|now destruct (He eq_refl)|now apply sim_stop].
        rewrite <- (app_nil_r m1). eapply sim_bind; [exact Hs1|]. apply sim_ret.
      + destruct (Hm E) as [-> ->]. exists r. eexists. split; [apply tf_skip; eassumption|].
        change (?a :: msgs) with ([] ++ [a] ++ msgs). eapply sim_bind; [exact Hs1|]. eapply sim_bind; [|exact Hs].
        apply sim_report, no_percent_app. split; [apply np; reflexivity|exact Hp].
  Qed.

  Lemma path_str_no_percent p : Forall no_percent (p_names p) -> no_percent (path_str p).
  Proof.
    intro H. unfold path_str. apply no_percent_app. split; [destruct (p_abs p); apply np; reflexivity|].
    induction (p_names p) as [|n l IH]; [intros []|]. apply Forall_cons_iff in H. destruct H as [Hn Hl]. destruct l as [|n' l]; [exact Hn|].
    change (join [c_slash] (n :: n' :: l)) with (n ++ [c_slash] ++ join [c_slash] (n' :: l)).
    apply no_percent_app. split; [exact Hn|]. apply no_percent_app. split; [apply np; reflexivity|now apply IH].
  Qed.

  Lemma sim_read_options a T : p_abs T = true -> Forall (fun n => n <> n_dot /\ n <> n_dotdot) (p_names T) -> f_exists fs T = true ->
    (a_options a = None -> Forall no_percent (p_names T ++ p_names (cw_home w))) ->
    exists r msgs, told_options w fs a T msgs /\
      sim (explicit <~ match a_options a with None => cret None | Some p => p' <~ absolute p; cret (Some p') end; read_options true T explicit)
          (explicit <~ match a_options a with None => cret None | Some p => p' <~ absolute p; cret (Some p') end; read_options false T explicit)
          r msgs.
  Proof.
    intros Ta Tf Te Hn. destruct (a_options a) as [p|] eqn:Ea.
    - pose proof (resolved_total cwd p) as Hq. set (q := normalize (to_absolute cwd p)) in *.
      assert (Hqq : resolved cwd q q) by (destruct Hq as (H1 & _ & H3); now apply resolved_self).
      destruct (sim_read_simple q q Hqq) as (r & msgs & Ht & Hs & Hm & He).
      exists (match r with COk None => CThrow (XOptions q (js "Options file does not exist")) | r => r end), msgs.
      split; [eapply to_explicit; eassumption|]. change msgs with ([] ++ msgs).
      eapply (sim_bind _ _ (Some q)).
      { change (@nil jstring) with (@nil jstring ++ []). eapply (sim_bind _ _ q); [apply sim_absolute; exact Hq|]. apply sim_ret. }
      cbn [read_options]. destruct r as [[x|]|e]; [| |now apply sim_stop].
      + rewrite <- (app_nil_r msgs). eapply sim_bind; [exact Hs|]. apply sim_ret.
      + rewrite <- (app_nil_r msgs). eapply sim_bind; [exact Hs|]. apply sim_throw.
    - specialize (Hn eq_refl). apply Forall_app in Hn. destruct Hn as [HnT Hnh].
      set (here := normalize (to_absolute cwd (mkPath false [js ".prettyprint"]))).
      set (home := normalize (to_absolute cwd (mkPath (p_abs (cw_home w)) (p_names (cw_home w) ++ [js ".prettyprint"])))).
      pose proof (resolved_total cwd (mkPath false [js ".prettyprint"])) as Hhere. fold here in Hhere.
      pose proof (resolved_total cwd (mkPath (p_abs (cw_home w)) (p_names (cw_home w) ++ [js ".prettyprint"]))) as Hhome. fold home in Hhome.
      assert (Hpp : no_percent (js ".prettyprint")) by (apply np; reflexivity).
      destruct (sim_read_fallback [(mkPath true (p_names T ++ [js ".prettyprint"]), mkPath true (p_names T ++ [js ".prettyprint"]));
                        (mkPath false [n_dot; js ".prettyprint"], here);
                        (mkPath (p_abs (cw_home w)) (p_names (cw_home w) ++ [js ".prettyprint"]), home)]) as (r & msgs & Ht & Hs).
      { repeat apply Forall_cons; try apply Forall_nil; cbn [fst snd]; split; try (apply path_str_no_percent; cbn [p_names]).
        - apply resolved_self; [reflexivity|]. cbn [p_names]. apply Forall_app. split; [exact Tf|].
          constructor; [|constructor]. split; vm_compute; discriminate.
        - apply Forall_app. split; [exact HnT|]. constructor; [exact Hpp|constructor].
        - destruct Hhere as (H1 & H2 & H3). split; [exact H1|]. split; [|exact H3].
          eapply same_trans; [|exact H2]. apply (same_dot cwd false [] [js ".prettyprint"]).
        - constructor; [apply np; reflexivity|]. constructor; [exact Hpp|constructor].
        - exact Hhome.
        - apply Forall_app. split; [exact Hnh|]. constructor; [exact Hpp|constructor]. }
      exists r. eexists. split; [eapply to_fallback; eassumption|]. change (?x :: msgs) with ([] ++ [x] ++ [] ++ msgs).
      eapply sim_bind; [apply sim_ret|]. cbn [read_options]. eapply sim_bind; [apply sim_report; apply np; reflexivity|].
      intros sd sp Ha. destruct (Hs sd sp Ha) as (sd' & sp' & E1 & E2 & Ha' & O). exists sd', sp'. cbn [app].
      assert (K : map fst [(mkPath true (p_names T ++ [js ".prettyprint"]), mkPath true (p_names T ++ [js ".prettyprint"]));
                        (mkPath false [n_dot; js ".prettyprint"], here);
                        (mkPath (p_abs (cw_home w)) (p_names (cw_home w) ++ [js ".prettyprint"]), home)] = fallback_paths (cw_home w) T).
      { unfold fallback_paths, resolve_name, options_name. rewrite Ta. reflexivity. }
      rewrite K in E1, E2. split; [exact E1|]. split; [exact E2|]. split; [exact Ha'|exact O].
  Qed.

  (** The rest of the command does the same in both runs. *)
  Definition tail {A} (m : C A) : Prop :=
    forall sd sp, alike sd sp -> exists r sd' sp' text, m w sd = (r, sd') /\ m w sp = (r, sp') /\ alike sd' sp' /\
      cs_out sd' = cs_out sd ++ text /\ cs_out sp' = cs_out sp ++ text.

  Lemma tail_ret {A} (a : A) : tail (cret a).
  Proof. intros sd sp H. exists (COk a), sd, sp, []. rewrite !app_nil_r. repeat split; apply H. Qed.

  Lemma tail_bind {A B} (m : C A) (f : A -> C B) : tail m -> (forall a, tail (f a)) -> tail (x <~ m; f x).
  Proof.
    intros Hm Hf sd sp Ha. destruct (Hm sd sp Ha) as (r & sd1 & sp1 & t1 & E1 & E2 & Ha1 & O1 & O2). unfold cbind. rewrite E1, E2.
    destruct r as [a|e].
    - destruct (Hf a sd1 sp1 Ha1) as (r & sd2 & sp2 & t2 & E3 & E4 & Ha2 & O3 & O4). exists r, sd2, sp2, (t1 ++ t2).
      rewrite O3, O4, O1, O2, <- !app_assoc. fin.
    - exists (CThrow e), sd1, sp1, t1. fin.
  Qed.

  Lemma tail_printfln dest msg args : tail (printfln dest msg args).
  Proof.
    intros sd sp (H1 & H2 & H3). unfold printfln. destruct (parse_format _ _ _ _) as [l|].
    - destruct (print_pieces args l) as [t ok]. exists (if ok then COk tt else CThrow (XFormat (msg ++ cw_linesep w))).
      destruct dest; do 3 eexists; (split; [reflexivity|]; split; [reflexivity|]; split; [repeat split; cbn; congruence|]).
      + split; reflexivity.
      + cbn [write_err cs_out]. instantiate (1 := []). now rewrite !app_nil_r.
    - exists (CThrow (XFormat (msg ++ cw_linesep w))), sd, sp, []. rewrite !app_nil_r. fin.
  Qed.

  Lemma tail_library {A} (m : M A) : tail (library m).
  Proof.
    intros sd sp (H1 & H2 & H3). unfold library. rewrite H2. destruct (m (cw_world w) (cs_hist sp)) as [r h].
    eexists _, _, _, []. split; [reflexivity|]. split; [reflexivity|]. cbn. rewrite !app_nil_r. fin.
  Qed.

  Lemma tail_call o p : tail (call_printer o p).
  Proof.
    intros sd sp (H1 & H2 & H3).
    assert (Ha : alike (log (CPrint p) sd) (log (CPrint p) sp)) by (repeat split; cbn [log cs_events cs_hist cs_err]; congruence).
    destruct (tail_library (pretty_print o p) _ _ Ha) as (r & sd' & sp' & t & H). now exists r, sd', sp', t.
  Qed.

  Lemma tail_handle e : tail (handle_exception e).
  Proof.
    unfold handle_exception. apply (tail_bind get_world).
    - intros sd sp H. exists (COk w), sd, sp, []. rewrite !app_nil_r. repeat split; apply H.
    - intro w'. apply tail_bind; [apply tail_printfln|intro; apply tail_ret].
  Qed.

  (** Both runs from the same state. *)
  Definition both (md mp : C Z) (msgs : list jstring) : Prop :=
    forall sd sp, alike sd sp -> exists r sd' sp' text, md w sd = (r, sd') /\ mp w sp = (r, sp') /\ alike sd' sp' /\
      cs_out sd' = cs_out sd ++ debug_lines msgs ++ text /\ cs_out sp' = cs_out sp ++ text.

  Lemma both_bind {A} (md mp : C A) r msgs (fd fp : A -> C Z) msgs' :
    sim md mp r msgs -> match r with COk a => both (fd a) (fp a) msgs' | CThrow _ => msgs' = [] end ->
    both (x <~ md; fd x) (x <~ mp; fp x) (msgs ++ msgs').
  Proof.
    intros H H' sd sp Ha. destruct (H sd sp Ha) as (sd1 & sp1 & E1 & E2 & Ha1 & O1 & O2). unfold cbind. rewrite E1, E2. destruct r as [a|e].
    - destruct (H' sd1 sp1 Ha1) as (r & sd2 & sp2 & t & E3 & E4 & Ha2 & O3 & O4). exists r, sd2, sp2, t.
      rewrite O3, O1, O4, O2, debug_lines_app, <- !app_assoc. fin.
    - exists (CThrow e), sd1, sp1, []. subst msgs'. rewrite !app_nil_r. fin.
  Qed.

  Lemma both_tail m : tail m -> both m m [].
  Proof. intro H. exact H. Qed.

  Lemma both_impl md mp md' mp' msgs : (forall s, md w s = md' w s) -> (forall s, mp w s = mp' w s) -> both md mp msgs -> both md' mp' msgs.
  Proof. intros H1 H2 H sd sp Ha. rewrite <- H1, <- H2. now apply H. Qed.

  Lemma sim_target t o T : resolved cwd (asked_target (mkArgs t o false)) T ->
    sim (detect_target (mkArgs t o true)) (detect_target (mkArgs t o false)) (COk T)
      (match t with None => [js "No target provided: use current directory"] | Some _ => [] end ++ [js "Target path: " ++ path_str T]).
  Proof.
    intro HT. unfold detect_target. cbn [a_target a_debug]. apply (sim_bind _ _ (asked_target (mkArgs t o false))).
    - unfold asked_target. cbn [a_target]. destruct t as [p|]; [apply sim_ret|]. change [?x] with ([x] ++ []).
      eapply sim_bind; [apply sim_report; apply np; reflexivity|]. apply sim_ret.
    - change [?x] with ([] ++ [x] ++ []). eapply (sim_bind _ _ T); [apply sim_absolute; exact HT|].
      eapply sim_bind; [apply (sim_report_s (js "Target path: ") (path_str T)); apply np; reflexivity|]. apply sim_ret.
  Qed.

  Lemma sim_exists T : sim (file_exists T) (file_exists T) (COk (f_exists fs T)) [].
  Proof. apply sim_ask. intro. apply Hw. Qed.

  (** What the command does depends on the options file that was read. *)
  Lemma both_read t o T r msgs : resolved cwd (asked_target (mkArgs t o false)) T -> f_exists fs T = true ->
    sim (explicit <~ match o with None => cret None | Some p => p' <~ absolute p; cret (Some p') end; read_options true T explicit)
        (explicit <~ match o with None => cret None | Some p => p' <~ absolute p; cret (Some p') end; read_options false T explicit) r msgs ->
    both (command (mkArgs t o true)) (command (mkArgs t o false))
      (match t with None => [js "No target provided: use current directory"] | Some _ => [] end ++ (js "Target path: " ++ path_str T) :: msgs).
  Proof.
    intros HT Te Hs. unfold command. cbn [a_debug a_options a_target].
    change (?x :: msgs) with ([x] ++ [] ++ msgs). rewrite app_assoc. eapply both_bind; [apply sim_target; exact HT|]. cbn beta.
    eapply both_bind; [apply sim_exists|]. rewrite Te. cbn [negb]. rewrite <- (app_nil_r msgs).
    set (rest := fun x => o' <~ match x with None => cret default_options | Some x => library (map_to_options T x) end;
                 result <~ call_printer o' T; print result [] ~; cret 0%Z).
    assert (B : forall b s, (x <~ (explicit <~ match o with None => cret None | Some p => p' <~ absolute p; cret (Some p') end;
         read_options b T explicit); rest x) w s =
       (explicit <~ match o with None => cret None | Some p => p' <~ absolute p; cret (Some p') end;
        o <~ load_options b T explicit; result <~ call_printer o T; print result [] ~; cret 0%Z) w s).
    { intros b s. unfold load_options, rest, cbind.
      destruct (match o with None => cret None | Some p => _ end w s) as [[e|e] s1]; [|reflexivity].
      destruct (read_options b T e w s1) as [[x|x] s2]; reflexivity. }
    eapply both_impl; [apply B|apply B|]. eapply both_bind; [exact Hs|]. destruct r as [x|]; [|reflexivity].
    apply both_tail. unfold rest. apply tail_bind; [destruct x; [apply tail_library|apply tail_ret]|]. intro o'.
    apply tail_bind; [apply tail_call|]. intro res. apply tail_bind; [apply tail_printfln|intro; apply tail_ret].
  Qed.

  Lemma both_command t o T : resolved cwd (asked_target (mkArgs t o false)) T ->
    (o = None -> f_exists fs T = true -> Forall no_percent (p_names T ++ p_names (cw_home w))) ->
    exists msgs, reported w fs (mkArgs t o true) T msgs /\ both (command (mkArgs t o true)) (command (mkArgs t o false)) msgs.
  Proof.
    intros HT Hn. destruct (f_exists fs T) eqn:Te.
    - pose proof HT as (Ta & _ & Tf). destruct (sim_read_options (mkArgs t o true) T Ta Tf Te) as (r & msgs & Ht & Hs).
      { intro. now apply Hn. }
      eexists. split; [exists msgs; split; [exact Ht|reflexivity]|]. exact (both_read t o T r msgs HT Te Hs).
    - eexists. split; [exists []; split; [now apply to_no_target|reflexivity]|]. cbn [a_target]. unfold command. cbn [a_debug a_options a_target].
      change [?x] with ([x] ++ [] ++ []). rewrite app_assoc. eapply both_bind; [apply sim_target; exact HT|]. cbn beta.
      eapply both_bind; [apply sim_exists|]. rewrite Te. cbn [negb]. apply both_tail. apply tail_bind; [apply tail_printfln|intro; apply tail_ret].
  Qed.

  (** The whole runs. *)
  Lemma both_runs t o msgs s : both (command (mkArgs t o true)) (command (mkArgs t o false)) msgs ->
    exists text, let plain := run_cli (mkArgs t o false) w s in let debug := run_cli (mkArgs t o true) w s in
      fst debug = fst plain /\ alike (snd debug) (snd plain) /\
      cs_out (snd plain) = cs_out s ++ text /\
      cs_out (snd debug) = cs_out s ++ flat_map (fun m => js "[DEBUG] " ++ m ++ cw_linesep w) msgs ++ text.
  Proof.
    intro Hb. destruct (Hb s s (conj eq_refl (conj eq_refl eq_refl))) as (r & sd & sp & text & E1 & E2 & Ha & O1 & O2). unfold run_cli. rewrite E1, E2.
    destruct r as [z|e].
    - exists text. cbn zeta. cbn [fst snd]. fin.
    - destruct (tail_handle e sd sp Ha) as (r & sd' & sp' & t' & E3 & E4 & Ha' & O3 & O4). rewrite E3, E4. exists (text ++ t').
      assert (O : cs_out sp' = cs_out s ++ text ++ t' /\ cs_out sd' = cs_out s ++ debug_lines msgs ++ text ++ t').
      { rewrite O3, O4, O1, O2, <- !app_assoc. now split. }
      destruct r as [z|e']; cbn zeta; cbn [fst snd]; split; try reflexivity.
      + split; [exact Ha'|exact O].
      + split; [|exact O]. destruct Ha' as (H1 & H2 & H3). repeat split; cbn [write_err cs_events cs_hist cs_err]; congruence.
  Qed.

  Theorem debug_adds t o T s : resolved cwd (asked_target (mkArgs t o false)) T ->
    (o = None -> f_exists fs T = true -> Forall no_percent (p_names T ++ p_names (cw_home w))) ->
    exists msgs text, reported w fs (mkArgs t o true) T msgs /\
      let plain := run_cli (mkArgs t o false) w s in let debug := run_cli (mkArgs t o true) w s in
      fst debug = fst plain /\ alike (snd debug) (snd plain) /\
      cs_out (snd plain) = cs_out s ++ text /\
      cs_out (snd debug) = cs_out s ++ flat_map (fun m => js "[DEBUG] " ++ m ++ cw_linesep w) msgs ++ text.
  Proof.
    intros HT Hn. destruct (both_command t o T HT Hn) as (msgs & Hr & Hb). destruct (both_runs t o msgs s Hb) as (text & H).
    exists msgs, text. split; [exact Hr|exact H].
  Qed.
End Debug.

Theorem C82_lemma : forall w fs t o T s,
  steady_files w fs -> no_percent (cw_linesep w) ->
  resolved (jv_cwd (w_jvm (cw_world w))) (asked_target (mkArgs t o false)) T ->
  (o = None -> f_exists fs T = true -> Forall no_percent (p_names T ++ p_names (cw_home w))) ->
  exists msgs text, reported w fs (mkArgs t o true) T msgs /\
    let plain := run_cli (mkArgs t o false) w s in let debug := run_cli (mkArgs t o true) w s in
    fst debug = fst plain /\ cs_events (snd debug) = cs_events (snd plain) /\ cs_hist (snd debug) = cs_hist (snd plain) /\
    cs_err (snd debug) = cs_err (snd plain) /\
    cs_out (snd plain) = cs_out s ++ text /\
    cs_out (snd debug) = cs_out s ++ flat_map (fun m => js "[DEBUG] " ++ m ++ cw_linesep w) msgs ++ text.
Proof.
  intros w fs t o T s Hw Hl HT Hn. destruct (debug_adds w fs Hw Hl t o T s HT Hn) as (msgs & text & Hr & H1 & (H2 & H3 & H4) & H5 & H6).
  exists msgs, text. split; [exact Hr|]. cbn zeta. repeat split; assumption.
Qed.
