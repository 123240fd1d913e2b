(** * What the command line reports when a run fails *)

From Verif Require Import SpecFail SpecDoc SpecFormat FormatFacts DocFacts RenderFacts PathFacts MatcherFacts EmojiFacts BuilderFacts MapFacts SortFacts OrderFacts ScanPrintFacts CliFacts SpecMeta MetaFacts TreeFacts DocTreeFacts FailFacts.
From Coq Require Import Lia.
Close Scope Z_scope.

Lemma answered_callback {A B} w (f : A -> M B) g : (forall a h, f a w h = (Ok (g a), h)) -> callback w f (fun _ => True) (fun _ => False).
Proof. intros H a h. exists (Ok (g a)), []. split; [apply H|]. split; [exact I|discriminate]. Qed.

Section Document.
  Context (w : world) (T : path) (x : xoptions).
  Hypothesis HT : p_abs T = true.
  Hypothesis Hx : acceptable x.
  Hypothesis Hl : x_emojis x = Some true -> forall k v, default_names k v \/ default_exts k v -> jv_lower (w_jvm w) k = k.

  Lemma document_callbacks h o h' : map_to_options T x w h = (Ok o, h') ->
    callbacks w o (fun _ => True) (fun _ => False) /\ orderly w o.
  Proof.
    intro E. destruct (C77_lemma w T x h o h' HT Hx Hl E) as (_ & D).
    destruct (map_to_options_total w T x _ _ _ E) as [(gd & Gd) (gf & Gf) (gl & Gl) Ge].
    destruct D as (D1 & D2 & D3 & D4 & D5 & D6 & D7 & D8). split.
    - split; [exact (answered_callback w _ _ Gd)|]. split; [exact (answered_callback w _ _ Gf)|]. split; [exact (answered_callback w _ _ Gl)|].
      split; [|split].
      + destruct (x_emojis x) as [[]|] eqn:Em; [|rewrite D6 by discriminate; exact (answered_callback w _ (fun _ => None) (fun _ _ => eq_refl))..].
        specialize (D5 eq_refl). unfold emoji_create_default in D5. destruct (emoji_build _ _) as [be|]; [|discriminate].
        assert (o_emoji o = built_emoji_apply be emoji_builder_default) as -> by congruence.
        intros p h0. unfold built_emoji_apply, default_emoji_mapping. cbn [eb_dir_matchers eb_file_matchers emoji_builder_default sequential_emoji path_matcher_emoji].
        unfold pm_is_directory, has_kind, lstat, path_name_emoji, path_extension_emoji, bind, get_jvm, ret.
        destruct (match w_lstat w h0 p with Some k' => kind_eqb k' KDir | None => false end); destruct (get_file_name p) as [n|]; cbn [is_some].
        * destruct (smap_get _ _); (eexists _, [_]; split; [reflexivity|]; split; [exact I|discriminate]).
        * eexists _, [_]; split; [reflexivity|]; split; [exact I|discriminate].
        * destruct (smap_get _ _); cbn [is_some]; [eexists _, [_]; split; [reflexivity|]; split; [exact I|discriminate]|].
          destruct (first_mapped _ _); (eexists _, [_]; split; [reflexivity|]; split; [exact I|discriminate]).
        * eexists _, [_]; split; [reflexivity|]; split; [exact I|discriminate].
      + destruct (o_line_extension o) as [f|]; [|exact I]. destruct Ge as (g & Hg). exact (answered_callback w _ _ Hg).
      + intro a. rewrite D2. intros b h0. eexists _, []. split; [reflexivity|]. split; [exact I|discriminate].
    - exists alphabetical. split; [apply contract_alphabetical|]. intros a b h0 z h1 Hz. rewrite D2 in Hz.
      destruct (answers_alphabetical w a b h0) as (h2 & E2). pose proof (eq_trans (eq_sym E2) Hz) as E3. congruence.
  Qed.
End Document.

(** The unreadable file or directory [q], and the message about it. *)
Lemma document_failure w dk T x h o h1 e h2 :
  steady w dk -> Forall real_name T -> T <> [] -> acceptable x ->
  (x_emojis x = Some true -> forall k v, default_names k v \/ default_exts k v -> jv_lower (w_jvm w) k = k) ->
  map_to_options (mkPath true T) x w h = (Ok o, h1) -> pretty_print o (mkPath true T) w h1 = (Throw e, h2) ->
  exists q ns, q = mkPath true (T ++ ns) /\
    ((e = ExUncheckedIO ReadAttributes q /\ ~ is_dir dk q /\ d_attr dk q = None) \/
     (e = ExUncheckedIO ListFiles q /\ is_dir dk q /\ d_list dk q = None)).
Proof.
  intros Hw HT Hne Hx Hl E P. destruct (document_settings w dk T x Hw HT Hx Hl h o h1 E) as (_ & st & v & Hu & Hv & _).
  destruct (document_callbacks w (mkPath true T) x eq_refl Hx Hl h o h1 E) as (Hc & Ho).
  pose proof (location_real w T HT) as L.
  destruct (failure_found o (mkPath true T) w h1 v (fun _ => True) (fun _ => False) Hc (or_introl Ho) Hv) as (r & t & Er & H); [now rewrite L|].
  rewrite P in Er. injection Er as <- _. destruct (H e eq_refl) as [[]|(q & ev & t1 & t2 & ns & _ & H2 & _ & _ & H5 & _ & H7)].
  rewrite L in H5. cbn [p_names] in H5. exists q, ns. split; [exact H5|].
  destruct Hw as (W1 & W2 & W3 & W4 & _). destruct H7 as (ha & hb & H7). destruct H2; cbn in H7.
  - left. split; [reflexivity|]. unfold is_dir. rewrite W1, W2 in H7. now split.
  - right. split; [reflexivity|]. unfold is_dir. rewrite W1, W3 in H7. destruct H7 as [H7 H8]. split; [exact H8|]. now destruct (d_list dk q).
  - rewrite W4 in H7. discriminate.
  - destruct H7 as (dl & H7 & H8). rewrite W3 in H7. destruct (d_list dk q); [|discriminate]. injection H7 as <-. discriminate.
Qed.

Theorem C151_lemma w fs a T ex sel x dk s :
  steady_files w fs -> usual_linesep (cw_linesep w) -> a_debug a = false ->
  resolved (jv_cwd (w_jvm (cw_world w))) (asked_target a) T -> f_exists fs T = true ->
  chooses w fs a T ex sel -> followed sel x ->
  steady (cw_world w) dk -> Forall real_name (p_names T) -> p_names T <> [] ->
  let j := w_jvm (cw_world w) in
  (x_emojis x = Some true -> forall k v, default_names k v \/ default_exts k v -> jv_lower j k = k) ->
  ~ ((forall g, In g (all_globs x) -> good_glob j g) /\ exists text, shows_document j dk (p_names T) x text) ->
  let s' := snd (run_cli a w s) in
  fst (run_cli a w s) = 1%Z /\ cs_out s' = cs_out s /\
  exists m err, error_output w (js "Error while pretty printing: " ++ m) err /\ cs_err s' = cs_err s ++ err /\
    ((exists g, jv_glob j g = None /\ m = cw_message w (XLibrary (ExPatternSyntax g))) \/
     (exists q ns, q = mkPath true (p_names T ++ ns) /\
        ((~ is_dir dk q /\ d_attr dk q = None /\ m = js "Unable to read file attributes: " ++ path_str q) \/
         (is_dir dk q /\ d_list dk q = None /\ m = js "Unable to list files for directory: " ++ path_str q)))).
Proof.
  intros Hf Hls Hdb HT Hex Hch Hfo Hw Hreal Hne j Hl Hn s'.
  assert (HTe : T = mkPath true (p_names T)). { destruct HT as (Ha & _). destruct T as [ab l]. cbn in *. now subst ab. }
  assert (Hx : acceptable x). { destruct Hfo as [->|[-> ->]]; [now apply chosen_acceptable in Hch|apply empty_acceptable]. }
  destruct (C55_lemma (cw_world w) T x (cs_hist s)) as (r & E & (Hok1 & Hok2) & Hbad); [now rewrite HTe|exact Hx|exact Hl|].
  assert (exists m, fails w T (cs_hist s) sel (js "Error while pretty printing: " ++ m) /\
    ((exists g, jv_glob j g = None /\ m = cw_message w (XLibrary (ExPatternSyntax g))) \/
     (exists q ns, q = mkPath true (p_names T ++ ns) /\
        ((~ is_dir dk q /\ d_attr dk q = None /\ m = js "Unable to read file attributes: " ++ path_str q) \/
         (is_dir dk q /\ d_list dk q = None /\ m = js "Unable to list files for directory: " ++ path_str q))))) as (m & Hfail & Hm).
  { destruct r as [o|e].
    - pose proof (followed_effective w T _ _ _ _ _ Hfo E) as He. destruct (pretty_print o T (cw_world w) (cs_hist s)) as [[out|e] h2] eqn:P.
      + exfalso. apply Hn. split; [apply Hok1; now exists o|]. exists out. rewrite HTe in E, P. eapply (document_tree (cw_world w)); eassumption.
      + pose proof P as P'. rewrite HTe in P', E. destruct (document_failure (cw_world w) dk (p_names T) x _ o _ e h2 Hw Hreal Hne Hx Hl E P') as (q & ns & Hq & H).
        destruct H as [(-> & H1 & H2)|(-> & H1 & H2)]; (eexists; split; [eapply fl_printing; [exact He|exact P|constructor]|right; exists q, ns]); auto 6.
    - destruct (Hbad e eq_refl) as (g & -> & Hg). destruct Hfo as [->|[-> ->]]; [|discriminate].
      eexists. split; [eapply fl_mapping; [exact E|apply sy_other; discriminate]|]. left. now exists g. }
  destruct (error_written w Hls fs a T ex sel s Hf Hdb HT Hex Hch _ Hfail) as (H1 & H2 & err & H3 & H4). split; [exact H1|]. split; [exact H2|].
  exists m, err. auto.
Qed.
