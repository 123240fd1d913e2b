(** * From the words of the command line to standard output *)

From Verif Require Import SpecArgs SpecDoc SpecFormat ArgsFacts DocTreeFacts.
Close Scope Z_scope.

Lemma words_document : forall pc w fs t f tp fp args T ex sel x dk s,
  target_part t tp -> options_part f fp -> written (tp ++ fp) args ->
  let a := mkArgs (option_map path_of t) (option_map path_of f) false in
  steady_files w fs -> usual_linesep (cw_linesep w) ->
  resolved (jv_cwd (w_jvm (cw_world w))) (asked_target a) T -> f_exists fs T = true ->
  chooses w fs a T ex sel -> followed sel x ->
  steady (cw_world w) dk -> distinct_names dk -> real_listings dk -> Forall real_name (p_names T) -> p_names T <> [] ->
  let j := w_jvm (cw_world w) in
  (x_emojis x = Some true -> forall k v, default_names k v \/ default_exts k v -> jv_lower j k = k) ->
  let code := fst (execute pc args w s) in
  let s' := snd (execute pc args w s) in
  (forall text, (forall g, In g (all_globs x) -> good_glob j g) -> shows_document j dk (p_names T) x text ->
     (forall out, written_as (cw_linesep w) text out -> code = 0%Z /\ cs_out s' = cs_out s ++ out ++ cw_linesep w /\ cs_err s' = cs_err s) /\
     ((forall out, ~ written_as (cw_linesep w) text out) ->
        code = 1%Z /\ (exists b, begun (cw_linesep w) text b /\ cs_out s' = cs_out s ++ b) /\
        exists err, error_output w (js "Error while pretty printing: " ++ cw_message w (XFormat (text ++ cw_linesep w))) err /\
          cs_err s' = cs_err s ++ err)) /\
  (~ ((forall g, In g (all_globs x) -> good_glob j g) /\ exists text, shows_document j dk (p_names T) x text) ->
     code = 1%Z /\ cs_out s' = cs_out s /\ exists msg err, error_output w msg err /\ cs_err s' = cs_err s ++ err).
Proof.
  intros pc w fs t f tp fp args T ex sel x dk s H1 H2 W a. intros. unfold code, s'.
  assert (E : execute pc args w s = run_cli a w s).
  { apply (order_lemma pc w s t f false tp fp [] args); [exact H1|exact H2|reflexivity|]. now rewrite app_nil_r. }
  rewrite E. eapply command_document; try eassumption. reflexivity.
Qed.
