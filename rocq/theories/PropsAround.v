(** * Filters that look into directories, while the files change *)

From Verif Require Import SpecAround AroundFacts MatcherFacts VolumeCases AroundCases.
Close Scope Z_scope.

(** C169. C166 for filters, child limits, orders, emoji mappings and line extensions that open directories themselves: as long as the printed path itself stays where it is and no directory below is
    replaced by a link, whatever the outcome, the directories opened are those in the tree below the place of the printed path at that moment. *)
Theorem C169_filters_stay_inside : forall o p vol j h l,
  let w := moving_world vol j in
  (forall h, well_formed (vol h)) ->
  looks_around w true (o_dir_matcher o) -> looks_around w true (o_file_matcher o) -> looks_around w false (o_child_limit o) ->
  looks_between w (o_comparator o) -> looks_around w false (o_emoji o) ->
  match o_line_extension o with Some f => looks_around w false f | None => True end -> honest_callbacks w o ->
  (forall t, place (vol (t ++ h)) false (jv_cwd j) (location w p) = Some l) ->
  (forall t1 t2 ns, folder_at (vol (t1 ++ h)) (l ++ ns) -> forall x, node_at (vol (t2 ++ t1 ++ h)) (l ++ ns) <> Some (NLink x)) ->
  exists r t, pretty_print o p w h = (r, rev t ++ h) /\
    forall t1 ev t2 q, t = t1 ++ ev :: t2 -> opening ev q ->
      exists ns, q = deeper (location w p) ns /\
        (forall r, place (vol (rev t1 ++ h)) true (jv_cwd j) q = Some r -> r = l ++ ns) /\
        (ev = EvOpen q -> folder_at (vol (rev t1 ++ h)) (l ++ ns)).
Proof. exact (fun o p vol j h l Hwf => opened_around vol j Hwf o p h l). Qed.
Print Assumptions C169_filters_stay_inside.

(** The matchers of the library that look into directories, and what is combined of them and of functions that open nothing, look no further; nor do the child
    limits, the line extensions and the emoji mappings built of such matchers. *)
Theorem C169_matchers_look_around : forall w b,
  (forall A (f : path -> M A), callback w f (modest w) (fun _ => True) -> looks_around w b f) /\
  (forall m, looks_around w true m -> looks_around w b (pm_any_descendant m) /\ looks_around w b (pm_any_direct_child m) /\ looks_around w true (pm_sibling m)) /\
  (forall m, looks_around w b m -> looks_around w b (pm_not m)) /\
  (forall i t e, looks_around w b i -> looks_around w b t -> looks_around w b e -> looks_around w b (pm_if_then_else i t e)) /\
  (forall ms f, (forall m, In (Some m) ms -> looks_around w b m) -> pm_all_of ms = Ok f \/ pm_any_of ms = Ok f \/ pm_none_of ms = Ok f -> looks_around w b f) /\
  (forall m limit, looks_around w b m -> looks_around w b (limit_rule m limit)) /\
  (forall d rules, Forall (looks_around w b) rules -> looks_around w b (limit_loop d rules)) /\
  (forall m ext, looks_around w b m -> looks_around w b (ext_rule m ext)) /\
  (forall d rules, Forall (looks_around w b) rules -> looks_around w b (ext_loop d rules)) /\
  (forall be now, (forall m, In m (eb_dir_matchers now ++ eb_file_matchers now) -> looks_around w b (em_matcher m)) -> looks_around w b (built_emoji_apply be now)).
Proof. exact matchers_around. Qed.
Print Assumptions C169_matchers_look_around.

(** Nor do the orders made of such functions: with [Comparator.comparing], [thenComparing], [reversed] and with the builder of [PathSorts]. *)
Theorem C169_orders_look_between : forall w,
  (forall c : comparator, (forall a, callback w (c a) (modest w) (fun _ => True)) -> looks_between w c) /\
  (forall key, looks_around w true key -> looks_between w (comparing key)) /\
  (forall c1 c2, looks_between w c1 -> looks_between w c2 -> looks_between w (then_comparing c1 c2)) /\
  (forall c, looks_between w c -> looks_between w (reversed c)) /\
  (forall ops, (forall op, In op ops -> match op with SAdd f => looks_around w true f | SAddMatcher m _ | SAddFirst m | SAddLast m => looks_around w true m end) ->
     looks_between w (sort_build (fold_left sort_step ops []))).
Proof. exact comparators_between. Qed.
Print Assumptions C169_orders_look_between.

(** Directories with a descendant "c.txt" and files beside a file "c.txt" are shown, " <- c" is written after the directories that contain
    one, which come first; the link "new" appears while the directories are looked into. The premises about the volume are those of C166. *)
Example C169_case :
  looks_around busy_world true (o_dir_matcher around_options) /\ looks_around busy_world true (o_file_matcher around_options) /\
  looks_around busy_world false (o_child_limit around_options) /\ looks_around busy_world false (o_emoji around_options) /\
  match o_line_extension around_options with Some f => looks_around busy_world false f | None => True end /\ honest_callbacks busy_world around_options /\
  looks_between busy_world (o_comparator around_options) /\
  option_map readable_text (result (pretty_print around_options (pth ".") busy_world [])) =
  Some (String.concat (String (ascii_of_N 10) "") ["u/"; "## sub/ <- c"; "   ## new"])%string.
Proof.
  split; [exact around_dir|]. split; [exact around_file|]. split; [exact around_child_limit|]. split; [exact around_plain|]. split; [exact around_line|].
  split; [exact around_honest|]. split; [exact around_order|]. lazy. reflexivity.
Qed.
