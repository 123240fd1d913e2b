(** * Texts that leave nothing out *)

From Verif Require Import ReadCliCases SpecFormat SpecWhole WholeFacts ReadCliFacts Cases RenderFacts PrintFacts.
Open Scope nat_scope.

(** C187: if nowhere in the text it says "...", everything that the filters accept is displayed, however deep and however many; and it says
    "..." exactly if the maximal depth or a limit applies somewhere. *)
Theorem C187_nothing_is_left_out_silently : forall o p w h out h' v dk st,
  steady w dk -> distinct_names dk -> uses w o st -> sees w o v -> bare v -> distinguishable (o_tree_format o) ->
  pretty_print o p w h = (Ok out, h') ->
  exists e s, tree_at st dk 0 (location w p) e /\ shows v true e s /\
    (clear_names s -> exists t paths, read_text (o_tree_format o) out = Some t /\ read_paths (o_tree_format o) (location w p) out = Some paths /\
       (has_dots (read_names t) = false <-> nothing_cut st dk (location w p)) /\
       (has_dots (read_names t) = false -> NoDup paths /\ forall q, In q paths <-> accessible st dk (location w p) q)).
Proof. exact run_whole. Qed.
Print Assumptions C187_nothing_is_left_out_silently.

Example C187_case : exists s out,
  steady sample_world sample_disk /\ distinct_names sample_disk /\ uses sample_world compact_options default_settings /\
  sees sample_world compact_options (set_compact true plain_view) /\ bare (set_compact true plain_view) /\
  distinguishable (o_tree_format compact_options) /\
  displays compact_options (set_compact true plain_view) sample_world (pth "/home/u") s out /\ clear_names s /\ has_dots (outline_of s) = false.
Proof.
  destruct C85_case_lemma as (s & out & Hd & Hc & Ho). exists s, out. split; [exact sample_steady|]. split; [exact sample_distinct|].
  split; [repeat split; repeat intro; eexists; reflexivity|]. split; [apply compact_sees|]. split; [split; reflexivity|].
  split; [exact (proj2 C02_builtin_lemma)|]. split; [exact Hd|]. split; [exact Hc|]. rewrite Ho. reflexivity.
Qed.

(** The project has five levels: the whole project, a limit of three children, of six, a maximal depth of 4 (the directory there is empty) and of 5. *)
Example C187_runs : let dots o := match result (pretty_print o (pth "/home/u/p") project_world []) with
    | Some out => option_map (fun t => has_dots (read_names t)) (read_text UNICODE_BOX_DRAWING out) | None => None end in
  map dots [default_options; with_child_limit_fn (fun _ => ret 3%Z) default_options; with_child_limit_fn (fun _ => ret 6%Z) default_options;
            with_max_depth 4 default_options; with_max_depth 5 default_options] = [Some false; Some true; Some false; Some true; Some false].
Proof. vm_compute. reflexivity. Qed.

(** C188: the same for the program without an options file: "..." is displayed exactly if a directory is 20 or more levels below the target; if not, the
    output tells everything below the target. *)
Theorem C188_program_tells_the_rest : forall pc w fs t f tp fp args T ex dk s,
  target_part t tp -> options_part f fp -> written (tp ++ fp) args ->
  let a := mkArgs (option_map path_of t) (option_map path_of f) false in
  steady_files w fs -> usual_linesep (cw_linesep w) ->
  resolved (jv_cwd (w_jvm (cw_world w))) (asked_target a) T -> f_exists fs T = true ->
  chooses w fs a T ex UseDefault ->
  steady (cw_world w) dk -> distinct_names dk -> real_listings dk -> Forall real_name (p_names T) -> p_names T <> [] ->
  let r := mkPath true (p_names T) in
  all_can_be_read dk r -> tellable (last_name r) -> (forall ns n, listed dk r (ns ++ [n]) -> tellable n) ->
  exists s' out tr paths, execute pc args w s = (0%Z, s') /\ cs_out s' = cs_out s ++ out ++ cw_linesep w /\ cs_err s' = cs_err s /\
    read_text UNICODE_BOX_DRAWING out = Some tr /\ read_paths UNICODE_BOX_DRAWING r out = Some paths /\
    (has_dots (read_names tr) = false <-> forall ns, listed dk r ns -> is_dir dk (deeper r ns) -> length ns < 20) /\
    (has_dots (read_names tr) = false -> NoDup paths /\ forall q, In q paths <-> exists ns, listed dk r ns /\ q = deeper r ns).
Proof. exact words_whole. Qed.
Print Assumptions C188_program_tells_the_rest.

(** The hypotheses are those of C186, see [C186_case]; this is what its program displays. *)
Example C188_case :
  option_map (fun t => has_dots (read_names t)) (read_text UNICODE_BOX_DRAWING (removelast (cs_out (snd (execute case_pico [js "p"] project_cli cli_start))))) =
    Some false /\
  read_paths UNICODE_BOX_DRAWING (pth "/home/u/p") (removelast (cs_out (snd (execute case_pico [js "p"] project_cli cli_start)))) <> None.
Proof. split; [vm_compute; reflexivity|]. vm_compute. discriminate. Qed.
