(** * Reading a printed text: C184, C185 *)

From Verif Require Import SpecScan SpecRead ReadFacts PrintFacts Cases.

(** C184: a script gets the displayed tree back from the text by reading it line by line: the first line is the root; the level of any other
    line is the number of symbols up to the first branch symbol; a line belongs to the last line before it that is one level higher. *)
Theorem C184_levels_can_be_read : forall o p w h out h' v,
  sees w o v -> distinguishable (o_tree_format o) -> pretty_print o p w h = (Ok out, h') ->
  exists e h0 s, scan o (location w p) w h = (Ok e, h0) /\ shows v true e s /\
    (labels_on_one_line (labelled v s) -> read_text (o_tree_format o) out = Some (labelled v s)).
Proof. exact run_read. Qed.
Print Assumptions C184_levels_can_be_read.

(** ... and, without emojis and extensions, the names, merged or not, and the marks (the conditions on names are those of C85). *)
Theorem C184_names_can_be_read : forall o p w out v s,
  bare v -> distinguishable (o_tree_format o) -> displays o v w p s out -> clear_names s ->
  option_map read_names (read_text (o_tree_format o) out) = Some (outline_of s).
Proof. exact run_names. Qed.
Print Assumptions C184_names_can_be_read.

Example C184_case : exists s out,
  bare (set_compact true plain_view) /\ distinguishable (o_tree_format compact_options) /\
  displays compact_options (set_compact true plain_view) sample_world (pth "/home/u") s out /\ clear_names s /\
  option_map read_names (read_text (o_tree_format compact_options) out) =
    Some (ODir [js "u"] [OFile (js "Zoo") []; ODir [js "a"] []; OFile (js "b.txt") []; OFile (js "link") [];
                         ODir [js "src"; js "main"; js "java"] [OFile (js "A.java") []; OFile (js "B.java") []]]).
Proof.
  destruct C85_case_lemma as (s & out & Hd & Hc & Ho). exists s, out. rewrite <- Ho.
  assert (B : bare (set_compact true plain_view)) by (split; reflexivity).
  assert (D : distinguishable (o_tree_format compact_options)) by exact (proj2 C02_builtin_lemma).
  repeat (split; [assumption|]). eapply run_names; eassumption.
Qed.

(** Texts that are no trees are not read. *)
Example C184_no_tree :
  read_text CLASSIC_ASCII (js "u/" ++ [c_nl] ++ js "    `-- x") = None /\ read_text CLASSIC_ASCII (js "u/" ++ [c_nl] ++ js "x") = None /\
  read_text CLASSIC_ASCII (js "u/" ++ [c_nl] ++ js "`-- x") = Some (DT (js "u/") [DT (js "x") []]).
Proof. repeat split; vm_compute; reflexivity. Qed.

(** C185: without emojis and extensions, a text that was printed for a known path tells the paths of everything that is displayed, in the
    order of the lines; directories may be merged, and levels and children left out. *)
Theorem C185_paths_can_be_read : forall o p w h out h' v dk st,
  steady w dk -> uses w o st -> sees w o v -> bare v -> distinguishable (o_tree_format o) ->
  pretty_print o p w h = (Ok out, h') ->
  exists e s, tree_at st dk 0 (location w p) e /\ shows v true e s /\ out = text (o_tree_format o) (labelled v s) /\
    (clear_names s -> read_paths (o_tree_format o) (location w p) out = Some (entry_paths e)).
Proof. exact run_paths. Qed.
Print Assumptions C185_paths_can_be_read.

(** ... which, without a child limit, are each of the accepted paths once, and nothing else. *)
Theorem C185_accepted_paths_can_be_read : forall o p w h out h' v dk st,
  steady w dk -> distinct_names dk -> uses w o st -> sees w o v -> (forall q, (s_limit st q < 0)%Z) -> bare v -> distinguishable (o_tree_format o) ->
  pretty_print o p w h = (Ok out, h') ->
  exists e s, tree_at st dk 0 (location w p) e /\ shows v true e s /\
    (clear_names s -> exists paths, read_paths (o_tree_format o) (location w p) out = Some paths /\ NoDup paths /\
       forall q, In q paths <-> exists d, reach st dk 0 (location w p) d q).
Proof. exact run_accepted. Qed.
Print Assumptions C185_accepted_paths_can_be_read.

Example C185_case : exists s out,
  steady sample_world sample_disk /\ distinct_names sample_disk /\ uses sample_world compact_options default_settings /\
  sees sample_world compact_options (set_compact true plain_view) /\ (forall q, (s_limit default_settings q < 0)%Z) /\
  bare (set_compact true plain_view) /\ distinguishable (o_tree_format compact_options) /\
  displays compact_options (set_compact true plain_view) sample_world (pth "/home/u") s out /\ clear_names s.
Proof.
  destruct C85_case_lemma as (s & out & Hd & Hc & Ho). exists s, out. split; [exact sample_steady|]. split; [exact sample_distinct|].
  split; [repeat split; repeat intro; eexists; reflexivity|]. split; [apply compact_sees|]. split; [reflexivity|]. split; [split; reflexivity|].
  split; [exact (proj2 C02_builtin_lemma)|]. split; assumption.
Qed.

Example C185_read :
  match result (pretty_print compact_options (pth "/home/u") sample_world []) with
  | Some out => read_paths (o_tree_format compact_options) (location sample_world (pth "/home/u")) out
  | None => None
  end = Some [pth "/home/u"; pth "/home/u/Zoo"; pth "/home/u/a"; pth "/home/u/b.txt"; pth "/home/u/link"; pth "/home/u/src";
              pth "/home/u/src/main"; pth "/home/u/src/main/java"; pth "/home/u/src/main/java/A.java"; pth "/home/u/src/main/java/B.java"].
Proof. vm_compute. reflexivity. Qed.
