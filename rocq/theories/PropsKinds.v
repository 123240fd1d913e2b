(** * What the text tells about what the displayed paths are *)

From Verif Require Import SpecKinds KindFacts PrintFacts Cases.
Open Scope nat_scope.

(** C189: with the paths (C185), the text tells which of them are directories (not links to some) and, links followed, what mark the others
    have. *)
Theorem C189_kinds_can_be_read : forall o p w h out h' v dk st,
  steady w dk -> distinct_names dk -> uses w o st -> sees w o v -> (forall q, (s_limit st q < 0)%Z) -> bare v -> distinguishable (o_tree_format o) ->
  pretty_print o p w h = (Ok out, h') ->
  exists e s, tree_at st dk 0 (location w p) e /\ shows v true e s /\
    (clear_names s -> exists items, read_items (o_tree_format o) (location w p) out = Some items /\ NoDup (map fst items) /\
       (forall q m, In (q, m) items <-> (exists d, reach st dk 0 (location w p) d q) /\ is_marked dk q m) /\
       forall q d, reach st dk 0 (location w p) d q -> exists m, In (q, m) items).
Proof. exact run_items. Qed.
Print Assumptions C189_kinds_can_be_read.

Example C189_case : exists s out,
  steady sample_world sample_disk /\ distinct_names sample_disk /\ uses sample_world compact_options default_settings /\
  sees sample_world compact_options (set_compact true plain_view) /\ (forall q, (s_limit default_settings q < 0)%Z) /\
  bare (set_compact true plain_view) /\ distinguishable (o_tree_format compact_options) /\
  displays compact_options (set_compact true plain_view) sample_world (pth "/home/u") s out /\ clear_names s.
Proof.
  destruct C85_case_lemma as (s & out & Hd & Hc & Ho). exists s, out. split; [exact sample_steady|]. split; [exact sample_distinct|].
  split; [repeat split; repeat intro; eexists; reflexivity|]. split; [apply compact_sees|]. split; [reflexivity|]. split; [split; reflexivity|].
  split; [exact (proj2 C02_builtin_lemma)|]. split; assumption.
Qed.

Example C189_read :
  match result (pretty_print compact_options (pth "/home/u") sample_world []) with
  | Some out => read_items (o_tree_format compact_options) (location sample_world (pth "/home/u")) out
  | None => None
  end = Some [(pth "/home/u", None); (pth "/home/u/Zoo", Some []); (pth "/home/u/a", None); (pth "/home/u/b.txt", Some []); (pth "/home/u/link", Some []);
              (pth "/home/u/src", None); (pth "/home/u/src/main", None); (pth "/home/u/src/main/java", None);
              (pth "/home/u/src/main/java/A.java", Some []); (pth "/home/u/src/main/java/B.java", Some [])].
Proof. vm_compute. reflexivity. Qed.

(** C190: if two runs for the same place, before and after a change or on two computers, print the same text, then the same paths were accepted, and
    the same of them are directories and have the same marks otherwise. *)
Theorem C190_equal_texts_equal_content : forall o1 o2 p1 p2 w1 w2 h1 h2 out h1' h2' v1 v2 dk1 dk2 st1 st2,
  steady w1 dk1 -> distinct_names dk1 -> uses w1 o1 st1 -> sees w1 o1 v1 -> (forall q, (s_limit st1 q < 0)%Z) -> bare v1 ->
  steady w2 dk2 -> distinct_names dk2 -> uses w2 o2 st2 -> sees w2 o2 v2 -> (forall q, (s_limit st2 q < 0)%Z) -> bare v2 ->
  o_tree_format o1 = o_tree_format o2 -> distinguishable (o_tree_format o1) -> location w1 p1 = location w2 p2 ->
  pretty_print o1 p1 w1 h1 = (Ok out, h1') -> pretty_print o2 p2 w2 h2 = (Ok out, h2') ->
  exists e1 s1 e2 s2, tree_at st1 dk1 0 (location w1 p1) e1 /\ shows v1 true e1 s1 /\ tree_at st2 dk2 0 (location w2 p2) e2 /\ shows v2 true e2 s2 /\
    (clear_names s1 -> clear_names s2 ->
       forall q, ((exists d, reach st1 dk1 0 (location w1 p1) d q) <-> (exists d, reach st2 dk2 0 (location w2 p2) d q)) /\
         ((exists d, reach st1 dk1 0 (location w1 p1) d q) -> forall m, is_marked dk1 q m <-> is_marked dk2 q m)).
Proof. exact equal_texts. Qed.
Print Assumptions C190_equal_texts_equal_content.

(** The same text, although one system lists the entries in the opposite order. *)
Example C190_case :
  steady sample_world sample_disk /\ distinct_names sample_disk /\ steady reversed_world reversed_disk /\ distinct_names reversed_disk /\
  uses sample_world default_options default_settings /\ uses reversed_world default_options default_settings /\
  sees sample_world default_options plain_view /\ sees reversed_world default_options plain_view /\ bare plain_view /\
  (forall q, (s_limit default_settings q < 0)%Z) /\ distinguishable (o_tree_format default_options) /\
  location sample_world (pth "/home/u") = location reversed_world (pth "/home/u") /\
  result (pretty_print default_options (pth "/home/u") sample_world []) = result (pretty_print default_options (pth "/home/u") reversed_world []) /\
  is_some (result (pretty_print default_options (pth "/home/u") sample_world [])) = true.
Proof.
  split; [exact sample_steady|]. split; [exact sample_distinct|]. split; [exact reversed_steady|]. split; [apply (table_distinct reversed_table sample_jvm); vm_compute; reflexivity|].
  split; [apply default_uses|]. split; [apply default_uses|]. split; [apply default_sees|]. split; [apply default_sees|]. split; [split; reflexivity|].
  split; [reflexivity|]. split; [exact (proj2 C02_builtin_lemma)|]. split; [vm_compute; reflexivity|]. split; vm_compute; reflexivity.
Qed.

(** A file that became a directory changes what is read. *)
Example C190_difference :
  read_items CLASSIC_ASCII (pth "/u") (js "u/" ++ [c_nl] ++ js "`-- x") <> read_items CLASSIC_ASCII (pth "/u") (js "u/" ++ [c_nl] ++ js "`-- x/") /\
  read_items CLASSIC_ASCII (pth "/u") (js "u/" ++ [c_nl] ++ js "`-- x*") = Some [(pth "/u", None); (pth "/u/x", Some (js "*"))].
Proof. split; [vm_compute; discriminate|vm_compute; reflexivity]. Qed.
