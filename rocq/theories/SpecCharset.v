(** * Vocabulary for what can be read on standard output *)

From Verif Require Export Charset SpecText SpecDoc SpecFormat.

(** ASCII characters are encoded as in ASCII. *)
Definition extends_ascii (cs : charset) : Prop := forall c, (c < 128)%N -> cs c = Some [c].

(** The bytes of a character that the charset has. *)
Definition bytes_of (cs : charset) (c : N) : list N := match cs c with Some b => b | None => [] end.

(** The bytes of a text whose characters the charset has determine the text. *)
Definition decodable (cs : charset) : Prop := forall s1 s2,
  Forall (fun c => cs c <> None) s1 -> Forall (fun c => cs c <> None) s2 ->
  flat_map (bytes_of cs) s1 = flat_map (bytes_of cs) s2 -> s1 = s2.

(** [legible cs s r]: the text [s] (of UTF-16 code units) can be read as [r] (characters): "?" for every character that [cs] does not have, and for
    every half without its other half. *)
Inductive legible (cs : charset) : jstring -> list N -> Prop :=
| lg_nil : legible cs [] []
| lg_known c s r : ~ high_half c -> ~ low_half c -> cs c <> None -> legible cs s r -> legible cs (c :: s) (c :: r)
| lg_unknown c s r : ~ high_half c -> ~ low_half c -> cs c = None -> legible cs s r -> legible cs (c :: s) (63%N :: r)
| lg_pair c d k s r : high_half c -> low_half d -> k = ((c - 55296) * 1024 + (d - 56320) + 65536)%N -> cs k <> None -> legible cs s r ->
    legible cs (c :: d :: s) (k :: r)
| lg_unknown_pair c d k s r : high_half c -> low_half d -> k = ((c - 55296) * 1024 + (d - 56320) + 65536)%N -> cs k = None -> legible cs s r ->
    legible cs (c :: d :: s) (63%N :: r)
| lg_high c s r : high_half c -> (forall d s', s = d :: s' -> ~ low_half d) -> legible cs s r -> legible cs (c :: s) (63%N :: r)
| lg_low c s r : low_half c -> legible cs s r -> legible cs (c :: s) (63%N :: r).

Definition legible_format (cs : charset) (tf r : tree_format) : Prop :=
  legible cs (tf_non_last tf) (tf_non_last r) /\ legible cs (tf_last tf) (tf_last r) /\
  legible cs (tf_continuation tf) (tf_continuation r) /\ legible cs (tf_empty tf) (tf_empty r).

(** The same tree with the labels as they can be read. *)
Inductive legible_tree (cs : charset) : dtree -> dtree -> Prop :=
| lt_node label kids l ks : legible cs label l -> Forall2 (legible_tree cs) kids ks -> legible_tree cs (DT label kids) (DT l ks).

Definition labels_paired (t : dtree) : Prop := forall r, In r (rows t) -> paired (snd r).

(** The command line [a], with the files as they are in [w], asks for the tree [t] (what options files are chosen and what they mean: C52, C77, C116), and
    no label contains a percent sign. *)
Inductive asks_for (w : cworld) (a : cli_args) (t : dtree) : Prop :=
| af fs T ex sel x dk st v e s :
    steady_files w fs -> usual_linesep (cw_linesep w) -> a_debug a = false ->
    resolved (jv_cwd (w_jvm (cw_world w))) (asked_target a) T -> f_exists fs T = true ->
    chooses w fs a T ex sel -> followed sel x ->
    steady (cw_world w) dk -> distinct_names dk -> real_listings dk -> Forall real_name (p_names T) -> p_names T <> [] ->
    (x_emojis x = Some true -> forall k v, default_names k v \/ default_exts k v -> jv_lower (w_jvm (cw_world w)) k = k) ->
    (forall g, In g (all_globs x) -> good_glob (w_jvm (cw_world w)) g) ->
    follows (w_jvm (cw_world w)) dk (p_names T) x st v ->
    tree_at st dk 0 (mkPath true (p_names T)) e -> shows v true e s -> t = labelled v s ->
    (forall r, In r (rows t) -> ~ In c_percent (snd r)) ->
    asks_for w a t.
