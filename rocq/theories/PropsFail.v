(** * Failing runs and what they report: C150-C152 *)

From Verif Require Import SpecFail SpecMatch SpecDoc SpecFormat FailFacts FailCliFacts Cases DocCases CliRefs CliCases FailCases.

(** C150. Unless a user callback throws ([E]), an exception that leaves a run is about a path [q], the printed one or one at most the maximal
    depth below it, and its message tells what the library was doing, and [q]; that access to [q] failed. The one exception of another type is that
    of a listing that breaks off; the JDK writes its message. *)
Theorem C150_message_tells_path : forall o p w h v (E : exn -> Prop),
  callbacks w o (fun _ => True) E -> orderly w o \/ E ExIllegalArgument -> sees w o v -> p_names (location w p) <> [] ->
  exists r t, pretty_print o p w h = (r, rev t ++ h) /\
    forall x, r = Throw x -> E x \/
      exists q ns, q = mkPath true (p_names (location w p) ++ ns) /\ (Z.of_nat (length ns) <= Z.max 0 (o_max_depth o))%Z /\
        ((In (EvStat q None) t /\ message x = Some (js "Unable to read file attributes: " ++ path_str q)) \/
         ((In (EvOpenFail q) t \/ In (EvClose q false) t) /\ message x = Some (js "Unable to list files for directory: " ++ path_str q)) \/
         (In (EvIterFail q) t /\ x = ExDirectoryIterator q)).
Proof. exact C150_lemma. Qed.
Print Assumptions C150_message_tells_path.

(** A link that points nowhere; a directory that may not be listed. *)
Example C150_case :
  callbacks sample_world default_options (fun _ => True) (fun _ => False) /\ orderly sample_world default_options /\
  sees sample_world default_options plain_view /\ sees closed_world default_options plain_view /\
  said (fst (pretty_print default_options (pth "/r") sample_world [])) = Some (js "Unable to read file attributes: /r/x") /\
  said (fst (pretty_print default_options (pth "/home") closed_world [])) = Some (js "Unable to list files for directory: /home/u/src").
Proof.
  split; [apply default_callbacks; exact I|]. split; [apply default_orderly|]. split; [apply default_sees|]. split; [apply default_sees|].
  split; vm_compute; reflexivity.
Qed.

(** The matchers on children, descendants and siblings: if the directory they look into cannot be opened, the message tells which. *)
Theorem C150_matchers : forall m p n w h, p_abs p = true -> w_lstat w h p = Some KDir -> w_lstat w (EvLstat p (Some KDir) :: h) p = Some KDir ->
  w_open w (EvLstat p (Some KDir) :: EvLstat p (Some KDir) :: h) p = None ->
  forall f, In f [pm_any_direct_child m p; pm_any_descendant m p; pm_sibling m (child p n)] ->
  exists x h', f w h = (Throw x, h') /\ message x = Some (js "Exception while walking files of " ++ path_str p).
Proof. exact C150_walks_lemma. Qed.
Print Assumptions C150_matchers.

Example C150_case_matchers : let p := pth "/home/u/src" in
  w_lstat closed_world [] p = Some KDir /\ w_open closed_world [] p = None /\
  said (fst (pm_sibling (pm_name (js "x")) (child p (js "main")) closed_world [])) = Some (js "Exception while walking files of /home/u/src").
Proof. vm_compute. repeat split. Qed.

(** C151. The command, when the document that is followed has a malformed glob or the text it asks for does not exist: it exits with 1, writes
    nothing to standard output, and what it reports on standard error is the message about the malformed glob, or tells which file has attributes
    that cannot be read, or which directory cannot be listed, at the target or below it. *)
Theorem C151_command_tells_path : forall w fs a T ex sel x dk s,
  steady_files w fs -> usual_linesep (cw_linesep w) -> a_debug a = false ->
  resolved (jv_cwd (w_jvm (cw_world w))) (asked_target a) T -> f_exists fs T = true ->
  chooses w fs a T ex sel -> followed sel x ->
  steady (cw_world w) dk -> Forall real_name (p_names T) -> p_names T <> [] ->
  let j := w_jvm (cw_world w) in
  (x_emojis x = Some true -> forall k v, default_names k v \/ default_exts k v -> jv_lower j k = k) ->
  ~ ((forall g, In g (all_globs x) -> good_glob j g) /\ exists text, shows_document j dk (p_names T) x text) ->
  let s' := snd (run_cli a w s) in
  fst (run_cli a w s) = 1%Z /\ cs_out s' = cs_out s /\
  exists m err, error_output w (js "Error while pretty printing: " ++ m) err /\ cs_err s' = cs_err s ++ err /\
    ((exists g, jv_glob j g = None /\ m = cw_message w (XLibrary (ExPatternSyntax g))) \/
     (exists q ns, q = mkPath true (p_names T ++ ns) /\
        ((~ is_dir dk q /\ d_attr dk q = None /\ m = js "Unable to read file attributes: " ++ path_str q) \/
         (is_dir dk q /\ d_list dk q = None /\ m = js "Unable to list files for directory: " ++ path_str q)))).
Proof. exact C151_lemma. Qed.
Print Assumptions C151_command_tells_path.

Example C151_case : let fs := case_files [] [pth "/r"] in let w := case_cli sample_world fs in let a := mkArgs (Some (pth "/r")) None false in
  resolved (jv_cwd (w_jvm (cw_world w))) (asked_target a) (pth "/r") /\ (exists ex, chooses w fs a (pth "/r") ex UseDefault) /\
  followed UseDefault bare_document /\ steady sample_world sample_disk /\
  (forall text, ~ shows_document sample_jvm sample_disk (names_of "r") bare_document text) /\
  readable (cs_err (snd (run_cli a w cli_start))) = readable (js "[ERROR] Error while pretty printing: Unable to read file attributes: /r/x" ++ [10%N]).
Proof. exact dangling_case. Qed.

(** C152. The failure that is reported is the first one of the run (apart from those of user callbacks, whose accesses satisfy [K]), and after it
    the library only closes directory streams. *)
Theorem C152_stops_at_first_failure : forall o p w h v (K : trace -> Prop) (E : exn -> Prop),
  callbacks w o K E -> orderly w o \/ E ExIllegalArgument -> sees w o v -> p_names (location w p) <> [] ->
  exists r t, pretty_print o p w h = (r, rev t ++ h) /\
    forall x, r = Throw x -> E x \/
      exists q ev t1 t2, t = t1 ++ ev :: t2 /\ reports x q ev /\ unfailing K t1 /\ Forall is_close t2.
Proof. exact C152_lemma. Qed.
Print Assumptions C152_stops_at_first_failure.

(** "src" may not be listed: what is printed before it is read, and once it fails the two open directories are closed. *)
Example C152_case : let q := pth "/home/u/src" in
  callbacks closed_world default_options quiet (fun _ => False) /\ orderly closed_world default_options /\
  exists t1, hist_of (pretty_print default_options (pth "/home") closed_world []) = t1 ++ EvOpenFail q :: [EvClose (pth "/home/u") true; EvClose (pth "/home") true] /\
    In (EvStat (pth "/home/u/b.txt") (Some KReg)) t1 /\ reports (ExUncheckedIO ListFiles q) q (EvOpenFail q).
Proof.
  intro q. split; [apply default_callbacks; constructor|]. split; [apply default_orderly|].
  eexists. split; [vm_compute; apply (split_at 20); reflexivity|]. split; [|constructor]. vm_compute. tauto.
Qed.
