(** * How the file system is accessed: C12-C16, C19, C20, C63-C65, C94, C95 *)

From Verif Require Import SpecHist SpecScan SpecSeen Cases RunFacts AccessFacts SeenFacts.
Open Scope Z_scope.

(** C12. [ExFuel] is the model's "the recursion did not end by itself". The world is arbitrary, and so are the callbacks: [K] says which
    events a call of a callback can have. *)
Theorem C12_terminates_within_depth : forall o p w h (K : trace -> Prop) (E : exn -> Prop),
  callbacks w o K E -> ~ E ExFuel ->
  exists r t, pretty_print o p w h = (r, rev t ++ h) /\ r <> Throw ExFuel /\
    forall ev q, In ev t -> opening ev q ->
      (exists ns, q = mkPath true (p_names (location w p) ++ ns) /\ Z.of_nat (length ns) < o_max_depth o) \/
      (exists u, K u /\ In ev u).
Proof. exact C12_theorem. Qed.
Print Assumptions C12_terminates_within_depth.

(** A directory that contains itself: 20 levels are opened, and the run returns. *)
Example C12_case : callbacks loop_world default_options quiet (fun _ => False) /\
  let (r, h) := pretty_print default_options (pth ".") loop_world [] in
  (exists out, r = Ok out) /\ length (filter content_event h) = 20%nat.
Proof. split; [apply default_callbacks; constructor|]. vm_compute. split; [eexists; reflexivity|reflexivity]. Qed.

(** C13. The callbacks may write logs and ask for the kind of files ([modest]). In any world: a returning run opened exactly the displayed directories above the maximal depth and read the attributes of
    exactly the other displayed files, each once, in display order ([reads]). *)
Theorem C13_reads_what_is_displayed : forall o p w h out h' v,
  callbacks w o (modest w) (fun _ => True) -> sees w o v -> pretty_print o p w h = (Ok out, h') ->
  exists e h1 s t, scan o (location w p) w h = (Ok e, h1) /\ shows v true e s /\ out = text (o_tree_format o) (labelled v s) /\
    h' = rev t ++ h /\ filter content_event t = reads e.
Proof. exact C13_reads. Qed.
Print Assumptions C13_reads_what_is_displayed.

(** On a file system that does not change, whatever the outcome (callbacks may throw): what is opened, or has its attributes read, is
    the root or a child that its directory shows (accepted, and within the limit). *)
Theorem C13_only_shown_children_are_accessed : forall o p w dk st h (E : exn -> Prop),
  steady w dk -> callbacks w o (modest w) E ->
  agrees w (o_dir_matcher o) (s_dirs st) -> agrees w (o_file_matcher o) (s_files st) -> agrees w (o_child_limit o) (s_limit st) ->
  (forall a, agrees w (o_comparator o a) (s_cmp st a)) -> o_max_depth o = s_depth st ->
  exists r t, pretty_print o p w h = (r, rev t ++ h) /\
    forall ev q, In ev t -> looks_into ev q -> exists d, kept st dk 0 (location w p) d q.
Proof. exact C13_kept. Qed.
Print Assumptions C13_only_shown_children_are_accessed.

(** In any world, whatever the outcome: before anything but the root is looked into, its parent was opened and it passed the filter. *)
Theorem C13_filtered_before_accessed : forall o p w st h,
  callbacks w o (modest w) (fun _ => True) ->
  agrees w (o_dir_matcher o) (s_dirs st) -> agrees w (o_file_matcher o) (s_files st) ->
  exists r t, pretty_print o p w h = (r, rev t ++ h) /\
    forall t1 ev t2 q, t = t1 ++ ev :: t2 -> looks_into ev q -> q <> location w p ->
      exists p' n a, q = child p' n /\ In (EvOpen p') t1 /\ In (EvLstat q a) t1 /\ passes st a q = true.
Proof. exact C13_permitted. Qed.
Print Assumptions C13_filtered_before_accessed.

Example C13_case : steady sample_world sample_disk /\ callbacks sample_world case_scan_options (modest sample_world) (fun _ => True) /\
  sees sample_world case_scan_options plain_view /\
  agrees sample_world (o_dir_matcher case_scan_options) (s_dirs case_settings) /\
  agrees sample_world (o_file_matcher case_scan_options) (s_files case_settings) /\
  agrees sample_world (o_child_limit case_scan_options) (s_limit case_settings) /\
  (forall a, agrees sample_world (o_comparator case_scan_options a) (s_cmp case_settings a)) /\
  rev (filter content_event (snd (pretty_print case_scan_options (pth "src") sample_world []))) =
    [EvOpen (pth "/home/u/src"); EvOpen (pth "/home/u/src/main"); EvOpen (pth "/home/u/src/main/java");
     EvStat (pth "/home/u/src/main/java/A.java") (Some KReg)].
Proof.
  split; [exact sample_steady|]. split; [apply case_callbacks|]. split; [apply case_scan_sees|].
  split; [apply pure_agrees|]. split; [apply pure_agrees|]. split; [apply pure_agrees|].
  split; [intro a; apply answers_agrees; apply case_uses|]. vm_compute. reflexivity.
Qed.

(** C14 does not hold: "/r" has limit 0 and is listed. *)
Theorem C14_refuted : exists o w p out,
  (forall q h, o_child_limit o q w h = (Ok 0, h)) /\
  pretty_print o p w [] = (Ok out, [EvClose p true; EvLstat (child p (js "x")) (Some KLink); EvOpen p; EvLstat p (Some KDir)]).
Proof.
  exists (with_child_limit_fn (fun _ => ret 0) default_options), sample_world, (pth "/r"). eexists.
  split; [reflexivity|vm_compute; reflexivity].
Qed.
Print Assumptions C14_refuted.

(** C63. The callbacks are arbitrary: whatever the limits are, every displayed directory above the maximal depth is opened and every name listed in it is examined. *)
Theorem C63_limit_does_not_avoid_listing : forall o p w dk h out h' v,
  steady w dk -> callbacks w o (fun _ => True) (fun _ => True) -> sees w o v -> pretty_print o p w h = (Ok out, h') ->
  exists e h1 s t, scan o (location w p) w h = (Ok e, h1) /\ shows v true e s /\ out = text (o_tree_format o) (labelled v s) /\
    h' = rev t ++ h /\
    forall k q es, at_depth k e (EDir q es) -> Z.of_nat k < o_max_depth o ->
      In (EvOpen q) t /\
      exists names, d_list dk q = Some names /\ forall n, In n names -> In (EvLstat (child q n) (d_kind dk (child q n))) t.
Proof. exact C14_lemma. Qed.
Print Assumptions C63_limit_does_not_avoid_listing.

Example C63_case : callbacks sample_world case_scan_options (fun _ => True) (fun _ => True) /\ sees sample_world case_scan_options plain_view /\
  is_some (result (pretty_print case_scan_options (pth ".") sample_world [])) = true.
Proof. split; [eapply callbacks_weaken; [| |apply (case_callbacks _ (fun _ => True))]; intros; exact I|]. split; [apply case_scan_sees|vm_compute; reflexivity]. Qed.

(** C15. The callbacks may access the file system themselves, as long as they close what they open, and may throw anything. *)
Theorem C15_streams_closed : forall o p w h,
  callbacks w o balanced (fun _ => True) ->
  exists t, snd (pretty_print o p w h) = rev t ++ h /\ balanced t.
Proof. exact (fun o p w h => C15_lemma o p w h (fun _ => True)). Qed.
Print Assumptions C15_streams_closed.

(** The filter throws inside the fourth nested directory. *)
Example C15_case : callbacks sample_world throwing_options balanced (fun x => x = ExUser 7) /\
  let (r, h) := pretty_print throwing_options (pth "src") sample_world [] in
  r = Throw (ExUser 7) /\ length (filter (fun ev => match ev with EvClose _ true => true | _ => false end) h) = 3%nat.
Proof. split; [apply throwing_callbacks|]. vm_compute. split; reflexivity. Qed.

(** C16. In any world and whatever the outcome, what is opened has just been found to be a directory, links not followed. *)
Theorem C16_opens_only_directories : forall o p w h,
  callbacks w o (modest w) (fun _ => True) ->
  exists r t, pretty_print o p w h = (r, rev t ++ h) /\
    forall t1 ev t2 q, t = t1 ++ ev :: t2 -> opening ev q -> exists t0, t1 = t0 ++ [EvLstat q (Some KDir)].
Proof. exact C16_lemma. Qed.
Print Assumptions C16_opens_only_directories.

(** On a file system that does not change: a link is never opened, and is displayed as a leaf. *)
Theorem C16_links_are_leaves : forall o p w dk v h,
  steady w dk -> callbacks w o (modest w) (fun _ => True) -> sees w o v ->
  exists r t, pretty_print o p w h = (r, rev t ++ h) /\
    (forall q, d_kind dk q = Some KLink -> ~ In (EvOpen q) t /\ ~ In (EvOpenFail q) t) /\
    (forall out, r = Ok out ->
       exists e h1 s, scan o (location w p) w h = (Ok e, h1) /\ shows v true e s /\ out = text (o_tree_format o) (labelled v s) /\
         forall k x q, at_depth k e x -> entry_path x = Some q -> d_kind dk q = Some KLink -> exists kd, x = EFile q kd).
Proof. exact C16_steady. Qed.
Print Assumptions C16_links_are_leaves.

(** Only directories with a file "pom.xml" are to be shown; the filter looks for it. *)
Example C16_case : callbacks sample_world (asking_options "pom.xml") (modest sample_world) (fun _ => True) /\
  sees sample_world (asking_options "pom.xml") plain_view /\ steady sample_world sample_disk /\
  d_kind sample_disk (pth "/home/u/link") = Some KLink /\ d_attr sample_disk (pth "/home/u/link") = Some KDir /\
  let (r, h) := pretty_print (asking_options "pom.xml") (pth "/home/u") sample_world [] in
  is_some (result (r, h)) = true /\ In (EvLstat (pth "/home/u/src/pom.xml") None) h /\
  rev (filter content_event h) =
    [EvOpen (pth "/home/u"); EvStat (pth "/home/u/Zoo") (Some KReg); EvStat (pth "/home/u/b.txt") (Some KReg); EvStat (pth "/home/u/link") (Some KDir)].
Proof. split; [apply asking_modest|]. split; [apply asking_sees|]. split; [exact sample_steady|].
  vm_compute. repeat split; auto 20. Qed.

(** C19 does not hold: a failure while a directory is being read is not an UncheckedIOException. *)
Theorem C19_refuted : exists o w p h',
  pretty_print o p w [] = (Throw (ExDirectoryIterator (location w p)), h').
Proof. exists default_options, iter_fail_world, (pth "/r"). eexists. vm_compute. reflexivity. Qed.
Print Assumptions C19_refuted.

(** C64. [E] are the exceptions of the user's own filters, limits and comparator. Anything else is an UncheckedIOException about a
    path whose attributes could not be read, or whose stream could not be opened or closed, or a DirectoryIteratorException about a
    directory that could not be read to its end. *)
Theorem C64_exceptions_are_io_failures : forall o p w h v (E : exn -> Prop),
  callbacks w o (fun _ => True) E -> orderly w o \/ E ExIllegalArgument -> sees w o v -> p_names (location w p) <> [] ->
  exists r t, pretty_print o p w h = (r, rev t ++ h) /\
    forall x, r = Throw x -> E x \/
      (exists q, x = ExUncheckedIO ReadAttributes q /\ In (EvStat q None) t) \/
      (exists q, x = ExUncheckedIO ListFiles q /\ (In (EvOpenFail q) t \/ In (EvClose q false) t)) \/
      (exists q, x = ExDirectoryIterator q /\ In (EvIterFail q) t).
Proof. exact C19_lemma. Qed.
Print Assumptions C64_exceptions_are_io_failures.

Example C64_case : callbacks sample_world default_options (fun _ => True) (fun _ => False) /\ orderly sample_world default_options /\ sees sample_world default_options plain_view /\
  fst (pretty_print default_options (pth "/r") sample_world []) = Throw (ExUncheckedIO ReadAttributes (pth "/r/x")).
Proof. split; [apply default_callbacks; exact I|]. split; [apply default_orderly|]. split; [apply default_sees|vm_compute; reflexivity]. Qed.

(** C20 does not hold: the kind of "/home/u" is found to be a directory, then cannot be read any more; the directory is printed as a file,
    without its contents. *)
Theorem C20_refuted : exists o w p q,
  w_open w [] q = Some (mkDirlist [js "Zoo"; js "b.txt"; js "a"; js "src"; js "link"] false) /\
  pretty_print o p w [] = (Ok (js "home/" ++ [c_nl] ++ [9492; 9472]%N ++ js " u"),
    rev [EvLstat p (Some KDir); EvOpen p; EvLstat q (Some KDir); EvLstat q None; EvStat q (Some KDir); EvClose p true]).
Proof. exists default_options, flaky_world, (pth "/home"), (pth "/home/u"). split; vm_compute; reflexivity. Qed.
Print Assumptions C20_refuted.

(** C65: in any world, a returning run saw no failure other than failures to read the kind of a path (unless a callback met one, and went on). *)
Theorem C65_no_other_failure_is_swallowed : forall o p w h out h',
  callbacks w o (fun t => forall ev q, In ev t -> ~ failed ev q) (fun _ => True) -> pretty_print o p w h = (Ok out, h') ->
  exists t, h' = rev t ++ h /\ forall ev q, In ev t -> ~ failed ev q.
Proof. exact C20_lemma. Qed.
Print Assumptions C65_no_other_failure_is_swallowed.

Example C65_case : callbacks sample_world default_options (fun t => forall ev q, In ev t -> ~ failed ev q) (fun _ => True) /\
  is_some (result (pretty_print default_options (pth ".") sample_world [])) = true.
Proof. split; [apply default_callbacks; intros ev q []|vm_compute; reflexivity]. Qed.

(** C94. In any world: what is displayed is what was answered, at the moment it was asked. The callbacks may access the file system too, and
    are told what the world answers at that moment ([honest_callbacks]). *)
Theorem C94_shows_what_was_answered : forall o p w h out h' v,
  honest_callbacks w o -> sees w o v -> pretty_print o p w h = (Ok out, h') ->
  exists e s t, shows v true e s /\ out = text (o_tree_format o) (labelled v s) /\ h' = rev t ++ h /\
    truthful_from w h t /\ entry_path e = Some (location w p) /\
    forall k x, at_depth k e x -> seen_entry w o h t (Z.of_nat k) x.
Proof. exact C94_lemma. Qed.
Print Assumptions C94_shows_what_was_answered.

(** Only directories with a file "m" are shown. "m" is moved from "d/a" to "d/b" after the filter looked into "d/a": both are displayed, and
    "m" under "d/b". *)
Example C94_case :
  let w := changing_world (moved_fs true) (moved_fs false) 4 sample_jvm in
  honest_callbacks w (asking_options "m") /\ sees w (asking_options "m") plain_view /\
  result (pretty_print (asking_options "m") (pth "/d") w []) =
    Some (js "d/" ++ [c_nl] ++ [9500; 9472]%N ++ js " a/" ++ [c_nl] ++
          [9492; 9472]%N ++ js " b/" ++ [c_nl] ++ js "   " ++ [9492; 9472]%N ++ js " m").
Proof. split; [apply asking_honest|]. split; [apply asking_sees|]. vm_compute. reflexivity. Qed.

(** C95 does not hold: the text need not show a state the file system ever was in. *)
Theorem C95_refuted : exists o p fs1 fs2 n j out,
  result (pretty_print o p (changing_world fs1 fs2 n j) []) = Some out /\
  result (pretty_print o p (static_world fs1 j) []) <> Some out /\
  result (pretty_print o p (static_world fs2 j) []) <> Some out.
Proof.
  exists default_options, (pth "/d"), (moved_fs true), (moved_fs false), 9%nat, sample_jvm. eexists.
  split; [vm_compute; reflexivity|]. split; vm_compute; discriminate.
Qed.
Print Assumptions C95_refuted.

(** C125 does not hold: 60 files, compared by the difference of their sizes as an [int]. *)
Theorem C125_refuted : exists o p w dk st v h',
  steady w dk /\ uses w o st /\ sees w o v /\ p_names (location w p) <> [] /\
  (forall d q, reach st dk 0 (location w p) d q -> (is_dir dk q -> exists l, d_list dk q = Some l) /\ (~ is_dir dk q -> exists k, d_attr dk q = Some k)) /\
  pretty_print o p w [] = (Throw ExIllegalArgument, h').
Proof.
  exists (with_sort size_difference default_options), (pth "/d"), (flat_world many_files), many_disk, many_settings, plain_view. eexists.
  split; [exact many_steady|]. split; [exact many_uses|]. split; [apply many_sees|]. split; [vm_compute; discriminate|]. split; [exact many_readable|].
  vm_compute. reflexivity.
Qed.
Print Assumptions C125_refuted.

(** C124. [E] are the exceptions of the user's own filters, limits, comparator and texts. *)
Theorem C124_sort_refusal : forall o p w h (E : exn -> Prop),
  callbacks w o (fun _ => True) E ->
  exists r t, pretty_print o p w h = (r, rev t ++ h) /\
    (r = Throw ExIllegalArgument -> E ExIllegalArgument \/
      (~ orderly w o /\ exists q h0 dl, In (EvOpen q) t /\ w_open w h0 q = Some dl /\ (32 <= length (dl_names dl))%nat)).
Proof. exact C124_lemma. Qed.
Print Assumptions C124_sort_refusal.

Example C124_case : callbacks (flat_world many_files) (with_sort size_difference default_options) (fun _ => True) (fun _ => False) /\
  ~ orderly (flat_world many_files) (with_sort size_difference default_options) /\
  fst (pretty_print (with_sort size_difference default_options) (pth "/d") (flat_world many_files) []) = Throw ExIllegalArgument /\
  is_some (result (pretty_print (with_sort BY_FILE_SIZE default_options) (pth "/d") (flat_world many_files) [])) = true.
Proof.
  split; [exact many_callbacks|]. split; [exact many_not_orderly|]. split; vm_compute; reflexivity.
Qed.

(** C59. Beyond the kind of the printed path, nothing is accessed but what the emoji mapping and the line extension access ([K] says which traces
    a call of theirs can have): no directory is opened, and the filter, the limit and the comparator, about which nothing is assumed, are not
    called. *)
Theorem C59_nothing_is_opened : forall o p w h (K : trace -> Prop), o_max_depth o <= 0 -> w_lstat w h (location w p) = Some KDir ->
  K [] -> (forall t t', K t -> K t' -> K (t ++ t')) -> callback w (o_emoji o) K (fun _ => True) ->
  match o_line_extension o with Some f => callback w f K (fun _ => True) | None => True end ->
  exists r t, pretty_print o p w h = (r, rev t ++ EvLstat (location w p) (Some KDir) :: h) /\ K t.
Proof. exact C59_accesses. Qed.
Print Assumptions C59_nothing_is_opened.

Example C59_access_case :
  let o := with_max_depth 0 (filter_directories (fun _ => throw (ExUser 1)) (with_line_extension (Some (logged 4 (fun _ => ret None))) default_options)) in
  callback sample_world (o_emoji o) quiet (fun _ => True) /\
  match o_line_extension o with Some f => callback sample_world f quiet (fun _ => True) | None => True end /\
  snd (pretty_print o (pth "/home/u") sample_world []) = [EvUser 4 (pth "/home/u"); EvLstat (pth "/home/u") (Some KDir)].
Proof.
  split; [|split].
  - intros a h. exists (Ok None), []. repeat split. constructor.
  - intros a h. exists (Ok None), [EvUser 4 a]. repeat split. repeat constructor.
  - vm_compute. reflexivity.
Qed.
