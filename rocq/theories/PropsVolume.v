(** * Properties of printing in the presence of symbolic links *)

From Verif Require Import SpecVolume SpecHist VolumePrintFacts MovingFacts VolumeCases.
Close Scope Z_scope.

(** C161 does not hold: "link" leads to "/data/x", so "link/.." is the directory "/data". But the directory that contains "link" is printed. *)
Theorem C161_refuted : exists top j p l out out',
  well_formed top /\ folder_at top (jv_cwd j) /\ place top false (jv_cwd j) p = Some l /\ folder_at top l /\
  result (pretty_print default_options p (volume_world top j) []) = Some out /\
  result (pretty_print default_options (mkPath true l) (volume_world top j) []) = Some out' /\ out <> out'.
Proof.
  exists linked_volume, sample_jvm, (pth "link/.."), (names_of "data"). eexists. eexists. split; [exact linked_well_formed|].
  split; [vm_compute; eauto|]. split; [vm_compute; reflexivity|]. split; [vm_compute; eauto|].
  split; [vm_compute; reflexivity|]. split; [vm_compute; reflexivity|]. discriminate.
Qed.
Print Assumptions C161_refuted.

(** The two texts, and those for "link/.", which is the directory "/data/x". *)
Example C161_case :
  map printed_there ["link/.."; "/data"; "link/."; "/data/x"]%string =
  map (fun t => Some (String.concat (String (ascii_of_N 10) "") t))
    [["u/"; "## a.txt"; "## again"; "## link"; "## self"; "## sub/"; "   ## b.txt"];
     ["data/"; "## x/"; "#  ## in/"; "#  #  ## f"; "#  #  ## g"; "#  ## up"; "## y/"];
     ["link"]; ["x/"; "## in/"; "#  ## f"; "#  ## g"; "## up"]]%string.
Proof. vm_compute. reflexivity. Qed.

(** C162. If "." and ".." come after directories only, what is printed is what the operating system finds: the text is the one for the place where the path
    ends, whatever links there are on the way. (The options have to treat both paths alike; the default options do.) *)
Theorem C162_place_is_printed : forall o p top j st v h out h' l,
  let w := volume_world top j in let dk := volume_disk top (jv_cwd j) in
  well_formed top -> uses w o st -> sees w o v -> configured_order (s_cmp st) ->
  place top false (jv_cwd j) p = Some l -> l <> [] -> dots_after_directories top (jv_cwd j) (p_names (to_absolute (jv_cwd j) p)) ->
  same_settings dk st (location w p) st (mkPath true l) -> same_view dk v (location w p) v (mkPath true l) ->
  pretty_print o p w h = (Ok out, h') -> forall h2, exists h2', pretty_print o (mkPath true l) w h2 = (Ok out, h2').
Proof. exact (fun o p top j st v h out h' l Hwf => print_forth top j Hwf o p st v h out h' l). Qed.
Print Assumptions C162_place_is_printed.

(** Conversely, if the path takes [k] links and no link below needs so many that the limit is met. *)
Theorem C162_place_is_printed_back : forall o p top j st v h out h' k l,
  let w := volume_world top j in let dk := volume_disk top (jv_cwd j) in
  well_formed top -> uses w o st -> sees w o v -> configured_order (s_cmp st) ->
  k <= max_links -> search top false k [] (p_names (to_absolute (jv_cwd j) p)) = Some l ->
  dots_after_directories top (jv_cwd j) (p_names (to_absolute (jv_cwd j) p)) ->
  (forall ns t r, node_at top (l ++ ns) = Some (NLink t) -> search top true max_links [] (l ++ ns) = Some r ->
     search top true (max_links - k) [] (l ++ ns) = Some r) ->
  same_settings dk st (mkPath true l) st (location w p) -> same_view dk v (mkPath true l) v (location w p) ->
  pretty_print o (mkPath true l) w h = (Ok out, h') -> forall h2, exists h2', pretty_print o p w h2 = (Ok out, h2').
Proof. exact (fun o p top j st v h out h' k l Hwf => print_back top j Hwf o p st v h out h' k l). Qed.
Print Assumptions C162_place_is_printed_back.

(** "again/in/.././in" is found at "/data/x/in" through two links. *)
Example C162_case :
  let p := pth "again/in/.././in" in let l := names_of "data/x/in" in
  well_formed linked_volume /\ uses linked_world default_options default_settings /\ sees linked_world default_options plain_view /\
  configured_order (s_cmp default_settings) /\ place linked_volume false (jv_cwd sample_jvm) p = Some l /\
  search linked_volume false 2 [] (p_names (to_absolute (jv_cwd sample_jvm) p)) = Some l /\
  search linked_volume false 1 [] (p_names (to_absolute (jv_cwd sample_jvm) p)) = None /\
  dots_after_directories linked_volume (jv_cwd sample_jvm) (p_names (to_absolute (jv_cwd sample_jvm) p)) /\
  (forall ns t r, node_at linked_volume (l ++ ns) = Some (NLink t) -> search linked_volume true max_links [] (l ++ ns) = Some r ->
     search linked_volume true (max_links - 2) [] (l ++ ns) = Some r) /\
  same_settings linked_disk default_settings (location linked_world p) default_settings (mkPath true l) /\
  same_view linked_disk plain_view (location linked_world p) plain_view (mkPath true l) /\
  is_some (result (pretty_print default_options p linked_world [])) = true.
Proof.
  cbv zeta. split; [exact linked_well_formed|]. split; [apply default_uses|]. split; [apply default_sees|].
  split; [exact default_configured|].
  split; [vm_compute; reflexivity|]. split; [vm_compute; reflexivity|]. split; [vm_compute; reflexivity|].
  split; [exact case_dots|]. split; [exact case_links|]. split; [apply default_moves|]. split; [apply plain_moves|]. vm_compute. reflexivity.
Qed.

(** C163. The tree that is shown is the one on the volume: without child limits, exactly the files below the place [l] of the printed path that are
    accepted with all directories above them, down to the maximal depth, each once. Links are shown and not entered. *)
Theorem C163_tree_on_the_volume : forall o p top j st v h out h',
  let w := volume_world top j in let dk := volume_disk top (jv_cwd j) in
  well_formed top -> uses w o st -> sees w o v -> (forall q, s_limit st q < 0)%Z -> pretty_print o p w h = (Ok out, h') ->
  exists e s l, tree_at st dk 0 (location w p) e /\ shows v true e s /\ out = text (o_tree_format o) (labelled v s) /\
    place top false (jv_cwd j) (location w p) = Some l /\ NoDup (shown_paths s) /\
    forall q, In q (shown_paths s) <->
      exists ns, q = deeper (location w p) ns /\ node_at top (l ++ ns) <> None /\ (ns = [] \/ (Z.of_nat (length ns) <= s_depth st)%Z) /\
        forall a b, ns = a ++ b -> a <> [] ->
          (folder_at top (l ++ a) -> s_dirs st (deeper (location w p) a) = true) /\
          (~ folder_at top (l ++ a) -> s_files st (deeper (location w p) a) = true).
Proof. exact (fun o p top j st v h out h' Hwf => shown_places top j Hwf o p st v h out h'). Qed.
Print Assumptions C163_tree_on_the_volume.

(** "again" leads to "link", which leads to "/data/x". *)
Example C163_case :
  well_formed linked_volume /\ uses linked_world default_options default_settings /\ sees linked_world default_options plain_view /\
  (forall q, s_limit default_settings q < 0)%Z /\
  map printed_there ["again/in"; "self/self/sub"]%string =
  map (fun t => Some (String.concat (String (ascii_of_N 10) "") t)) [["in/"; "## f"; "## g"]; ["sub/"; "## b.txt"]]%string.
Proof.
  split; [exact linked_well_formed|]. split; [apply default_uses|]. split; [apply default_sees|]. split; [reflexivity|]. vm_compute. reflexivity.
Qed.

(** C164. Whatever the outcome (the callbacks may throw), no link below the printed directory is followed for opening a directory: what is opened is on the
    volume where its path says, in the tree below the place of the printed path. *)
Theorem C164_opened_inside : forall o p top j st h l (E : exn -> Prop),
  let w := volume_world top j in
  well_formed top -> callbacks w o (modest w) E ->
  agrees w (o_dir_matcher o) (s_dirs st) -> agrees w (o_file_matcher o) (s_files st) -> agrees w (o_child_limit o) (s_limit st) ->
  (forall a, agrees w (o_comparator o a) (s_cmp st a)) -> o_max_depth o = s_depth st ->
  place top false (jv_cwd j) (location w p) = Some l ->
  exists r t, pretty_print o p w h = (r, rev t ++ h) /\
    forall ev q, In ev t -> looks_into ev q ->
      exists ns, q = deeper (location w p) ns /\ place top false (jv_cwd j) q = Some (l ++ ns) /\
        (opening ev q -> folder_at top (l ++ ns) /\ place top true (jv_cwd j) q = Some (l ++ ns)).
Proof. exact (fun o p top j st h l E Hwf => opened_places top j Hwf o p st h l E). Qed.
Print Assumptions C164_opened_inside.

(** The directories opened for "again/..", which is printed as "/home/u", and for "again/in". *)
Example C164_case :
  well_formed linked_volume /\ callbacks linked_world default_options (modest linked_world) (fun _ => False) /\
  agrees linked_world (o_dir_matcher default_options) (s_dirs default_settings) /\
  agrees linked_world (o_file_matcher default_options) (s_files default_settings) /\
  agrees linked_world (o_child_limit default_options) (s_limit default_settings) /\
  (forall a, agrees linked_world (o_comparator default_options a) (s_cmp default_settings a)) /\
  o_max_depth default_options = s_depth default_settings /\
  place linked_volume false (jv_cwd sample_jvm) (location linked_world (pth "again/in")) = Some (names_of "data/x/in") /\
  flat_map (fun ev => match ev with EvOpen q => [q] | _ => [] end) (rev (snd (pretty_print default_options (pth "again/in") linked_world []))) =
    [pth "/home/u/again/in"] /\
  flat_map (fun ev => match ev with EvOpen q => [q] | _ => [] end) (rev (snd (pretty_print default_options (pth "again/..") linked_world []))) =
    [pth "/home/u"; pth "/home/u/sub"].
Proof.
  split; [exact linked_well_formed|]. split; [apply default_callbacks; constructor|]. destruct (default_agree linked_world) as (A1 & A2 & A3 & A4).
  split; [exact A1|]. split; [exact A2|]. split; [exact A3|]. split; [exact A4|]. split; [reflexivity|]. split; [vm_compute; reflexivity|]. split; vm_compute; reflexivity.
Qed.

(** C165 does not hold: if a directory is replaced by a link between the test whether it is one and its opening, what the link leads to is opened and shown. *)
Theorem C165_refuted : exists vol j p l out t1 q t2 m,
  let w := moving_world vol j in
  (forall h, well_formed (vol h)) /\ (forall h, place (vol h) false (jv_cwd j) (location w p) = Some l) /\
  pretty_print default_options p w [] = (Ok out, rev (t1 ++ EvOpen q :: t2)) /\
  place (vol (rev t1)) true (jv_cwd j) q = Some m /\ ~ exists ns, m = l ++ ns.
Proof.
  pose (t := rev (snd (pretty_print default_options (pth "/home/u") swapping_world []))).
  exists swapping, sample_jvm, (pth "/home/u"), (names_of "home/u"). eexists. exists (firstn 16 t), (pth "/home/u/sub"), (skipn 17 t), (names_of "data"). cbv zeta.
  split; [exact swapping_well_formed|].
  split; [intro h; unfold swapping; destruct (looked_at_twice h); vm_compute; reflexivity|].
  split; [vm_compute; reflexivity|]. split; [vm_compute; reflexivity|]. intros (ns & E). vm_compute in E. discriminate.
Qed.
Print Assumptions C165_refuted.

(** The text; "y" lies in "/data". *)
Example C165_case :
  option_map readable_text (result (pretty_print default_options (pth "/home/u") swapping_world [])) =
  Some (String.concat (String (ascii_of_N 10) "") ["u/"; "## a.txt"; "## again"; "## link"; "## self"; "## sub/"; "   ## y"])%string.
Proof. vm_compute. reflexivity. Qed.

(** C166. While a tree is printed, the files may change, in whatever way depends on what happens: as long as the printed path itself stays where it is and no
    directory below is replaced by a link, whatever the outcome, the directories opened are those in the tree below the place of the printed path at that moment. *)
Theorem C166_opened_inside_while_changing : forall o p vol j h l,
  let w := moving_world vol j in
  (forall h, well_formed (vol h)) -> callbacks w o (modest w) (fun _ => True) -> honest_callbacks w o ->
  (forall t, place (vol (t ++ h)) false (jv_cwd j) (location w p) = Some l) ->
  (forall t1 t2 ns, folder_at (vol (t1 ++ h)) (l ++ ns) -> forall x, node_at (vol (t2 ++ t1 ++ h)) (l ++ ns) <> Some (NLink x)) ->
  exists r t, pretty_print o p w h = (r, rev t ++ h) /\
    forall t1 ev t2 q, t = t1 ++ ev :: t2 -> opening ev q ->
      exists ns, q = deeper (location w p) ns /\
        (forall r, place (vol (rev t1 ++ h)) true (jv_cwd j) q = Some r -> r = l ++ ns) /\
        (ev = EvOpen q -> folder_at (vol (rev t1 ++ h)) (l ++ ns)).
Proof. exact (fun o p vol j h l Hwf => opened_in_place vol j Hwf o p h l). Qed.
Print Assumptions C166_opened_inside_while_changing.

Example C166_case :
  (forall h, well_formed (busy h)) /\ callbacks busy_world default_options (modest busy_world) (fun _ => True) /\ honest_callbacks busy_world default_options /\
  (forall t, place (busy (t ++ [])) false (jv_cwd sample_jvm) (location busy_world (pth ".")) = Some (names_of "home/u")) /\
  (forall t1 t2 ns, folder_at (busy (t1 ++ [])) (names_of "home/u" ++ ns) ->
     forall x, node_at (busy (t2 ++ t1 ++ [])) (names_of "home/u" ++ ns) <> Some (NLink x)) /\
  option_map readable_text (result (pretty_print default_options (pth ".") busy_world [])) =
  Some (String.concat (String (ascii_of_N 10) "") ["u/"; "## a.txt"; "## again"; "## link"; "## self"; "## sub/"; "   ## c.txt"; "   ## new"])%string.
Proof.
  split; [exact busy_well_formed|]. split; [apply default_callbacks; constructor|]. split; [apply default_honest|]. split; [intro t; apply busy_place|].
  split; [intros t1 t2 ns; apply busy_links|]. vm_compute. reflexivity.
Qed.

(** C167. What is shown was there: if, during the run, the printed path stays where it is and no place below is a directory at one moment and a link at another,
    then each file shown was, at some moment of the run, in the tree below the place of the printed path, where its name says. *)
Theorem C167_shown_was_there : forall o p vol j h out h' v l,
  let w := moving_world vol j in
  (forall h, well_formed (vol h)) -> honest_callbacks w o -> sees w o v ->
  (forall t, place (vol (t ++ h)) false (jv_cwd j) (location w p) = Some l) ->
  (forall t1 t2 ns, folder_at (vol (t1 ++ h)) (l ++ ns) -> forall x, node_at (vol (t2 ++ h)) (l ++ ns) <> Some (NLink x)) ->
  pretty_print o p w h = (Ok out, h') ->
  exists e s t, shows v true e s /\ out = text (o_tree_format o) (labelled v s) /\ h' = rev t ++ h /\
    forall k x q, at_depth k e x -> entry_path x = Some q ->
      exists ns u u', q = deeper (location w p) ns /\ length ns = k /\ t = u ++ u' /\ node_at (vol (rev u ++ h)) (l ++ ns) <> None.
Proof. exact (fun o p vol j h out h' v l Hwf => shown_was_there vol j Hwf o p h out h' v l). Qed.
Print Assumptions C167_shown_was_there.

(** "a.txt" was there at first, "c.txt" at last. *)
Example C167_case :
  (forall h, well_formed (busy h)) /\ honest_callbacks busy_world default_options /\ sees busy_world default_options plain_view /\
  (forall t, place (busy (t ++ [])) false (jv_cwd sample_jvm) (location busy_world (pth ".")) = Some (names_of "home/u")) /\
  (forall t1 t2 ns, folder_at (busy (t1 ++ [])) (names_of "home/u" ++ ns) ->
     forall x, node_at (busy (t2 ++ [])) (names_of "home/u" ++ ns) <> Some (NLink x)) /\
  is_some (result (pretty_print default_options (pth ".") busy_world [])) = true /\
  node_at linked_volume (names_of "home/u/sub/c.txt") = None /\ node_at later_volume (names_of "home/u/a.txt") = None.
Proof.
  split; [exact busy_well_formed|]. split; [apply default_honest|]. split; [apply default_sees|]. split; [intro t; apply busy_place|].
  split; [intros t1 t2 ns; apply busy_links|]. vm_compute. repeat split.
Qed.
