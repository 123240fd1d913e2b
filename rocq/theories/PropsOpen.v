(** * The directory streams that are open at the same time: C128, C129, C134 *)

From Verif Require Import SpecHist SpecScan SpecMatch SpecOpen Cases OpenFacts OpenMatchFacts OpenCases.
Open Scope Z_scope.

(** C128. At every moment of a run, in any world. [l1] are streams of a callback that is running. *)
Theorem C128_open_streams : forall o p w h c,
  callbacks w o (at_most_open c) (fun _ => True) ->
  exists t, snd (pretty_print o p w h) = rev t ++ h /\
    forall t1 t2, t = t1 ++ t2 -> exists l1 l2, open_after [] t1 = l1 ++ l2 /\ (length l1 <= c)%nat /\
      nested (location w p) l2 /\ Z.of_nat (length l2) <= Z.max 0 (o_max_depth o).
Proof. exact C128_lemma. Qed.
Print Assumptions C128_open_streams.

(** When a directory is opened, those above it, up to the root, are open. *)
Theorem C128_opened_below_its_parents : forall o p w h,
  callbacks w o (at_most_open 0) (fun _ => True) ->
  exists t, snd (pretty_print o p w h) = rev t ++ h /\
    forall t1 q t2, t = t1 ++ EvOpen q :: t2 -> nested (location w p) (q :: open_after [] t1).
Proof. exact C128_opening_lemma. Qed.
Print Assumptions C128_opened_below_its_parents.

(** As many handles as levels are enough: their number is not noticed. *)
Theorem C128_enough_handles : forall o p w h c,
  callbacks w o balanced (fun _ => True) -> same_callbacks (with_handles c w) w o ->
  Z.of_nat (length (open_after [] (rev h))) + o_max_depth o <= Z.of_nat c ->
  pretty_print o p (with_handles c w) h = pretty_print o p w h.
Proof. exact C128_enough_lemma. Qed.
Print Assumptions C128_enough_handles.

(** And one for each displayed level of directories is needed. *)
Theorem C128_handle_for_each_level : forall o p w h c out h' v,
  callbacks (with_handles c w) o balanced (fun _ => True) -> sees (with_handles c w) o v ->
  pretty_print o p (with_handles c w) h = (Ok out, h') ->
  exists e h1 s, scan o (location w p) (with_handles c w) h = (Ok e, h1) /\ shows v true e s /\ out = text (o_tree_format o) (labelled v s) /\
    forall k q es, at_depth k e (EDir q es) -> Z.of_nat k < o_max_depth o -> (length (open_after [] (rev h)) + k < c)%nat.
Proof. exact C128_levels_lemma. Qed.
Print Assumptions C128_handle_for_each_level.

(** Printing "/home/u": "src", "src/main" and "src/main/java" are open below it. With four handles it succeeds, with three it does not. *)
Example C128_case :
  callbacks sample_world default_options (at_most_open 0) (fun _ => True) /\ callbacks sample_world default_options balanced (fun _ => True) /\
  same_callbacks (with_handles 4 sample_world) sample_world default_options /\
  same_callbacks (with_handles 20 sample_world) sample_world default_options /\
  sees (with_handles 4 sample_world) default_options plain_view /\
  (exists t t1 t2, snd (pretty_print default_options (pth "/home/u") sample_world []) = rev t ++ [] /\ t = t1 ++ t2 /\
     open_after [] t1 = map pth ["/home/u/src/main/java"; "/home/u/src/main"; "/home/u/src"; "/home/u"]%string) /\
  is_some (result (pretty_print default_options (pth "/home/u") (with_handles 20 sample_world) [])) = true /\
  is_some (result (pretty_print default_options (pth "/home/u") (with_handles 4 sample_world) [])) = true /\
  is_some (result (pretty_print default_options (pth "/home/u") (with_handles 3 sample_world) [])) = false.
Proof.
  split; [apply default_callbacks; split; [constructor|]|].
  { intros t1 t2 E. symmetry in E. apply app_eq_nil in E. destruct E as [-> ->]. apply le_n. }
  split; [apply default_callbacks; constructor|]. split; [repeat split; repeat intro; reflexivity|]. split; [repeat split; repeat intro; reflexivity|].
  split; [apply default_sees|]. split.
  - pose (t := rev (snd (pretty_print default_options (pth "/home/u") sample_world []))).
    exists t, (firstn 24 t), (skipn 24 t). split; [unfold t; now rewrite app_nil_r, rev_involutive|]. split; [now rewrite firstn_skipn|]. vm_compute. reflexivity.
  - vm_compute. repeat split.
Qed.

(** C129 does not hold: whatever the number of handles, there is a tree that can be read and is not printed. *)
Theorem C129_refuted : forall c, exists o p w dk,
  steady w dk /\ callbacks w o (fun t => t = []) (fun _ => False) /\ same_callbacks (with_handles c w) w o /\
  (forall q, is_dir dk q -> exists l, d_list dk q = Some l) /\
  (exists out h', pretty_print o p w [] = (Ok out, h')) /\
  exists q h', pretty_print o p (with_handles c w) [] = (Throw (ExUncheckedIO ListFiles q), h').
Proof.
  intro c. exists (deep_options (S c)), (pth "/a"), (chain_world (S c)), (chain_disk (S c)).
  split; [apply chain_steady|]. split; [now apply deep_callbacks|]. split; [apply deep_same|]. split; [apply chain_lists|]. split; [|apply chain_fails].
  destruct (chain_returns (S c) (pth "/a")) with (m := S c) as (out & H); [discriminate|cbn; auto with arith|]. destruct (H []) as (h' & E). eauto.
Qed.
Print Assumptions C129_refuted.

(** C134. [m] is what children, siblings or descendants are tested with; [c] is the number of streams it has open at the same time itself. *)
Theorem C134_one_for_children_and_siblings : forall w m c E, callback w m (at_most_open c) E ->
  callback w (pm_any_direct_child m) (at_most_open (S c)) (fun x => E x \/ walk_failure x) /\
  callback w (pm_sibling m) (at_most_open (S c)) (fun x => E x \/ walk_failure x).
Proof. exact C134_one_lemma. Qed.
Print Assumptions C134_one_for_children_and_siblings.

Theorem C134_one_for_each_level : forall w m c E k p h, callback w m (at_most_open c) E -> levels w k p ->
  exists r t, pm_any_descendant m p w h = (r, rev t ++ h) /\ at_most_open (k + c) t /\
              (forall x, r = Throw x -> E x \/ walk_failure x).
Proof. exact C134_descendants_lemma. Qed.
Print Assumptions C134_one_for_each_level.

(** All other matchers have none open themselves, however they are combined. *)
Theorem C134_none_for_others : forall w (base : matcher -> Prop) (E : exn -> Prop) c m,
  (forall b, base b -> callback w b (at_most_open c) E) -> assembled w false base m -> callback w m (at_most_open c) E.
Proof. exact C134_others_lemma. Qed.
Print Assumptions C134_none_for_others.

(** Looking for "A.java" anywhere below "/home/u", where there are four levels of directories, four streams are open when "src/main/java" is
    read. "a child has a child" needs two. *)
Example C134_case :
  callback sample_world (pm_name (js "A.java")) (at_most_open 0) (fun _ => False) /\
  assembled sample_world false (fun _ => False) (pm_not (pm_name (js "x"))) /\
  levels sample_world 4 (pth "/home/u") /\
  (exists t1 t2, rev (snd (pm_any_descendant (pm_name (js "A.java")) (pth "/home/u") sample_world [])) = t1 ++ t2 /\
     open_after [] t1 = map pth ["/home/u/src/main/java"; "/home/u/src/main"; "/home/u/src"; "/home/u"]%string) /\
  (exists t1 t2, rev (snd (pm_any_direct_child (pm_any_direct_child (pm_name (js "main"))) (pth "/home/u") sample_world [])) = t1 ++ t2 /\
     open_after [] t1 = map pth ["/home/u/src"; "/home/u"]%string).
Proof.
  split; [|split; [apply as_not, as_name|split; [|split]]].
  - intros p h. eexists _, []. split; [reflexivity|]. split; [|discriminate]. split; [constructor|].
    intros t1 t2 E. symmetry in E. apply app_eq_nil in E. destruct E as [-> ->]. apply le_n.
  - assert (Leaf : forall k p, w_lstat sample_world [] p <> Some KDir -> levels sample_world k p).
    { intros k p H. apply lv_other. intro h. exact H. }
    apply lv_dir. intros h dl x E. injection E as <-. cbn [dl_names In]. intros [<-|[<-|[<-|[<-|[<-|[]]]]]]; try (apply Leaf; vm_compute; discriminate).
    + apply lv_dir. intros h' dl x E. injection E as <-. intros [].
    + apply lv_dir. intros h' dl x E. injection E as <-. intros [<-|[]].
      apply lv_dir. intros h'' dl x E. injection E as <-. intros [<-|[]].
      apply lv_dir. intros h3 dl x E. injection E as <-. intros [<-|[<-|[]]]; apply Leaf; vm_compute; discriminate.
  - pose (t := rev (snd (pm_any_descendant (pm_name (js "A.java")) (pth "/home/u") sample_world []))).
    exists (firstn 14 t), (skipn 14 t). split; [symmetry; apply firstn_skipn|]. lazy. reflexivity.
  - pose (t := rev (snd (pm_any_direct_child (pm_any_direct_child (pm_name (js "main"))) (pth "/home/u") sample_world []))).
    exists (firstn 16 t), (skipn 16 t). split; [symmetry; apply firstn_skipn|]. lazy. reflexivity.
Qed.
