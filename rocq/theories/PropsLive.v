(** * Options that change while a printer runs: C141, C142, C143, C144 *)

From Verif Require Import SpecLive Cases LiveFacts LiveCases.
From Coq Require Import Lia.
Close Scope Z_scope.

(** C141. [cur h] are the contents of the options object when [h] is what happened so far. What is displayed is what was answered and what the
    options were, each at the moment it was asked for ([live_seen_entry]). *)
Theorem C141_each_option_at_its_moment : forall n cur lr p w h out h' v,
  (forall h1, honest_callbacks w (cur h1)) -> honest w (lr_emoji lr) -> live_sees w cur lr v ->
  live_print n cur lr p w h = (Ok out, h') ->
  exists e s t, shows v true e s /\ out = text (lr_tree_format lr) (labelled v s) /\ h' = rev t ++ h /\
    truthful_from w h t /\ entry_path e = Some (location w p) /\
    forall k x, at_depth k e x -> live_seen_entry w cur (cur h) h t (Z.of_nat k) x.
Proof. exact live_seen_lemma. Qed.
Print Assumptions C141_each_option_at_its_moment.

(** The limit function, when called for "src", sets depth 1, limit 0, filters that nothing passes, and another format: "src" still has the limit it
    just returned and the filters of the start, and its subdirectory is cut off. *)
Example C141_case :
  (forall h1, honest_callbacks sample_world (switching "src" h1)) /\ honest sample_world (lr_emoji first_lr) /\
  live_sees sample_world (switching "src") first_lr plain_view /\
  result (live_print 20 (switching "src") first_lr (pth "/home/u/src") sample_world []) =
    Some (js "src/" ++ [c_nl] ++ [9492; 9472]%N ++ js " main/" ++ [c_nl] ++ js "   " ++ [9492; 9472]%N ++ js " ...").
Proof.
  split; [intro; apply switching_honest|]. split; [apply (pure_honest sample_world)|]. split; [apply switching_sees|]. vm_compute. reflexivity.
Qed.

(** C142. The filters are those of the moment [prettyPrint] is called, the format and the emoji mapping those of the moment the printer was built:
    how they change during the run makes no difference ([read_alike]). *)
Theorem C142_later_changes_without_effect : forall n cur1 cur2 lr p w h,
  read_alike h cur1 cur2 -> live_print n cur1 lr p w h = live_print n cur2 lr p w h.
Proof. exact live_alike_lemma. Qed.
Print Assumptions C142_later_changes_without_effect.

(** If nothing changes at all, this is the printer of Printer.v. *)
Theorem C142_unchanged : forall n cur o lr p w h, (forall h', cur h' = o) -> Z.to_nat (o_max_depth o) <= n ->
  live_print n cur lr p w h = pretty_print_with o lr p w h.
Proof. exact live_unchanged_lemma. Qed.
Print Assumptions C142_unchanged.

(** Filters and format set by the limit function, when it is called for the root, and other options unchanged: the text is the one without. *)
Example C142_case :
  let cur h := if noted (js "u") h then filter_directories (fun _ => ret false) (with_tree_format CLASSIC_ASCII first_options) else first_options in
  read_alike [] cur (fun _ => first_options) /\ Z.to_nat (o_max_depth first_options) <= 20 /\
  noted (js "u") (snd (live_print 20 cur first_lr (pth "/home/u") sample_world [])) = true /\
  result (live_print 20 cur first_lr (pth "/home/u") sample_world []) = result (pretty_print first_options (pth "/home/u") sample_world []) /\
  result (pretty_print (filter_directories (fun _ => ret false) first_options) (pth "/home/u") sample_world []) <>
    result (pretty_print first_options (pth "/home/u") sample_world []).
Proof.
  cbn zeta. split.
  { split; [reflexivity|]. split; [reflexivity|]. intro h'. destruct (noted (js "u") h'); repeat split; reflexivity. }
  split; [vm_compute; lia|]. split; [vm_compute; reflexivity|]. split; vm_compute; [reflexivity|discriminate].
Qed.

(** C143. However the options change: with a maximal depth that never exceeds [D], the run ends, opens no directory [D] or more levels below the
    root, and closes what it opens. *)
Theorem C143_bounded_and_closed : forall n cur lr p w h D (K : trace -> Prop) (E : exn -> Prop),
  (forall h1, callbacks w (cur h1) K E) -> callback w (lr_emoji lr) K E -> (forall t, K t -> balanced t) -> ~ E ExFuel ->
  (forall h1, (o_max_depth (cur h1) <= D)%Z) -> Z.to_nat D <= n ->
  exists r t, live_print n cur lr p w h = (r, rev t ++ h) /\ r <> Throw ExFuel /\ balanced t /\
    forall ev q, In ev t -> opening ev q ->
      (exists ns, q = mkPath true (p_names (location w p) ++ ns) /\ (Z.of_nat (length ns) < D)%Z) \/
      (exists u, K u /\ In ev u).
Proof. exact live_bounded_lemma. Qed.
Print Assumptions C143_bounded_and_closed.

Example C143_case :
  (forall h1, callbacks sample_world (switching "main" h1) quiet (fun _ => False)) /\ callback sample_world (lr_emoji first_lr) quiet (fun _ => False) /\
  (forall t, quiet t -> balanced t) /\ (forall h1, (o_max_depth (switching "main" h1) <= 20)%Z) /\
  result (live_print 20 (switching "main") first_lr (pth "/home/u/src") sample_world []) =
    Some (js "src/" ++ [c_nl] ++ [9492; 9472]%N ++ js " main/" ++ [c_nl] ++ js "   " ++ [9492; 9472]%N ++ js " java/" ++ [c_nl] ++
          js "      " ++ [9492; 9472]%N ++ js " ...").
Proof.
  split; [intro; apply switching_callbacks; [constructor|repeat constructor]|]. split; [apply (pure_callback sample_world); constructor|].
  split; [intros t Ht; induction Ht as [|ev t He Ht IH]; [constructor|destruct ev; try contradiction; constructor; try discriminate; exact IH]|].
  split; [apply switching_depth|]. vm_compute. reflexivity.
Qed.

(** C144 does not hold: the text need not be what any of the contents of the options object asks for. *)
Theorem C144_refuted : exists n cur p w out,
  let lr := line_renderer_create (cur []) in
  result (live_print n cur lr p w []) = Some out /\
  forall h, result (pretty_print_with (cur h) lr p w []) <> Some out.
Proof.
  exists 20, (switching "u"), (pth "/home/u"), sample_world. eexists. cbn zeta. split; [vm_compute; reflexivity|].
  intro h. unfold switching at 1. destruct (noted (js "u") h); vm_compute; discriminate.
Qed.
Print Assumptions C144_refuted.
