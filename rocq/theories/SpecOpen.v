(** * Vocabulary for the directory streams that are open at the same time *)

From Verif Require Import SpecHist SpecScan.

(** The open streams without the last opened one on [p]. *)
Fixpoint without (p : path) (l : list path) : list path :=
  match l with
  | [] => []
  | q :: l => if path_eqb p q then l else q :: without p l
  end.

(** The directories whose streams are open after the events [t], last opened first; those of [l] were open before. *)
Fixpoint open_after (l : list path) (t : trace) : list path :=
  match t with
  | [] => l
  | EvOpen p :: t => open_after (p :: l) t
  | EvClose p _ :: t => open_after (without p l) t
  | _ :: t => open_after l t
  end.

(** Directories each of which is a child of the next one; the last one is [root]. *)
Inductive nested (root : path) : list path -> Prop :=
| nested_none : nested root []
| nested_root : nested root [root]
| nested_child p n l : nested root (p :: l) -> nested root (child p n :: p :: l).

(** Closes what it opens, and never has more than [c] streams open at the same time. *)
Definition at_most_open (c : nat) (t : trace) : Prop :=
  balanced t /\ forall t1 t2, t = t1 ++ t2 -> (length (open_after [] t1) <= c)%nat.

(** A world that opens no further directory while [c] streams are open; otherwise it is [w]. *)
Definition with_handles (c : nat) (w : world) : world := {|
  w_lstat := w_lstat w;
  w_stat := w_stat w;
  w_length := w_length w;
  w_open := fun h p => if (c <=? length (open_after [] (rev h)))%nat then None else w_open w h p;
  w_close_ok := w_close_ok w;
  w_jvm := w_jvm w
|}.

(** The callback [f] behaves in the same way in both worlds. *)
Definition same_in {A B} (w w' : world) (f : A -> M B) : Prop := forall a h, f a w h = f a w' h.

Definition same_callbacks (w w' : world) (o : options) : Prop :=
  same_in w w' (o_dir_matcher o) /\ same_in w w' (o_file_matcher o) /\ same_in w w' (o_child_limit o) /\
  same_in w w' (o_emoji o) /\ match o_line_extension o with Some f => same_in w w' f | None => True end /\
  forall a, same_in w w' (o_comparator o a).

(** Below [p] there are at most [k] levels of directories, [p] included, at any time. *)
Inductive levels (w : world) : nat -> path -> Prop :=
| lv_other k p : (forall h, w_lstat w h p <> Some KDir) -> levels w k p
| lv_dir k p : (forall h dl x, w_open w h p = Some dl -> In x (dl_names dl) -> levels w k (child p x)) -> levels w (S k) p.
