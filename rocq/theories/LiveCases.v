(** * Options changed by a callback, used by the examples and refutations of PropsLive.v *)

From Verif Require Import SpecLive RenderFacts Cases SeenFacts.
From Coq Require Import Lia.
Close Scope Z_scope.

(** The options object at first: no limit; the limit function leaves a note when it is called. *)
Definition first_options : options := with_child_limit_fn (logged 1 (fun _ => ret UNLIMITED)) default_options.

(** What the limit function sets, when it is called: depth 1, no children, nothing passes the filters, another format. *)
Definition second_options : options :=
  with_max_depth 1 (with_child_limit 0 (filter_directories (fun _ => ret false) (filter_files (fun _ => ret false)
    (with_tree_format CLASSIC_ASCII default_options)))).

(** The object from the moment the limit function was called for a path ending in the name [n]. *)
Definition noted (n : jstring) (h : hist) : bool :=
  existsb (fun ev => match ev with EvUser 1 p => match rev (p_names p) with m :: _ => jeqb m n | [] => false end | _ => false end) h.
Definition switching (n : string) (h : hist) : options := if noted (js n) h then second_options else first_options.

Definition first_lr : line_renderer := line_renderer_create first_options.

Lemma note_honest w : honest w (logged 1 (fun _ : path => ret UNLIMITED)).
Proof. intros p h. exists (Ok UNLIMITED), [EvUser 1 p]. split; [reflexivity|]. now apply truthful_one. Qed.

Lemma switching_honest n w h : honest_callbacks w (switching n h).
Proof.
  unfold switching. destruct (noted (js n) h); repeat split; try (intro; apply (pure_honest w)); try apply (pure_honest w). apply note_honest.
Qed.

Lemma switching_callbacks n w (K : trace -> Prop) E h : K [] -> (forall p, K [EvUser 1 p]) -> callbacks w (switching n h) K E.
Proof.
  intros HK HK1. unfold switching. destruct (noted (js n) h).
  - repeat split; try (intro; apply (pure_callback w _ K E HK)); apply (pure_callback w _ K E HK).
  - repeat split; try (intro; apply (pure_callback w _ K E HK)); try apply (pure_callback w _ K E HK).
    intros p h1. exists (Ok UNLIMITED), [EvUser 1 p]. split; [reflexivity|]. split; [apply HK1|discriminate].
Qed.

Lemma switching_sees n w : live_sees w (switching n) first_lr plain_view.
Proof.
  split; [|split]; [intros q h|intros q h; now exists h|intro h]; unfold switching; destruct (noted (js n) h); try reflexivity; now exists h.
Qed.

Lemma switching_depth n h : (o_max_depth (switching n h) <= 20)%Z.
Proof. unfold switching. destruct (noted (js n) h); cbn; lia. Qed.
