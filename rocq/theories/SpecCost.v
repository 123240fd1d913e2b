(** * How often directories are opened *)

From Verif Require Export SpecCalls SpecMeta.

(** How often the directory [q] was opened, with or without success. *)
Definition openings (q : path) (h : hist) : nat :=
  length (filter (fun ev => match ev with EvOpen p | EvOpenFail p => path_eqb p q | _ => false end) h).

(** A function that opens no directory. *)
Definition opens_nothing {A B} (f : A -> M B) : Prop := forall x w h q, openings q (snd (f x w h)) <= openings q h.

(** A function that, asked about [p], opens [p] and each directory below at most [a] times, the parent of [p] at most [b] times, and no other directory. *)
Definition costs (w : world) {A} (f : path -> M A) (a b : nat) : Prop :=
  forall p q h, exists i j, openings q (snd (f p w h)) <= openings q h + i + j /\ i <= a /\ j <= b /\
    (i <> 0 -> exists ns, q = deeper p ns) /\ (j <> 0 -> get_parent p = Some q).
