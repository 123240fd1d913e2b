(** * How often the order is asked *)

From Verif Require Export SpecCalls.

(** [c] made observable: each call is logged with [tag] before it is made. *)
Definition counted (tag : nat) (c : comparator) : comparator :=
  fun a b w h => c a b w (EvUser tag a :: h).

(** The order does not itself log with [tag]. *)
Definition silent_comparator (tag : nat) (c : comparator) : Prop := forall a, silent tag (c a).

(** How often a call was logged with [tag]. *)
Definition times (tag : nat) (h : hist) : nat := length (calls tag h).

(** For [n] paths: n log n, and for a small directory five for each path. *)
Definition most_comparisons (n : nat) : nat :=
  if (n <? 32)%nat then (5 * n)%nat else (n * (16 * Nat.log2 n + 21))%nat.

(** The number of paths in [q] that pass the filters for directories and for everything else. *)
Definition accepted_in (dirs files : path -> bool) (dk : disk) (q : path) : nat :=
  match d_list dk q with
  | Some names => length (filter (fun c => if is_dirb dk c then dirs c else files c) (map (child q) names))
  | None => 0%nat
  end.

(** In ascending order: no path is put before the one in front of it. *)
Fixpoint rising (c : ordering) (l : list path) : Prop :=
  match l with
  | a :: ((b :: _) as l') => (0 <= c b a)%Z /\ rising c l'
  | _ => True
  end.

(** In strictly descending order. *)
Fixpoint falling (c : ordering) (l : list path) : Prop :=
  match l with
  | a :: ((b :: _) as l') => (c b a < 0)%Z /\ falling c l'
  | _ => True
  end.
