(** * What threads observe *)

From Verif Require Export SpecHist SpecScan SpecSeen SpecOpen Threads.

(** The events of thread [i]. *)
Definition events_of (i : nat) (g : list (nat * event)) : hist := map snd (filter (fun e => Nat.eqb (fst e) i) g).

(** The file system and its answers do not change. *)
Definition unchanging (w : world) : Prop :=
  forall h h' q, w_lstat w h q = w_lstat w h' q /\ w_stat w h q = w_stat w h' q /\ w_length w h q = w_length w h' q /\
    w_open w h q = w_open w h' q /\ w_close_ok w h q = w_close_ok w h' q.

(** The world as it appears to somebody who did [n] accesses so far when everything that had happened was [moment n]. *)
Definition at_moments (moment : nat -> hist) (w : world) : world :=
  {| w_lstat := fun h q => w_lstat w (moment (length h)) q;
     w_stat := fun h q => w_stat w (moment (length h)) q;
     w_length := fun h q => w_length w (moment (length h)) q;
     w_open := fun h q => w_open w (moment (length h)) q;
     w_close_ok := fun h q => w_close_ok w (moment (length h)) q;
     w_jvm := w_jvm w |}.

(** [moment] tells, for every access of thread [i] in the course of events [g], what had happened when the access was made. *)
Definition moments_of (i : nat) (g : list (nat * event)) (h0 : hist) (moment : nat -> hist) : Prop :=
  forall g2 ev g1, g = g2 ++ (i, ev) :: g1 -> moment (length (events_of i g1) + length h0) = map snd g1 ++ h0.

(** Functions given as programs for the functions in the options. *)
Definition given_programs (o : options) (limit : path -> prog Z) (order : path -> path -> prog Z) (emoji : path -> prog (option jstring))
    (dirs files : path -> prog bool) (ext : path -> prog (option jstring)) : Prop :=
  forall p, means (limit p) (o_child_limit o p) /\ (forall q, means (order p q) (o_comparator o p q)) /\ means (emoji p) (o_emoji o p) /\
    means (dirs p) (o_dir_matcher o p) /\ means (files p) (o_file_matcher o p) /\
    match o_line_extension o with Some f => means (ext p) (f p) | None => True end.

(** The number of directory streams opened and not closed in [h]. *)
Fixpoint unclosed (h : hist) : Z :=
  match h with
  | [] => 0
  | EvOpen _ :: h => unclosed h + 1
  | EvClose _ _ :: h => unclosed h - 1
  | _ :: h => unclosed h
  end%Z.

(** All calls have returned or thrown. *)
Definition all_done (ts : list (prog jstring)) : Prop := forall t, In t ts -> exists r, t = Done r.

(** The program of a thread that prints [p] with the options [o], for a job [(o, p)]. *)
Definition prints (t : prog jstring) (job : options * path) : Prop := means t (pretty_print (fst job) (snd job)).

(** The levels that the jobs may go down, added up. *)
Definition total_depth (jobs : list (options * path)) : Z := fold_right (fun job n => (Z.max 0 (o_max_depth (fst job)) + n)%Z) 0%Z jobs.
