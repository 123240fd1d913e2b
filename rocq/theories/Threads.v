(** * Model of several threads that use printers at the same time

    DefaultFileTreePrettyPrinter.java:12-26 (its fields are final and no call of prettyPrint writes one), scanner/DefaultPathToTreeScanner.java:26-37
    and renderer/DefaultTreeEntryRenderer.java:19-29 (likewise): a call shares nothing with other calls but the options, which are only read, and the
    file system. A thread is therefore given by its own sequence of accesses. Simplifications: every access to the file system is one indivisible
    step; the user's functions share no state other than the file system. *)

From Verif Require Export Printer.

(** The accesses and calls of World.v, one by one: DefaultPathToTreeScanner.java:40, 55, 72, 104, PathSorts.java:27, PathMatchers.java:555-597, 692; [AUser] is a note left by a user's function,
    [AJvm] reads a constant of the JVM. *)
Inductive action :=
| ALstat (p : path)
| AStat (p : path)
| ALength (p : path)
| AOpen (p : path)
| AIterFail (p : path)
| AClose (p : path)
| AUser (tag : nat) (p : path)
| AJvm.

(** What an access returns (DefaultPathToTreeScanner.java:40, 55, 72, 104). *)
Definition answer (a : action) : Type :=
  match a with
  | ALstat _ | AStat _ => option kind
  | ALength _ => Z
  | AOpen _ => option dirlist
  | AClose _ => bool
  | AIterFail _ | AUser _ _ => unit
  | AJvm => jvm
  end.

(** The answer of the world to an access made after the events of [h] (World.v; DefaultPathToTreeScanner.java:40, 55, 72, 104). *)
Definition respond (w : world) (h : hist) (a : action) : answer a :=
  match a with
  | ALstat p => w_lstat w h p
  | AStat p => w_stat w h p
  | ALength p => w_length w h p
  | AOpen p => w_open w h p
  | AClose p => w_close_ok w h p
  | AIterFail _ | AUser _ _ => tt
  | AJvm => w_jvm w
  end.

(** The event an access leaves behind (World.v; DefaultPathToTreeScanner.java:40, 55, 72, 104). *)
Definition event_of (a : action) : answer a -> list event :=
  match a with
  | ALstat p => fun r => [EvLstat p r]
  | AStat p => fun r => [EvStat p r]
  | ALength p => fun n => [EvLength p n]
  | AOpen p => fun r => match r with Some _ => [EvOpen p] | None => [EvOpenFail p] end
  | AClose p => fun ok => [EvClose p ok]
  | AIterFail p => fun _ => [EvIterFail p]
  | AUser tag p => fun _ => [EvUser tag p]
  | AJvm => fun _ => []
  end.

(** What is left of a call (DefaultFileTreePrettyPrinter.java:20-26): it has returned or thrown, or it makes an access and goes on according to the answer. *)
Inductive prog (A : Type) :=
| Done (r : res A)
| Do (a : action) (k : answer a -> prog A).
Arguments Done {A} r.
Arguments Do {A} a k.

(** The call (DefaultFileTreePrettyPrinter.java:20-26) when no other thread does anything. *)
Fixpoint run {A} (t : prog A) (w : world) (h : hist) {struct t} : res A * hist :=
  match t with
  | Done r => (r, h)
  | Do a k => let x := respond w h a in run (k x) w (event_of a x ++ h)
  end.

(** The program [t] makes the same accesses as [m] with the same outcome, in every world: it is [m] (for the calls of
    DefaultFileTreePrettyPrinter.java:20-26), cut into its steps. *)
Definition means {A} (t : prog A) (m : M A) : Prop := forall w h, run t w h = m w h.

(** The threads that use printers (DefaultFileTreePrettyPrinter.java:20-26), and everything that happened since they started: most recent
    event first, each with the number of the thread. *)
Definition state := (list (prog jstring) * list (nat * event))%type.

(** Some thread makes its next access (DefaultFileTreePrettyPrinter.java:20-26). [h0] is what happened before the threads started. *)
Inductive step (w : world) (h0 : hist) : state -> state -> Prop :=
| step_thread ts1 a k ts2 g :
    let x := respond w (map snd g ++ h0) a in
    step w h0 (ts1 ++ Do a k :: ts2, g)
              (ts1 ++ k x :: ts2, map (pair (length ts1)) (event_of a x) ++ g).

(** Any number of steps, taken by the threads in any order (DefaultFileTreePrettyPrinter.java:20-26). *)
Inductive execution (w : world) (h0 : hist) (s : state) : state -> Prop :=
| execution_none : execution w h0 s s
| execution_step s1 s2 : execution w h0 s s1 -> step w h0 s1 s2 -> execution w h0 s s2.
