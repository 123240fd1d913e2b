(** * Where callbacks look *)

From Verif Require Export SpecVolume SpecMeta SpecMatch SpecSeen.

(** [q] is in a listing of [p]. *)
Definition in_listing (w : world) (p q : path) : Prop := exists n h dl, q = child p n /\ w_open w h p = Some dl /\ In n (dl_names dl).

(** A function that, asked about [c], opens only directories it has just found to be directories (not links), each of them [c], or (if [beside]) the directory
    that contains [c], or one it has opened before, or one listed by a directory it has opened before. *)
Definition looks_around (w : world) (beside : bool) {A} (f : path -> M A) : Prop :=
  forall c h, exists r t, f c w h = (r, rev t ++ h) /\
    forall t1 ev t2 q, t = t1 ++ ev :: t2 -> opening ev q ->
      (exists t0, t1 = t0 ++ [EvLstat q (Some KDir)]) /\
      (q = c \/ (beside = true /\ get_parent c = Some q) \/ In (EvOpen q) t1 \/ exists p, in_listing w p q /\ In (EvOpen p) t1).

(** A comparator that opens only directories it has just found to be directories, each of them one of the paths compared, or the directory that contains one of
    them, or one it has opened before, or one listed by a directory it has opened before. *)
Definition looks_between (w : world) (f : comparator) : Prop :=
  forall a b h, exists r t, f a b w h = (r, rev t ++ h) /\
    forall t1 ev t2 q, t = t1 ++ ev :: t2 -> opening ev q ->
      (exists t0, t1 = t0 ++ [EvLstat q (Some KDir)]) /\
      ((exists c, (c = a \/ c = b) /\ (q = c \/ get_parent c = Some q)) \/ In (EvOpen q) t1 \/ exists p, in_listing w p q /\ In (EvOpen p) t1).
