(** * Numbers that are representable *)

From Verif Require Export Ints.

(** The values of [int]. *)
Definition is_int (z : Z) : Prop := (-2147483648 <= z <= 2147483647)%Z.

(** No directory ever has more entries than a Java list can have. *)
Definition listings_fit (w : world) : Prop :=
  forall h p dl, w_open w h p = Some dl -> is_int (Z.of_nat (length (dl_names dl))).
