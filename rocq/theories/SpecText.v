(** * Vocabulary for texts: code units and characters *)

From Verif Require Export Base.

(** The halves of a surrogate pair. *)
Definition high_half (c : jchar) : Prop := (55296 <= c < 56320)%N.
Definition low_half (c : jchar) : Prop := (56320 <= c < 57344)%N.

(** [points_of s l]: the text [s] (of UTF-16 code units) has the code points [l]. A half without its other half counts by itself. Numbers that are no
    code units (no Java string has them) count as something that is no code point. *)
Inductive points_of : jstring -> list N -> Prop :=
| po_end : points_of [] []
| po_pair c d s l : high_half c -> low_half d -> points_of s l -> points_of (c :: d :: s) ((c - 55296) * 1024 + (d - 56320) + 65536 :: l)%N
| po_unit c s l : (c < 65536)%N -> (high_half c -> forall d s', s = d :: s' -> ~ low_half d) -> points_of s l -> points_of (c :: s) (c :: l)
| po_other c s l : (65536 <= c)%N -> points_of s l -> points_of (c :: s) (c + 1048576 :: l)%N.

(** A text of UTF-16 code units in which all surrogates are paired. *)
Inductive paired : jstring -> Prop :=
| pr_nil : paired []
| pr_unit c s : (c < 65536)%N -> ~ high_half c -> ~ low_half c -> paired s -> paired (c :: s)
| pr_pair c d s : high_half c -> low_half d -> paired s -> paired (c :: d :: s).

(** The text [u] is the character [c]. *)
Definition character (c : N) (u : jstring) : Prop := paired u /\ points_of u [c].

(** Texts equal, or in order, up to the case of their characters. *)
Definition same_ci (fold : N -> N) (a b : jstring) : Prop := exists la lb, points_of a la /\ points_of b lb /\ map fold la = map fold lb.

Inductive folded_before (fold : N -> N) : list N -> list N -> Prop :=
| fb_prefix y b : folded_before fold [] (y :: b)
| fb_less x a y b : (fold x < fold y)%N -> folded_before fold (x :: a) (y :: b)
| fb_same x a y b : fold x = fold y -> folded_before fold a b -> folded_before fold (x :: a) (y :: b).
Definition before_ci (fold : N -> N) (a b : jstring) : Prop := exists la lb, points_of a la /\ points_of b lb /\ folded_before fold la lb.
