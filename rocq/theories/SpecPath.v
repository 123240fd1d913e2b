(** * Specification of "the same location" *)

From Verif Require Export World.

(** Two paths (the current directory having the absolute names [cwd]) name the same location if one is obtained
    from the other by the lexical rules: "." may be dropped, "name/.." may be dropped, "/.." is "/",
    a relative path may be prefixed by the current directory. *)
Inductive same_location (cwd : list jstring) : path -> path -> Prop :=
| same_refl p : same_location cwd p p
| same_sym p q : same_location cwd p q -> same_location cwd q p
| same_trans p q r : same_location cwd p q -> same_location cwd q r -> same_location cwd p r
| same_dot abs l1 l2 : same_location cwd (mkPath abs (l1 ++ n_dot :: l2)) (mkPath abs (l1 ++ l2))
| same_up abs l1 n l2 : n <> n_dot -> n <> n_dotdot ->
    same_location cwd (mkPath abs (l1 ++ n :: n_dotdot :: l2)) (mkPath abs (l1 ++ l2))
| same_top l : same_location cwd (mkPath true (n_dotdot :: l)) (mkPath true l)
| same_cwd l : same_location cwd (mkPath false l) (mkPath true (cwd ++ l)).
