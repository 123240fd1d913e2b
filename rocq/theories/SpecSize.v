(** * The size of the text *)

From Verif Require Export Printer SpecRender.

(** What is written for a file or a directory, apart from the indentation. *)
Definition label_size (v : view) (p : path) (mark : jstring) : nat :=
  (length (emoji_str v p) + length (last_name p) + length mark + length (opt_str (v_ext v p)))%nat.

(** The number of characters of the lines for [e], each with a line break, if the symbols have [n] characters, [d] levels down, and nothing
    is merged. *)
Fixpoint plain_size (v : view) (n d : nat) (e : entry) : nat :=
  (d * (n + 1) + 1 +
   match e with
   | EDir p es => label_size v p (js "/") + list_sum (map (plain_size v n (S d)) es)
   | EFile p k => label_size v p (kind_mark k)
   | ESkipped _ | EMaxDepth _ => 3
   end)%nat.
