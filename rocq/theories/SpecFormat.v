(** * What becomes of a text that is used as a format string without arguments *)

From Verif Require Export SpecCli.

(** A decimal number and its value. *)
Inductive denotes : jstring -> N -> Prop :=
| dg_one k : (k < 10)%N -> denotes [48 + k]%N k
| dg_more s n k : denotes s n -> (k < 10)%N -> denotes (s ++ [48 + k]%N) (10 * n + k)%N.

(** Nothing, or the number of an argument. *)
Definition numbered (i : jstring) : Prop := i = [] \/ exists d n, i = d ++ js "$" /\ denotes d n /\ (1 <= n <= 2147483647)%N.

(** A width: it does not start with a zero, which is a flag. *)
Definition wide (s : jstring) (n : N) : Prop := denotes s n /\ (n <= 2147483647)%N /\ ~ (exists s', s = js "0" ++ s').

Definition spaces (n : N) : jstring := repeat c_space (N.to_nat (n - 1)).

(** Specifiers that need no argument, and the text that replaces them. *)
Inductive specifier (linesep : jstring) : jstring -> jstring -> Prop :=
| sf_percent i : numbered i -> specifier linesep (js "%" ++ i ++ js "%") (js "%")
| sf_right i s n : numbered i -> wide s n -> specifier linesep (js "%" ++ i ++ s ++ js "%") (spaces n ++ js "%")
| sf_left i s n : numbered i -> wide s n -> specifier linesep (js "%" ++ i ++ js "-" ++ s ++ js "%") (js "%" ++ spaces n)
| sf_newline i : numbered i -> specifier linesep (js "%" ++ i ++ js "n") linesep.

(** The text [s] is written as [o]: each specifier is replaced, everything else is left alone. *)
Inductive written_as (linesep : jstring) : jstring -> jstring -> Prop :=
| wr_nil : written_as linesep [] []
| wr_char c s o : c <> c_percent -> written_as linesep s o -> written_as linesep (c :: s) (c :: o)
| wr_spec f t s o : specifier linesep f t -> written_as linesep s o -> written_as linesep (f ++ s) (t ++ o).

(** The line separators of Unix and Windows. *)
Definition usual_linesep (l : jstring) : Prop := l = [10%N] \/ l = [13%N; 10%N].

(** What may have been written when writing fails: nothing, or what precedes some '%'. *)
Definition begun (linesep text b : jstring) : Prop := b = [] \/ exists a r, text = a ++ c_percent :: r /\ written_as linesep a b.

(** What appears on standard error for the message [msg]: the message as it is written; if it cannot be, its beginning at most and the
    stack trace of the failure. *)
Inductive error_output (w : cworld) (msg : jstring) : jstring -> Prop :=
| eo_message o : written_as (cw_linesep w) msg o -> error_output w msg (js "[ERROR] " ++ o ++ cw_linesep w)
| eo_trace b : (forall o, ~ written_as (cw_linesep w) msg o) -> begun (cw_linesep w) (js "[ERROR] " ++ msg) b ->
    error_output w msg (b ++ cw_stack_trace w (XFormat (js "[ERROR] " ++ msg ++ cw_linesep w))).

(** The command does what the document [x] asks for: what the options made of [x] print for the target [T] is written, and a document that cannot
    be turned into options, or an exception of the printer, is reported; whatever was done before. *)
Definition command_uses (w : cworld) (a : cli_args) (T : path) (x : xoptions) : Prop := forall s,
  let code := fst (run_cli a w s) in
  let s' := snd (run_cli a w s) in
  (forall o h1 text h2, map_to_options T x (cw_world w) (cs_hist s) = (Ok o, h1) -> pretty_print o T (cw_world w) h1 = (Ok text, h2) ->
     (forall out, written_as (cw_linesep w) text out -> code = 0%Z /\ cs_out s' = cs_out s ++ out ++ cw_linesep w /\ cs_err s' = cs_err s) /\
     ((forall out, ~ written_as (cw_linesep w) text out) -> code = 1%Z)) /\
  (forall e h1, map_to_options T x (cw_world w) (cs_hist s) = (Throw e, h1) -> code = 1%Z /\ cs_out s' = cs_out s) /\
  (forall o h1 e h2, map_to_options T x (cw_world w) (cs_hist s) = (Ok o, h1) -> pretty_print o T (cw_world w) h1 = (Throw e, h2) ->
     code = 1%Z /\ cs_out s' = cs_out s).

(** ** What debug mode writes about the fallbacks

    Each fallback as it is spelled and as it is resolved. [stop] is the missing one whose path cannot be written: the message about it is a format
    string. *)
Inductive trail (w : cworld) (fs : files) : list (path * path) -> list jstring -> option path -> Prop :=
| tr_none : trail w fs [] [js "No options file provided/found"] None
| tr_skip p q l out msgs stop : missing fs q -> written_as (cw_linesep w) (path_str p) out -> trail w fs l msgs stop ->
    trail w fs ((p, q) :: l) ((js "Options file does not exist: " ++ out) :: msgs) stop
| tr_stop p q l : missing fs q -> (forall out, ~ written_as (cw_linesep w) (path_str p) out) -> trail w fs ((p, q) :: l) [] (Some p)
| tr_found p q l msgs : f_exists fs q = true -> told w fs q msgs -> trail w fs ((p, q) :: l) msgs None.

(** The fallbacks for the target [T]; [here] and [home] are those in the current and in the home directory, resolved. *)
Definition fallbacks (w : cworld) (T here home : path) : list (path * path) :=
  [(mkPath true (p_names T ++ [js ".prettyprint"]), mkPath true (p_names T ++ [js ".prettyprint"]));
   (mkPath false [js "."; js ".prettyprint"], here);
   (mkPath (p_abs (cw_home w)) (p_names (cw_home w) ++ [js ".prettyprint"]), home)].

(** What precedes. *)
Definition debug_opening (t : option path) (T : path) : list jstring :=
  match t with None => [js "No target provided: use current directory"] | Some _ => [] end ++
  [js "Target path: " ++ path_str T; js "No options file provided, looking for fallback options files..."].

Definition debug_text (linesep : jstring) (msgs : list jstring) : jstring := flat_map (fun m => js "[DEBUG] " ++ m ++ linesep) msgs.
