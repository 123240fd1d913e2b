(** * Model of FileTreePrettyPrinter.java, DefaultFileTreePrettyPrinter.java, FileTreePrettyPrinterBuilder.java *)

From Verif Require Export Renderer.

(** DefaultFileTreePrettyPrinter.java:20-26; [o] are the options the scanner and the entry renderer read now,
    [lr] the line renderer created at build time. *)
Definition pretty_print_with (o : options) (lr : line_renderer) (p : path) : M jstring :=
  j <- get_jvm;
  tree <- scan o (normalize (to_absolute (jv_cwd j) p));
  render_tree o lr tree.

(** A printer built from options that are not modified afterwards (FileTreePrettyPrinterBuilder.java:46-50). *)
Definition pretty_print (o : options) (p : path) : M jstring :=
  pretty_print_with o (line_renderer_create o) p.

(** FileTreePrettyPrinter.java:34-40. [Path.of] refuses a text with a NUL character (InvalidPathException, an IllegalArgumentException).
    Simplification: there are names for all other characters (the encoding of file names is a Unicode one). *)
Definition pretty_print_string (o : options) (s : jstring) : M jstring :=
  let p := path_of s in
  if existsb (N.eqb 0) s then throw ExIllegalArgument
  else if p_abs p then pretty_print o p else pretty_print o (path_of2 (js ".") s).

(** ** Options objects, printer builders and printers of a client, numbered in order of creation

    Builders and printers hold references to options objects. A reference to an object that was never created cannot be written in Java;
    the model ignores such a call. *)
(** PrettyPrintOptions.java:31-217, FileTreePrettyPrinterBuilder.java:35, DefaultFileTreePrettyPrinter.java:12-18. *)
Record client := mkClient {
  cl_objects : list options;                       (* PrettyPrintOptions.java *)
  cl_builders : list nat;                          (* FileTreePrettyPrinterBuilder.java:35 *)
  cl_printers : list (nat * line_renderer)         (* the options held by scanner and entry renderer, and the line renderer *)
}.

(** What the function given to [customizeOptions] returns: its argument, another options object, or null. FileTreePrettyPrinterBuilder.java:71-76.
    *)
Inductive returned := RetArgument | RetObject (i : nat) | RetNull.

(** What a client can call: PrettyPrintOptions.java:25, 44-245; FileTreePrettyPrinterBuilder.java:37-76; FileTreePrettyPrinter.java:47-58. *)
Inductive call :=
| NewOptions                                             (* PrettyPrintOptions.createDefault() *)
| Set_ (i : nat) (s : setter)                            (* a setter of options object [i] *)
| NewBuilder                                             (* FileTreePrettyPrinter.builder() *)
| WithOptions (b : nat) (i : option nat)                 (* builder [b].withOptions(object [i] or null) *)
| Customize (b : nat) (body : list setter) (r : returned) (* builder [b].customizeOptions(f); f calls [body] on its argument *)
| Build (b : nat).                                       (* builder [b].build() *)

(** Assignment to the [i]-th element. The assignments of FileTreePrettyPrinterBuilder.java:60, 74 and of the setters of
    PrettyPrintOptions.java:44-245. *)
Definition put {A} (l : list A) (i : nat) (a : A) : list A :=
  match skipn i l with [] => l | _ :: after => firstn i l ++ a :: after end.

(** A client before its first call (PrettyPrintOptions.java:25, FileTreePrettyPrinter.java:56). *)
Definition client_start : client := mkClient [] [] [].

(** PrettyPrintOptions.java:25-27; FileTreePrettyPrinterBuilder.java:37-39, 46-50, 59-62, 71-76. A client that catches the exception of
    a call goes on. Simplification: the function given to [customizeOptions] does nothing but call setters on its argument; whatever else
    it does is the same as doing it before. *)
Definition client_exec (lower : jstring -> jstring) (c : client) (x : call) : client :=
  let '(mkClient objects builders printers) := c in
  match x with
  | NewOptions => mkClient (objects ++ [default_options]) builders printers
  | Set_ i s =>
      match nth_error objects i with
      | Some o => match set_option lower s o with Ok o' => mkClient (put objects i o') builders printers | Throw _ => c end
      | None => c
      end
  | NewBuilder => mkClient (objects ++ [default_options]) (builders ++ [length objects]) printers
  | WithOptions b (Some i) => mkClient objects (put builders b i) printers
  | WithOptions b None => c
  | Customize b body r =>
      match nth_error builders b with
      | Some i =>
          match nth_error objects i with
          | Some o =>
              let (o', thrown) := set_all lower body o in
              mkClient (put objects i o')
                (match thrown, r with None, RetObject j => put builders b j | _, _ => builders end) printers
          | None => c
          end
      | None => c
      end
  | Build b =>
      match nth_error builders b with
      | Some i =>
          match nth_error objects i with
          | Some o => mkClient objects builders (printers ++ [(i, line_renderer_create o)])
          | None => c
          end
      | None => c
      end
  end.

(** A sequence of calls of a client (PrettyPrintOptions.java:44-245, FileTreePrettyPrinterBuilder.java:46-76). *)
Definition client_run (lower : jstring -> jstring) (l : list call) : client := fold_left (client_exec lower) l client_start.

(** [prettyPrint] of the [k]-th printer, DefaultFileTreePrettyPrinter.java:20-26. Simplification: callbacks do not modify the options
    while the call runs. *)
Definition client_print (c : client) (k : nat) (p : path) : M jstring :=
  match nth_error (cl_printers c) k with
  | Some (i, lr) =>
      match nth_error (cl_objects c) i with
      | Some o => pretty_print_with o lr p
      | None => throw ExNullPointer
      end
  | None => throw ExNullPointer
  end.
