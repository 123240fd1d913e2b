(** * The messages of the exceptions of the library *)

From Verif Require Export World.

(** [getMessage()] of an exception whose message the library writes; [None]: the message is not modelled (it is written by the JDK or by the
    user). DefaultPathToTreeScanner.java:59, 107; PathMatchers.java:698. *)
Definition message (x : exn) : option jstring :=
  match x with
  | ExUncheckedIO ListFiles dir => Some (js "Unable to list files for directory: " ++ path_str dir)
  | ExUncheckedIO ReadAttributes file => Some (js "Unable to read file attributes: " ++ path_str file)
  | ExUncheckedIO WalkStart path => Some (js "Exception while walking files of " ++ path_str path)
  | _ => None
  end.
