(** * What the functions in the options are asked about *)

From Verif Require Import SpecAsked AskedFacts Cases VolumeCases AskedCases.
Open Scope Z_scope.

(** C170. Only what the functions in the options say where they may be asked matters, whatever the file system does: the filters are asked about entries found in
    directories at most the maximal depth below the root, each about its kind and right after the kind was looked up, never about the root; the order about accepted
    entries of one listing; the child limit about the root and accepted directories, right after they were opened; emoji mapping and line extension about the root
    and accepted entries. Options that agree there give the same outcome and do the same. *)
Theorem C170_only_what_is_asked : forall w o o' p h, agree_where_asked w (location w p) o o' -> pretty_print o' p w h = pretty_print o p w h.
Proof. exact asked_only. Qed.
Print Assumptions C170_only_what_is_asked.

(** Functions that throw anywhere else. *)
Example C170_case :
  agree_where_asked sample_world (location sample_world (pth "/home/u")) asked_options (guarded_options (pth "/home/u") asked_options) /\
  option_map readable_text (result (pretty_print (guarded_options (pth "/home/u") asked_options) (pth "/home/u") sample_world [])) =
  Some (String.concat (String (ascii_of_N 10) "") ["u/"; "## Zoo"; "## a/"; "## link"; "## src/ *"; "   ## main/"; "      ## ..."])%string /\
  result (o_dir_matcher (guarded_options (pth "/home/u") asked_options) (pth "/home/u") sample_world []) = None.
Proof. split; [apply guarded_agrees; reflexivity|]. split; vm_compute; reflexivity. Qed.
