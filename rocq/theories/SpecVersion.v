(** * Vocabulary for the text of --version *)

From Verif Require Export Version.

(** The same ASCII letter or character, without regard to case. *)
Definition same_letter (c d : jchar) : Prop :=
  c = d \/ (97 <= d <= 122 /\ c + 32 = d)%N \/ (97 <= c <= 122 /\ d + 32 = c)%N.
Definition same_name (a b : jstring) : Prop := Forall2 same_letter a b.

(** A manifest has no attribute of this name; its value for the name is that of the last one. *)
Definition lacks_attribute (attributes : list (jstring * jstring)) (name : jstring) : Prop :=
  forall k v, In (k, v) attributes -> ~ same_name k name.
Definition has_attribute (attributes : list (jstring * jstring)) (name v : jstring) : Prop :=
  exists before k after, attributes = before ++ (k, v) :: after /\ same_name k name /\ lacks_attribute after name.

(** What is displayed for an attribute. *)
Definition displayed (attributes : list (jstring * jstring)) (name v : jstring) : Prop :=
  has_attribute attributes name v \/ (lacks_attribute attributes name /\ v = js "unknown").

(** The text of --version for the attributes of a manifest. *)
Definition version_text (attributes : list (jstring * jstring)) (lines : list jstring) : Prop :=
  exists version desc id time url built,
    displayed attributes (js "Implementation-Version") version /\ displayed attributes (js "Project-Desc") desc /\
    displayed attributes (js "Commit-Id") id /\ displayed attributes (js "Commit-Time") time /\
    displayed attributes (js "Scm-Url") url /\ displayed attributes (js "Build-Time") built /\
    lines = [ js "JFileTreePrettyPrinter " ++ version; desc; js "Repository: " ++ url;
              js "Commit: " ++ id ++ js " (" ++ time ++ js ")"; js "Built on: " ++ built ].

(** Places of the class path without manifest. *)
Definition no_manifest (places : list (option manifest)) : Prop := Forall (fun r => r = None) places.
