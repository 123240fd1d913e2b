(** * Properties of the text of --version *)

From Verif Require Import SpecVersion VersionFacts.

(** C135. What --version tells is about this program: it is what the manifest of its own archive says, whatever else is on the class path. False: the
    manifest of an archive that comes earlier on the class path is taken instead. C136 says what is displayed. *)
Theorem C135_refuted : exists before own after lines,
  get_version [Some own] = Some lines /\ get_version (before ++ Some own :: after) <> Some lines.
Proof. exact version_counterexample. Qed.
Print Assumptions C135_refuted.

(** C136. The five lines are those for the first manifest of the class path, with "unknown" for each attribute it lacks; names of attributes are
    compared without regard to case, and the last of several attributes of one name counts. *)
Theorem C136_first_manifest : forall before attributes after lines, no_manifest before ->
  (get_version (before ++ Some (MainAttributes attributes) :: after) = Some lines <-> version_text attributes lines).
Proof. exact version_first. Qed.
Print Assumptions C136_first_manifest.
(** For the manifest that the build writes, the lines are the values of the build, whatever other attributes there are. *)
Theorem C136_built : forall before after version built id time desc url more, no_manifest before ->
  get_version (before ++ Some (built_manifest version built id time desc url more) :: after) =
  Some [ js "JFileTreePrettyPrinter " ++ version; desc; js "Repository: " ++ url; js "Commit: " ++ id ++ js " (" ++ time ++ js ")"; js "Built on: " ++ built ].
Proof. exact version_built. Qed.
Print Assumptions C136_built.
(** Without any manifest everything is "unknown"; a first manifest that cannot be read makes it fail, even if there are others. *)
Theorem C136_no_manifest : forall places, no_manifest places ->
  get_version places = Some (map js ["JFileTreePrettyPrinter unknown"; "unknown"; "Repository: unknown"; "Commit: unknown (unknown)"; "Built on: unknown"]%string).
Proof. exact version_none. Qed.
Print Assumptions C136_no_manifest.
Theorem C136_malformed : forall before after, no_manifest before -> get_version (before ++ Some Malformed :: after) = None.
Proof. exact version_malformed. Qed.
Print Assumptions C136_malformed.

(** Two manifests, the first of which has an attribute twice, in different spellings, and lacks others. *)
Example C136_case :
  no_manifest [None] /\
  get_version [None; Some (MainAttributes [(js "commit-id", js "1"); (js "Scm-Url", js "u"); (js "COMMIT-ID", js "2")]);
               Some (MainAttributes [(js "Build-Time", js "now")])] =
  Some (map js ["JFileTreePrettyPrinter unknown"; "unknown"; "Repository: u"; "Commit: 2 (unknown)"; "Built on: unknown"]%string).
Proof. split; [repeat constructor|reflexivity]. Qed.
