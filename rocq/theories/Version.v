(** * The text of --version

    Model of jfiletreeprettyprinter-cli/src/main/java/io/github/computerdaddyguy/jfiletreeprettyprinter/cli/ManifestVersionProvider.java. What picocli
    does with the lines (it prints them) is not modelled. *)

From Verif Require Export Base.

(** What [java.util.jar.Manifest] makes of a manifest file: its main attributes in their order in the file, or an IOException. Names of attributes
    are ASCII. ManifestVersionProvider.java:20-21. *)
Inductive manifest :=
  | Malformed
  | MainAttributes (attributes : list (jstring * jstring)).

(** Class.getResourceAsStream (ManifestVersionProvider.java:18): of the places of the class path, in order, the first that has a file
    META-INF/MANIFEST.MF. Not repository code. Simplification: the program is on the class path, not in a named module. *)
Fixpoint get_resource (class_path : list (option manifest)) : option manifest :=
  match class_path with
  | [] => None
  | Some m :: _ => Some m
  | None :: rest => get_resource rest
  end.

(** Attributes.Name.equals: without regard to the case of (ASCII) letters. Not repository code. Called within ManifestVersionProvider.java:21-26.
    *)
Definition lower_ascii (c : jchar) : jchar := if ((65 <=? c) && (c <=? 90))%N then (c + 32)%N else c.

(** Attributes.Name.equals, called within ManifestVersionProvider.java:21-26. Not repository code. *)
Definition same_attribute (a b : jstring) : bool := jeqb (map lower_ascii a) (map lower_ascii b).

(** Manifest.read and Attributes.getValue: of several attributes of the same name the last one counts; null if there is none. Not repository code.
    ManifestVersionProvider.java:20-26. *)
Fixpoint get_value (attributes : list (jstring * jstring)) (name : jstring) : option jstring :=
  match attributes with
  | [] => None
  | (k, v) :: rest =>
      match get_value rest name with
      | Some v' => Some v'
      | None => if same_attribute k name then Some v else None
      end
  end.

(** ManifestVersionProvider.java:39-41. *)
Definition value_or_unknown (value : option jstring) : jstring :=
  match value with Some v => v | None => js "unknown" end.

(** ManifestVersionProvider.java:29-36: the five lines, from the six local variables. *)
Definition version_lines (impl_version project_desc commit_id commit_time scm_url build_time : option jstring) : list jstring :=
  [ js "JFileTreePrettyPrinter " ++ value_or_unknown impl_version;
    value_or_unknown project_desc;
    js "Repository: " ++ value_or_unknown scm_url;
    js "Commit: " ++ value_or_unknown commit_id ++ js " (" ++ value_or_unknown commit_time ++ js ")";
    js "Built on: " ++ value_or_unknown build_time ].

(** ManifestVersionProvider.java:10-37, getVersion; [None]: an IOException. *)
Definition get_version (class_path : list (option manifest)) : option (list jstring) :=
  match get_resource class_path with
  | None => Some (version_lines None None None None None None)
  | Some Malformed => None
  | Some (MainAttributes attributes) =>
      Some (version_lines
              (get_value attributes (js "Implementation-Version")) (get_value attributes (js "Project-Desc"))
              (get_value attributes (js "Commit-Id")) (get_value attributes (js "Commit-Time"))
              (get_value attributes (js "Scm-Url")) (get_value attributes (js "Build-Time")))
  end.

(** jfiletreeprettyprinter-cli/pom.xml:80-93, maven-jar-plugin: the entries the build writes into the manifest of the program for the version
    ([addDefaultImplementationEntries]) and for [manifestEntries], in this order; [more]: those that are not listed in the pom. *)
Definition built_manifest (version build_time commit_id commit_time project_desc scm_url : jstring) (more : list (jstring * jstring)) : manifest :=
  MainAttributes
    (more ++
     [ (js "Implementation-Version", version); (js "Build-Time", build_time); (js "Commit-Id", commit_id); (js "Commit-Time", commit_time);
       (js "Project-Desc", project_desc); (js "Scm-Url", scm_url) ]).
