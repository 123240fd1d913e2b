(** * Default emoji tables of options/DefaultEmojiMappingBuilder.java, transcribed mechanically. *)

From Verif Require Export Base.

(** DefaultEmojiMappingBuilder.java:119-165 (values as UTF-16 code units). *)
Definition DEFAULT_FILENAME_EMOJIS : list (jstring * jstring) := [
  (js ".gitignore", [55357; 57003]%N);
  (js "dockerfile", [55357; 56371]%N);
  (js "docker-compose.yaml", [9881; 65039]%N);
  (js "docker-compose.yml", [9881; 65039]%N);
  (js "jenkinsfile", [55358; 56629]%N);
  (js "makefile", [55357; 57056; 65039]%N);
  (js "pom.xml", [55357; 57056; 65039]%N);
  (js "build.gradle", [55357; 57056; 65039]%N);
  (js "package.json", [55357; 57056; 65039]%N);
  (js "robots.txt", [55358; 56598]%N);
  (js "readme", [55357; 56536]%N);
  (js "readme.md", [55357; 56536]%N);
  (js "roadmap", [55357; 56826; 65039]%N);
  (js "roadmap.md", [55357; 56826; 65039]%N);
  (js "license", [9878; 65039]%N);
  (js "license.md", [9878; 65039]%N);
  (js "changelog", [55356; 56725]%N);
  (js "changelog.md", [55356; 56725]%N);
  (js "security", [55357; 57057; 65039]%N);
  (js "security.md", [55357; 57057; 65039]%N);
  (js "todo", [9989]%N);
  (js "todo.md", [9989]%N);
  (js "contributing", [55358; 56605]%N);
  (js "contributing.md", [55358; 56605]%N)
].

(** DefaultEmojiMappingBuilder.java:167-286 (values as UTF-16 code units). *)
Definition DEFAULT_FILEEXTENSIONS_EMOJIS : list (jstring * jstring) := [
  (js "exe", [9881; 65039]%N);
  (js "bin", [9881; 65039]%N);
  (js "msi", [55357; 56550]%N);
  (js "apk", [55357; 56561]%N);
  (js "ipa", [55357; 56561]%N);
  (js "app", [55357; 56741; 65039]%N);
  (js "dll", [55358; 56809]%N);
  (js "lib", [55358; 56809]%N);
  (js "so", [55358; 56809]%N);
  (js "7z", [55357; 56550]%N);
  (js "gz", [55357; 56550]%N);
  (js "img", [55357; 56511]%N);
  (js "iso", [55357; 56511]%N);
  (js "tar", [55357; 56550]%N);
  (js "rar", [55357; 56550]%N);
  (js "zip", [55357; 56550]%N);
  (js "java", [9749]%N);
  (js "class", [9749]%N);
  (js "jar", [55357; 56550]%N);
  (js "py", [55357; 56333]%N);
  (js "js", [9889]%N);
  (js "ts", [55357; 56631]%N);
  (js "c", [55357; 56480]%N);
  (js "cpp", [55357; 56480]%N);
  (js "cs", [55357; 56480]%N);
  (js "css", [55356; 57256]%N);
  (js "scss", [55356; 57256]%N);
  (js "less", [55356; 57256]%N);
  (js "html", [55356; 57104]%N);
  (js "htm", [55356; 57104]%N);
  (js "htmx", [55356; 57104]%N);
  (js "php", [55357; 56344]%N);
  (js "sql", [55357; 56772; 65039]%N);
  (js "vue", [55357; 57321]%N);
  (js "sh", [55357; 56540]%N);
  (js "bash", [55357; 56540]%N);
  (js "bat", [55357; 56540]%N);
  (js "cfg", [9881; 65039]%N);
  (js "conf", [9881; 65039]%N);
  (js "csv", [55357; 56522]%N);
  (js "ini", [9881; 65039]%N);
  (js "properties", [9881; 65039]%N);
  (js "json", [55357; 56541]%N);
  (js "ods", [55357; 56522]%N);
  (js "xls", [55357; 56522]%N);
  (js "xlsx", [55357; 56522]%N);
  (js "xml", [55357; 56541]%N);
  (js "yaml", [55357; 56541]%N);
  (js "yml", [55357; 56541]%N);
  (js "doc", [55357; 56541]%N);
  (js "docx", [55357; 56541]%N);
  (js "epub", [55357; 56538]%N);
  (js "md", [55357; 56541]%N);
  (js "odt", [55357; 56541]%N);
  (js "pdf", [55357; 56533]%N);
  (js "rtf", [55357; 56541]%N);
  (js "txt", [55357; 56541]%N);
  (js "aac", [55356; 57269]%N);
  (js "flac", [55356; 57269]%N);
  (js "midi", [55356; 57273]%N);
  (js "mp3", [55356; 57269]%N);
  (js "ogg", [55356; 57269]%N);
  (js "wav", [55356; 57269]%N);
  (js "bmp", [55357; 56764; 65039]%N);
  (js "gif", [55356; 57246; 65039]%N);
  (js "jpeg", [55357; 56764; 65039]%N);
  (js "jpg", [55357; 56764; 65039]%N);
  (js "png", [55357; 56764; 65039]%N);
  (js "svg", [10002; 65039]%N);
  (js "ico", [55357; 56764; 65039]%N);
  (js "avi", [55356; 57260]%N);
  (js "mkv", [55356; 57260]%N);
  (js "mov", [55356; 57260]%N);
  (js "mp4", [55356; 57260]%N);
  (js "webm", [55356; 57260]%N);
  (js "wmv", [55356; 57260]%N);
  (js "bak", [55357; 56510]%N);
  (js "log", [55357; 56540]%N);
  (js "tmp", [55357; 56785; 65039]%N);
  (js "key", [55357; 56593]%N);
  (js "pem", [55357; 56592]%N);
  (js "crt", [55357; 56592]%N);
  (js "pub", [55357; 56595]%N)
].

(** DefaultEmojiMappingBuilder.java:18. *)
Definition DEFAULT_DIR_EMOJI : jstring := [55357; 56514]%N.

(** DefaultEmojiMappingBuilder.java:22. *)
Definition DEFAULT_FILE_EMOJI : jstring := [55357; 56516]%N.
