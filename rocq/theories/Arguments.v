(** * From the words of the command line to the command

    Model of the annotations of jfiletreeprettyprinter-cli/src/main/java/io/github/computerdaddyguy/jfiletreeprettyprinter/cli/PrettyPrintCommand.java:18-24,
    36-47 and of FileTreePrettyPrinterCommandLine.java:26-28, as picocli 4.7.7 (class CommandLine, mostly its Interpreter) carries them out with its
    default settings. Not modelled: the texts picocli writes ([pc_usage], [pc_refusal], [pc_trace] stand for them) and markup for colours; words with a
    NUL character, which no operating system passes (an argument file could have one; the command would fail at PrettyPrintCommand.java:61, 75). *)

From Verif Require Export Cli Version.

(** What picocli finds at the path after '@' (FileTreePrettyPrinterCommandLine.java:27): no readable file, a file of words, or something it fails to read,
    such as a directory. *)
Inductive at_file := NoFile | WordsOf (words : list jstring) | Unreadable.

(** What picocli needs to know, and the texts it writes, at FileTreePrettyPrinterCommandLine.java:27. *)
Record pico := mkPico {
  pc_number : jstring -> bool;                     (* Long.decode or Double.parseDouble take the word *)
  pc_at_file : jstring -> at_file;                 (* files named by words that start with '@' *)
  pc_lenient : bool;                               (* after "--", whether the name of an option may be the target *)
  pc_class_path : list (option manifest);          (* for ManifestVersionProvider *)
  pc_usage : jstring;                              (* the text of --help *)
  pc_refusal : list jstring -> jstring;            (* the message about arguments, and the usage *)
  pc_trace : jstring                               (* the stack trace of an exception that leaves picocli, or the message about it *)
}.

(** PrettyPrintCommand.java:43-47, and [mixinStandardHelpOptions] at 21. *)
Inductive opt := OOptions | ODebug | OHelp | OVersion.

(** The names of the options, PrettyPrintCommand.java:21, 43, 46. *)
Definition option_names : list (jstring * opt) :=
  [(js "-o", OOptions); (js "--options", OOptions); (js "-d", ODebug); (js "--debug", ODebug);
   (js "-h", OHelp); (js "--help", OHelp); (js "-V", OVersion); (js "--version", OVersion)].

(** The option of this name (PrettyPrintCommand.java:21, 43, 46). *)
Definition find_option (s : jstring) : option opt := option_map snd (find (fun e => jeqb (fst e) s) option_names).

(** The option with this letter (PrettyPrintCommand.java:21, 43, 46). *)
Definition short_option (c : jchar) : option opt := find_option [45; c]%N.

(** The parts of a word before and after its first '='. Part of what FileTreePrettyPrinterCommandLine.java:27 calls. *)
Fixpoint cut_equals (s : jstring) : option (jstring * jstring) :=
  match s with
  | [] => None
  | c :: s' =>
      if N.eqb c 61 then Some ([], s')
      else match cut_equals s' with Some (a, b) => Some (c :: a, b) | None => None end
  end.

(** A word like "--name=value" with the name of an option (PrettyPrintCommand.java:21, 43, 46). *)
Definition attached (s : jstring) : option (opt * jstring) :=
  match cut_equals s with
  | Some (key, value) => match find_option key with Some o => Some (o, value) | None => None end
  | None => None
  end.

(** [Interpreter.isOption], within FileTreePrettyPrinterCommandLine.java:27: whether a word cannot be the value of the option before it. *)
Definition is_option (s : jstring) : bool :=
  jeqb s (js "--") ||
  match find_option s with Some _ => true | None => false end ||
  match attached s with Some _ => true | None => false end ||
  match s with
  | 45%N :: c :: _ :: _ => match short_option c with Some _ => true | None => false end
  | _ => false
  end.

(** [CommandSpec.resemblesOption], within FileTreePrettyPrinterCommandLine.java:27: a word which, not being an option, cannot be the target either. All
    names of options start with '-'; a word with another start has nothing in common with them. *)
Definition resembles (pc : pico) (s : jstring) : bool :=
  match s with 45%N :: _ :: _ => negb (pc_number pc s) | _ => false end.

(** What has been read so far: PrettyPrintCommand.java:38-47 (empty: not given), and the words that could not be placed. *)
Record taken := mkTaken {
  t_target : option jstring; t_options : option jstring; t_debug : option bool; t_help : bool; t_version : bool; t_unmatched : list jstring
}.

(** Before the first word, FileTreePrettyPrinterCommandLine.java:27. *)
Definition nothing_taken : taken := mkTaken None None None false false [].

(** A word that could not be placed (FileTreePrettyPrinterCommandLine.java:27). *)
Definition unmatched (s : jstring) (t : taken) : taken :=
  mkTaken (t_target t) (t_options t) (t_debug t) (t_help t) (t_version t) (t_unmatched t ++ [s]).

(** A word for PrettyPrintCommand.java:39-40, which takes one word only. *)
Definition positional (s : jstring) (t : taken) : taken :=
  match t_target t with
  | None => mkTaken (Some s) (t_options t) (t_debug t) (t_help t) (t_version t) (t_unmatched t)
  | Some _ => unmatched s t
  end.

(** A value for PrettyPrintCommand.java:43-44; an option given twice is refused. *)
Definition give_options (s : jstring) (t : taken) : option taken :=
  match t_options t with
  | None => Some (mkTaken (t_target t) (Some s) (t_debug t) (t_help t) (t_version t) (t_unmatched t))
  | Some _ => None
  end.

(** A value for PrettyPrintCommand.java:46-47 or for the options of line 21; an option given twice is refused. Help is given whatever the value. *)
Definition give_flag (o : opt) (b : bool) (t : taken) : option taken :=
  match o with
  | OOptions => None
  | ODebug =>
      match t_debug t with
      | None => Some (mkTaken (t_target t) (t_options t) (Some b) (t_help t) (t_version t) (t_unmatched t))
      | Some _ => None
      end
  | OHelp => if t_help t then None else Some (mkTaken (t_target t) (t_options t) (t_debug t) true (t_version t) (t_unmatched t))
  | OVersion => if t_version t then None else Some (mkTaken (t_target t) (t_options t) (t_debug t) (t_help t) true (t_unmatched t))
  end.

(** The converter for boolean, PrettyPrintCommand.java:47. *)
Definition to_boolean (fold : N -> N) (s : jstring) : option bool :=
  if jeqb_ci fold (js "true") s then Some true else if jeqb_ci fold (js "false") s then Some false else None.

(** [Interpreter.applyOption], PrettyPrintCommand.java:43-47: an option with the words after it; [equals]: its value is the next word because of a '='. The
    options file declares arity 0, so a value after '=' is refused, but a word that is not an option is taken. [None]: refused. *)
Definition apply_option (fold : N -> N) (o : opt) (equals : bool) (words : list jstring) (t : taken) : option (list jstring * taken) :=
  match o with
  | OOptions =>
      if equals then None
      else match words with
           | [] => option_map (fun t' => ([], t')) (give_options [] t)
           | v :: rest =>
               if is_option v then option_map (fun t' => (words, t')) (give_options [] t)
               else option_map (fun t' => (rest, t')) (give_options v t)
           end
  | _ =>
      if equals then
        match words with
        | [] => None
        | v :: rest => match to_boolean fold v with Some b => option_map (fun t' => (rest, t')) (give_flag o b t) | None => None end
        end
      else option_map (fun t' => (words, t')) (give_flag o true t)
  end.

(** [Interpreter.processClusteredShortOptions], called at FileTreePrettyPrinterCommandLine.java:27: the letters after '-' of the word [word]; [first]: none of
    them has been read. Simplification: of a word that could not be placed only the rest is kept. *)
Fixpoint cluster (pc : pico) (fold : N -> N) (word letters : jstring) (first : bool) (words : list jstring) (t : taken) : option (list jstring * taken) :=
  match letters with
  | [] => Some (words, t)
  | c :: rest =>
      match short_option c with
      | None =>
          if first then Some (words, if resembles pc word then unmatched word t else positional word t)
          else Some (words, unmatched (45%N :: letters) t)
      | Some o =>
          match rest with
          | [] => apply_option fold o false words t
          | 61%N :: [] => apply_option fold o true words t
          | 61%N :: value => apply_option fold o true (value :: words) t
          | _ =>
              match o with
              | OOptions =>
                  if is_option rest then
                    match give_options [] t with Some t' => cluster pc fold word rest false words t' | None => None end
                  else option_map (fun t' => (words, t')) (give_options rest t)
              | _ => match give_flag o true t with Some t' => cluster pc fold word rest false words t' | None => None end
              end
          end
      end
  end.

(** Called (in the interpreter of picocli) at FileTreePrettyPrinterCommandLine.java:27: the words after "--". *)
Fixpoint remainder (pc : pico) (words : list jstring) (t : taken) : taken :=
  match words with
  | [] => t
  | s :: rest => remainder pc rest (if is_option s && negb (pc_lenient pc) then unmatched s t else positional s t)
  end.

(** [Interpreter.processArguments], called at FileTreePrettyPrinterCommandLine.java:27. Every step takes at least one word, so the number of words
    is enough for [steps]. [None]: refused. *)
Fixpoint process (pc : pico) (fold : N -> N) (steps : nat) (words : list jstring) (t : taken) : option taken :=
  match steps, words with
  | S steps', s :: rest =>
      if jeqb s (js "--") then Some (remainder pc rest t)
      else
        match (match find_option s with
               | Some o => apply_option fold o false rest t
               | None =>
                   match attached s with
                   | Some (o, value) => apply_option fold o true (value :: rest) t
                   | None =>
                       match s with
                       | 45%N :: ((_ :: _ :: _) as letters) => cluster pc fold s letters true rest t
                       | _ => Some (rest, if resembles pc s then unmatched s t else positional s t)
                       end
                   end
               end) with
        | Some (rest', t') => process pc fold steps' rest' t'
        | None => None
        end
  | _, _ => Some t
  end.

(** [Interpreter.addOrExpand], called at FileTreePrettyPrinterCommandLine.java:27: words that start with '@'. [None]: a file could not be read. *)
Fixpoint expand (pc : pico) (words : list jstring) : option (list jstring) :=
  match words with
  | [] => Some []
  | s :: rest =>
      match expand pc rest with
      | None => None
      | Some rest' =>
          match s with
          | 64%N :: ((64%N :: _) as s') => Some (s' :: rest')
          | 64%N :: name =>
              match pc_at_file pc name with
              | NoFile => Some (s :: rest')
              | WordsOf words' => Some (words' ++ rest')
              | Unreadable => None
              end
          | _ => Some (s :: rest')
          end
      end
  end.

(** What the command line asks for. FileTreePrettyPrinterCommandLine.java:27. *)
Inductive request := RRun (a : cli_args) | RHelp | RVersion | RRefused | RBroken.

(** [CommandLine.parseArgs] and the decision of its execution strategy, FileTreePrettyPrinterCommandLine.java:27. Help goes first; without help,
    words that could not be placed are refused. The files of PrettyPrintCommand.java:40, 44 become paths at 61, 75. *)
Definition requested (pc : pico) (fold : N -> N) (args : list jstring) : request :=
  match expand pc args with
  | None => RBroken
  | Some words =>
      match process pc fold (length words) words nothing_taken with
      | None => RRefused
      | Some t =>
          if t_help t then RHelp
          else if t_version t then RVersion
          else match t_unmatched t with
               | [] => RRun (mkArgs (option_map path_of (t_target t)) (option_map path_of (t_options t))
                                    (match t_debug t with Some b => b | None => false end))
               | _ => RRefused
               end
      end
  end.

(** FileTreePrettyPrinterCommandLine.java:26-28: the exit code and what happened. picocli writes help and version to standard output, messages about
    the arguments to standard error, with the exit code 2. An exception that leaves picocli ends the program with its stack trace and the exit code 1. *)
Definition execute (pc : pico) (args : list jstring) (w : cworld) (s : cstate) : Z * cstate :=
  match requested pc (jv_fold (w_jvm (cw_world w))) args with
  | RRun a => run_cli a w s
  | RHelp => (0%Z, write_out (pc_usage pc) s)
  | RVersion =>
      match get_version (pc_class_path pc) with
      | Some lines => (0%Z, write_out (concat (map (fun l => l ++ cw_linesep w) lines)) s)
      | None => (1%Z, write_err (pc_trace pc) s)
      end
  | RRefused => (2%Z, write_err (pc_refusal pc args) s)
  | RBroken => (1%Z, write_err (pc_trace pc) s)
  end.
