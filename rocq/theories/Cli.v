(** * Model of the command line: cli/io, cli/options, cli/exception, cli/PrettyPrintCommand.java

    Paths below are relative to jfiletreeprettyprinter-cli/src/main/java/io/github/computerdaddyguy/jfiletreeprettyprinter/cli.
    Not modelled: picocli's parsing of the arguments and its help and version output, the YAML parser, Errors such as StackOverflowError. *)

From Verif Require Export ExtOptions Printer Messages.

(** ** java.util.Formatter, as far as the command line uses it

    Not repository code: the syntax %[index$][flags][width][.precision]conversion of the Java documentation. *)

(** Called within io/DefaultConsoleOutput.java:73. *)
Definition is_digit (c : jchar) : bool := ((48 <=? c) && (c <=? 57))%N.

(** A conversion character of a format (used at io/DefaultConsoleOutput.java:73). *)
Definition is_letter (c : jchar) : bool := (((65 <=? c) && (c <=? 90)) || ((97 <=? c) && (c <=? 122)))%N.
(** One of - # + space 0 , ( <. For formats (used at io/DefaultConsoleOutput.java:73). *)
Definition is_flag (c : jchar) : bool := existsb (N.eqb c) [45; 35; 43; 32; 48; 44; 40; 60]%N.

(** Longest prefix whose characters satisfy [f], and the rest. For formats (used at io/DefaultConsoleOutput.java:73). *)
Fixpoint span (f : jchar -> bool) (s : jstring) : jstring * jstring :=
  match s with
  | c :: s' => if f c then let (a, b) := span f s' in (c :: a, b) else ([], s)
  | [] => ([], [])
  end.

(** What a format string consists of: characters, replaced specifiers, specifiers that take an argument ([plain]: exactly %s). For the format of
    io/DefaultConsoleOutput.java:73. *)
Inductive piece := PChar (c : jchar) | PText (s : jstring) | PArg (plain : bool).

(** A specifier: the text after '%' up to the conversion character, split into its parts. For the format of io/DefaultConsoleOutput.java:73. *)
Record spec := mkSpec { sp_index : jstring; sp_flags : jstring; sp_width : jstring; sp_precision : jstring; sp_time : jstring; sp_conv : jchar }.

(** Parse what follows a '%'; [None] if it is not a specifier (UnknownFormatConversionException). For the format of
    io/DefaultConsoleOutput.java:73. *)
Definition parse_spec (s : jstring) : option spec :=
  let (d, r) := span is_digit s in
  let '(index, s1) := match d, r with _ :: _, 36%N :: r' => (d ++ [36%N], r') | _, _ => ([], s) end in
  let (flags, s2) := span is_flag s1 in
  let (width, s3) := span is_digit s2 in
  let prec := match s3 with
              | 46%N :: r' => match span is_digit r' with ([], _) => None | (p, s4) => Some (46%N :: p, s4) end
              | _ => Some ([], s3)
              end in
  match prec with
  | None => None
  | Some (precision, s4) =>
      match s4 with
      | t :: c :: _ =>
          if ((t =? 116) || (t =? 84))%N && (is_letter c || (c =? 37)%N) then Some (mkSpec index flags width precision [t] c)
          else if is_letter t || (t =? 37)%N then Some (mkSpec index flags width precision [] t) else None
      | [t] => if is_letter t || (t =? 37)%N then Some (mkSpec index flags width precision [] t) else None
      | [] => None
      end
  end.

(** Number of characters of the specifier after the '%'. For the format of io/DefaultConsoleOutput.java:73. *)
Definition spec_length (sp : spec) : nat :=
  length (sp_index sp) + length (sp_flags sp) + length (sp_width sp) + length (sp_precision sp) + length (sp_time sp) + 1.

(** The number written in decimal digits (in formats, io/DefaultConsoleOutput.java:73). *)
Definition decimal (s : jstring) : N := fold_left (fun n c => 10 * n + (c - 48))%N s 0%N.

(** %% with a width is padded with spaces, on the right if flagged '-'. For the format of io/DefaultConsoleOutput.java:73. *)
Definition percent_text (flags width : jstring) : option jstring :=
  if (2147483647 <? decimal width)%N then None
  else
    let pad := repeat c_space (N.to_nat (decimal width) - 1) in
    match flags, width with
    | [], _ => Some (pad ++ [c_percent])
    | [45%N], _ :: _ => Some ([c_percent] ++ pad)
    | _, _ => None
    end.

(** An argument index is a positive [int]. For the format of io/DefaultConsoleOutput.java:73. *)
Definition good_index (index : jstring) : bool :=
  match index with
  | [] => true
  | _ => let n := decimal (removelast index) in ((1 <=? n) && (n <=? 2147483647))%N
  end.

(** What a specifier stands for; [None] if it is rejected before anything is printed. Specifiers that take an argument are rejected as [bad] says.
    For the format of io/DefaultConsoleOutput.java:73. *)
Definition spec_piece (linesep : jstring) (bad : spec -> bool) (sp : spec) : option piece :=
  match sp_time sp, sp_precision sp with
  | [], [] =>
      if (sp_conv sp =? 37)%N then
        if good_index (sp_index sp) then
          match percent_text (sp_flags sp) (sp_width sp) with Some t => Some (PText t) | None => None end
        else None
      else if (sp_conv sp =? 110)%N then
        if good_index (sp_index sp) then
          match sp_flags sp, sp_width sp with [], [] => Some (PText linesep) | _, _ => None end
        else None
      else
        match sp_index sp, sp_flags sp, sp_width sp with
        | [], [], [] => if (sp_conv sp =? 115)%N then Some (PArg true) else if bad sp then None else Some (PArg false)
        | _, _, _ => if bad sp then None else Some (PArg false)
        end
  | _, _ => if ((sp_conv sp =? 37) || (sp_conv sp =? 110))%N || bad sp then None else Some (PArg false)
  end.

(** [Formatter.parse]: the pieces of a format string; the first [skip] characters belong to a specifier already parsed. For the format of
    io/DefaultConsoleOutput.java:73. *)
Fixpoint parse_format (linesep : jstring) (bad : spec -> bool) (skip : nat) (s : jstring) : option (list piece) :=
  match s with
  | [] => Some []
  | c :: s' =>
      match skip with
      | S k => parse_format linesep bad k s'
      | O =>
          if (c =? c_percent)%N then
            match parse_spec s' with
            | None => None
            | Some sp =>
                match spec_piece linesep bad sp with
                | None => None
                | Some p =>
                    match parse_format linesep bad (spec_length sp) s' with Some l => Some (p :: l) | None => None end
                end
            end
          else match parse_format linesep bad 0 s' with Some l => Some (PChar c :: l) | None => None end
      end
  end.

(** Text printed, and whether all pieces were printed (otherwise MissingFormatArgumentException). Simplification: with arguments left, only %s is
    modelled; all format strings the code uses with arguments contain nothing else. The printf of io/DefaultConsoleOutput.java:73. *)
Fixpoint print_pieces (args : list jstring) (l : list piece) : jstring * bool :=
  match l with
  | [] => ([], true)
  | PChar c :: l' => let (t, ok) := print_pieces args l' in (c :: t, ok)
  | PText s :: l' => let (t, ok) := print_pieces args l' in (s ++ t, ok)
  | PArg plain :: l' =>
      match args with
      | a :: args' => if plain then let (t, ok) := print_pieces args' l' in (a ++ t, ok) else ([], false)
      | [] => ([], false)
      end
  end.

(** ** State and environment of the command *)

(** Exceptions caught by picocli. They go to exception/DefaultExecutionExceptionHandler.java:22-28. *)
Inductive cli_exn :=
| XLibrary (e : exn)                          (* thrown by the library or the mapper *)
| XOptions (p : path) (msg : jstring)         (* exception/ExternalOptionsException.java *)
| XViolations (x : xoptions)                  (* jakarta.validation.ConstraintViolationException *)
| XNullDocument                               (* IllegalArgumentException of Validator.validate(null) *)
| XFormat (fmt : jstring).                    (* java.util.IllegalFormatException *)

(** What the command line does that can be observed: PrettyPrintCommand.java:57, 66; options/reader/SimpleExternalOptionsReader.java:35, 38, 41,
    56. *)
Inductive cli_event :=
| CExists (p : path) | CIsFile (p : path) | CCanRead (p : path)    (* java.io.File *)
| CLoad (p : path)                                                 (* the file is opened and parsed *)
| CPrint (p : path).                                               (* prettyPrint is called *)

(** Events newest first; the library's own history; the texts written so far. The texts are those of io/DefaultConsoleOutput.java:73. *)
Record cstate := mkCState { cs_events : list cli_event; cs_hist : hist; cs_out : jstring; cs_err : jstring }.

(** What reading an options file gives: an exception, a null document, a document. options/reader/SimpleExternalOptionsReader.java:56. *)
Inductive loaded := LoadFails | LoadNull | LoadDoc (x : xoptions).

(** The outside world: every answer may depend on everything that happened before. It answers PrettyPrintCommand.java:57, 66 and
    options/reader/SimpleExternalOptionsReader.java:33-56, ExternalOptionsReader.java:24. *)
Record cworld := mkCWorld {
  cw_world : world;
  cw_exists : cstate -> path -> bool;
  cw_is_file : cstate -> path -> bool;
  cw_can_read : cstate -> path -> bool;
  cw_load : cstate -> path -> loaded;
  cw_home : path;                              (* System.getProperty("user.home") *)
  cw_exe_dir : path;                           (* folder of the executable; the code never asks for it *)
  cw_linesep : jstring;                        (* System.lineSeparator() *)
  cw_bad_spec : spec -> bool;                  (* format specifiers rejected when parsing *)
  cw_message : cli_exn -> jstring;             (* Exception.getMessage(), where the library does not write the message *)
  cw_violations : xoptions -> jstring;         (* exception/DefaultExecutionExceptionHandler.java:38-40 *)
  cw_stack_trace : cli_exn -> jstring          (* what picocli prints when the handler itself fails *)
}.

(** How a piece of the command ends, such as PrettyPrintCommand.java:52-70. *)
Inductive cres (A : Type) := COk (a : A) | CThrow (e : cli_exn).
Arguments COk {A} a.
Arguments CThrow {A} e.

(** A piece of the command, such as PrettyPrintCommand.java:52-70. *)
Definition C (A : Type) := cworld -> cstate -> cres A * cstate.

(** A Java return, such as PrettyPrintCommand.java:69. *)
Definition cret {A} (a : A) : C A := fun _ s => (COk a, s).

(** A Java throw, such as options/reader/SimpleExternalOptionsReader.java:39. *)
Definition cthrow {A} (e : cli_exn) : C A := fun _ s => (CThrow e, s).

(** Java sequencing of statements, such as PrettyPrintCommand.java:62-67. *)
Definition cbind {A B} (m : C A) (f : A -> C B) : C B :=
  fun w s => match m w s with (COk a, s') => f a w s' | (CThrow e, s') => (CThrow e, s') end.
Notation "x <~ m ; k" := (cbind m (fun x => k)) (at level 61, m at next level, right associativity).
Notation "m ~; k" := (cbind m (fun _ => k)) (at level 61, right associativity).

(** Helper: an event of PrettyPrintCommand.java:57, 66 or options/reader/SimpleExternalOptionsReader.java:35-56 is noted. *)
Definition log (e : cli_event) (s : cstate) : cstate := mkCState (e :: cs_events s) (cs_hist s) (cs_out s) (cs_err s).

(** Writing to System.out, io/DefaultConsoleOutput.java:73. *)
Definition write_out (t : jstring) (s : cstate) : cstate := mkCState (cs_events s) (cs_hist s) (cs_out s ++ t) (cs_err s).

(** Writing to System.err, io/DefaultConsoleOutput.java:73. *)
Definition write_err (t : jstring) (s : cstate) : cstate := mkCState (cs_events s) (cs_hist s) (cs_out s) (cs_err s ++ t).

(** A question about a file: PrettyPrintCommand.java:57, options/reader/SimpleExternalOptionsReader.java:35, 38, 41. *)
Definition ask (f : cworld -> cstate -> path -> bool) (e : path -> cli_event) (p : path) : C bool :=
  fun w s => (COk (f w s p), log (e p) s).
(** [File.exists()], [File.isFile()], [File.canRead()]. PrettyPrintCommand.java:57, options/reader/SimpleExternalOptionsReader.java:35. *)
Definition file_exists : path -> C bool := ask cw_exists CExists.

(** options/reader/SimpleExternalOptionsReader.java:38. *)
Definition is_file : path -> C bool := ask cw_is_file CIsFile.

(** options/reader/SimpleExternalOptionsReader.java:41. *)
Definition can_read : path -> C bool := ask cw_can_read CCanRead.

(** Call library code. Such as PrettyPrintCommand.java:66, options/mapper/DefaultExternalOptionsMapper.java:94-98. *)
Definition library {A} (m : M A) : C A :=
  fun w s => let (r, h) := m (cw_world w) (cs_hist s) in
             (match r with Ok a => COk a | Throw e => CThrow (XLibrary e) end, mkCState (cs_events s) h (cs_out s) (cs_err s)).

(** Helper: reads what does not change in a run (PrettyPrintCommand.java:62, 80). *)
Definition get_world : C cworld := fun w s => (COk w, s).

(** [path.toAbsolutePath().normalize()]. PrettyPrintCommand.java:62, 80, options/reader/SimpleExternalOptionsReader.java:33. *)
Definition absolute (p : path) : C path := w <~ get_world; cret (normalize (to_absolute (jv_cwd (w_jvm (cw_world w))) p)).

(** ** io/DefaultConsoleOutput.java *)

(** io/DefaultConsoleOutput.java:14-15. *)
Inductive stream := StdOut | StdErr.

(** io/DefaultConsoleOutput.java:72-74. *)
Definition printfln (dest : stream) (msg : jstring) (args : list jstring) : C unit :=
  fun w s =>
    let fmt := msg ++ cw_linesep w in
    match parse_format (cw_linesep w) (cw_bad_spec w) 0 fmt with
    | None => (CThrow (XFormat fmt), s)
    | Some l =>
        let (t, ok) := print_pieces args l in
        (if ok then COk tt else CThrow (XFormat fmt), match dest with StdOut => write_out t s | StdErr => write_err t s end)
    end.

(** io/DefaultConsoleOutput.java:45-47, 64-66. *)
Definition print (msg : jstring) (args : list jstring) : C unit := printfln StdOut msg args.
(** io/DefaultConsoleOutput.java:50-55. *)
Definition print_debug (debug : bool) (msg : jstring) (args : list jstring) : C unit :=
  if debug then printfln StdOut (js "[DEBUG] " ++ msg) args else cret tt.
(** io/DefaultConsoleOutput.java:58-60, 68-70. *)
Definition print_error (msg : jstring) (args : list jstring) : C unit := printfln StdErr (js "[ERROR] " ++ msg) args.

(** ** options/reader *)

(** The [catch] of options/reader/SimpleExternalOptionsReader.java:62-64. *)
Definition reading {A} (p : path) (m : C A) : C A :=
  fun w s => match m w s with
             | (CThrow _, s') => (CThrow (XOptions p (js "IO error or malformed options file")), s')
             | r => r
             end.

(** options/reader/SimpleExternalOptionsReader.java:53-65. *)
Definition load (debug : bool) (p : path) : C (option xoptions) :=
  fun w s =>
    let s' := log (CLoad p) s in
    match cw_load w s p with
    | LoadFails => (CThrow (XOptions p (js "IO error or malformed options file")), s')
    | LoadNull =>
        reading p (print_debug debug (js "%s") [to_text_block (cw_linesep w) VNull] ~; cret None) w s'
    | LoadDoc x =>
        reading p (print_debug debug (js "%s") [to_text_block (cw_linesep w) (v_options x)] ~; cret (Some x)) w s'
    end.

(** options/reader/SimpleExternalOptionsReader.java:67-79. *)
Definition validate (x : option xoptions) : C xoptions :=
  match x with
  | None => cthrow XNullDocument
  | Some x => if valid_options x then cret x else cthrow (XViolations x)
  end.

(** options/reader/SimpleExternalOptionsReader.java:27-51. The path is never null here (29-31). *)
Definition read_simple (debug : bool) (p : path) : C (option xoptions) :=
  p <~ absolute p;
  exists_ <~ file_exists p;
  if negb exists_ then cret None
  else
    file <~ is_file p;
    if negb file then cthrow (XOptions p (js "Options file is actually not a file"))
    else
      readable <~ can_read p;
      if negb readable then cthrow (XOptions p (js "Options file exist but is not readable"))
      else
        print_debug debug (js "Options file found: %s") [path_str p] ~;
        x <~ load debug p;
        x <~ validate x;
        print_debug debug (js "Options file is valid") [] ~;
        cret (Some x).

(** options/reader/FallbackExternalOptionsReader.java:42-53. *)
Fixpoint read_fallback (debug : bool) (l : list path) : C (option xoptions) :=
  match l with
  | [] => print_debug debug (js "No options file provided/found") [] ~; cret None
  | p :: l' =>
      x <~ read_simple debug p;
      match x with
      | Some x => cret (Some x)
      | None => print_debug debug (js "Options file does not exist: " ++ path_str p) [] ~; read_fallback debug l'
      end
  end.

(** options/reader/ExternalOptionsReader.java:18. *)
Definition options_name : jstring := js ".prettyprint".

(** options/reader/ExternalOptionsReader.java:21-25. *)
Definition fallback_paths (home target : path) : list path :=
  [resolve_name target options_name; resolve_name (path_of (js ".")) options_name; resolve_name home options_name].

(** options/reader/FallbackExternalOptionsReader.java:28-39. *)
Definition read_options (debug : bool) (target : path) (explicit : option path) : C (option xoptions) :=
  match explicit with
  | Some p =>
      x <~ read_simple debug p;
      match x with
      | None => cthrow (XOptions p (js "Options file does not exist"))
      | Some x => cret (Some x)
      end
  | None =>
      print_debug debug (js "No options file provided, looking for fallback options files...") [] ~;
      w <~ get_world;
      read_fallback debug (fallback_paths (cw_home w) target)
  end.

(** options/DefaultOptionsLoader.java:24-30. *)
Definition load_options (debug : bool) (target : path) (explicit : option path) : C options :=
  x <~ read_options debug target explicit;
  match x with
  | None => cret default_options
  | Some x => library (map_to_options target x)
  end.

(** ** PrettyPrintCommand.java *)

(** The arguments as picocli delivers them. PrettyPrintCommand.java:38-47. *)
Record cli_args := mkArgs { a_target : option path; a_options : option path; a_debug : bool }.

(** PrettyPrintCommand.java:72-83. *)
Definition detect_target (a : cli_args) : C path :=
  p <~ match a_target a with
       | Some p => cret p
       | None => print_debug (a_debug a) (js "No target provided: use current directory") [] ~; cret (path_of (js "."))
       end;
  p <~ absolute p;
  print_debug (a_debug a) (js "Target path: %s") [path_str p] ~;
  cret p.

(** PrettyPrintCommand.java:65-66. *)
Definition call_printer (o : options) (p : path) : C jstring :=
  fun w s => library (pretty_print o p) w (log (CPrint p) s).

(** PrettyPrintCommand.java:52-70. *)
Definition command (a : cli_args) : C Z :=
  target <~ detect_target a;
  exists_ <~ file_exists target;
  if negb exists_ then
    print_error (js "Path not found: %s") [path_str target] ~; cret 1%Z
  else
    explicit <~ match a_options a with None => cret None | Some p => p' <~ absolute p; cret (Some p') end;
    o <~ load_options (a_debug a) target explicit;
    result <~ call_printer o target;
    print result [] ~;
    cret 0%Z.

(** [getMessage()] of an exception that reaches exception/DefaultExecutionExceptionHandler.java:46. *)
Definition get_message (w : cworld) (e : cli_exn) : jstring :=
  match e with
  | XLibrary x => match message x with Some m => m | None => cw_message w e end
  | _ => cw_message w e
  end.

(** exception/DefaultExecutionExceptionHandler.java:22-48. *)
Definition handle_exception (e : cli_exn) : C Z :=
  w <~ get_world;
  print_error
    (match e with
     | XOptions p msg => msg ++ js ": " ++ path_str p
     | XViolations x => js "Invalid options file:" ++ cw_linesep w ++ cw_violations w x
     | _ => js "Error while pretty printing: " ++ get_message w e
     end) [] ~;
  cret 1%Z.

(** FileTreePrettyPrinterCommandLine.java:26-28 and picocli's [CommandLine.execute]: exceptions of the command go to the handler; if the
    handler throws, the stack trace is printed and the exit code is 1. *)
Definition run_cli (a : cli_args) (w : cworld) (s : cstate) : Z * cstate :=
  match command a w s with
  | (COk code, s') => (code, s')
  | (CThrow e, s') =>
      match handle_exception e w s' with
      | (COk code, s'') => (code, s'')
      | (CThrow e', s'') => (1%Z, write_err (cw_stack_trace w e') s'')
      end
  end.

(** The state when main starts, FileTreePrettyPrinterCommandLine.java:32-41. *)
Definition cli_start : cstate := mkCState [] [] [] [].
