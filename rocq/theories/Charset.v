(** * The bytes that arrive on standard output

    io/DefaultConsoleOutput.java:72-74 writes texts to a [java.io.PrintStream] (io/ConsoleOutput.java:22: System.out), which encodes them in the
    charset of the stream. The encoder keeps its state between texts, so that what arrives depends on the concatenated text ([cs_out] of Cli.v)
    only. Not repository code: [java.io.OutputStreamWriter] and [java.nio.charset.CharsetEncoder] of the JDK. *)

From Verif Require Export Cli.

(** A charset without shift states: the bytes of a code point, [None] if it has none. Simplification: no byte order marks (UTF-16). Of the stream
    of io/DefaultConsoleOutput.java:73. *)
Definition charset := N -> option (list N).

(** The code points of a text; [None] for a surrogate that is not part of a pair (malformed input, of length 1). Texts of
    io/DefaultConsoleOutput.java:73. *)
Fixpoint code_points (s : jstring) : list (option N) :=
  match s with
  | [] => []
  | c :: s' =>
      if is_high c then
        match s' with
        | d :: s'' => if is_low d then Some (to_code_point c d) :: code_points s'' else None :: code_points s'
        | [] => [None]
        end
      else if is_low c then None :: code_points s'
      else Some c :: code_points s'
  end.

(** CodingErrorAction.REPLACE: malformed and unmappable input is replaced by "?". Within io/DefaultConsoleOutput.java:73. *)
Definition encode_point (cs : charset) (p : option N) : list N :=
  match p with
  | Some c => match cs c with Some b => b | None => [63%N] end
  | None => [63%N]
  end.

(** What arrives when the text [s] has been written and flushed: a high surrogate at the end stays in the encoder. Written at
    io/DefaultConsoleOutput.java:73. *)
Definition encode (cs : charset) (s : jstring) : list N :=
  flat_map (encode_point cs) (code_points (if is_high (last s 0%N) then removelast s else s)).

(** Charsets of [java.nio.charset.StandardCharsets]. A charset the stream of io/DefaultConsoleOutput.java:73 may have. *)
Definition US_ASCII : charset := fun c => if (c <? 128)%N then Some [c] else None.

(** A charset the stream of io/DefaultConsoleOutput.java:73 may have. *)
Definition ISO_8859_1 : charset := fun c => if (c <? 256)%N then Some [c] else None.

(** A charset the stream of io/DefaultConsoleOutput.java:73 may have. *)
Definition UTF_8 : charset := fun c =>
  if (c <? 128)%N then Some [c]
  else if (c <? 2048)%N then Some [192 + c / 64; 128 + c mod 64]%N
  else if (c <? 65536)%N then
    if is_high c || is_low c then None
    else Some [224 + c / 4096; 128 + c / 64 mod 64; 128 + c mod 64]%N
  else if (c <? 1114112)%N then Some [240 + c / 262144; 128 + c / 4096 mod 64; 128 + c / 64 mod 64; 128 + c mod 64]%N
  else None.
