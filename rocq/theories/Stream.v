(** * Writing to a device that may fail

    io/DefaultConsoleOutput.java:72-74 writes to the [java.io.PrintStream] of io/ConsoleOutput.java:22 (System.out) and does not call [checkError].
    Not repository code: [java.io.PrintStream] (with automatic flushing, as System.out is), [java.io.BufferedOutputStream] and
    [java.io.FileOutputStream] of the JDK. The encoder ([encode], Charset.v) hands over the bytes in pieces. *)

From Verif Require Export Charset.

(** What the device does: how many of the next [n] bytes it takes, in the [k]-th attempt to write, when [arrived] has arrived. If it takes fewer than
    [n], the attempt fails. (A full disk, a closed pipe; a pipe that is full for the moment.) Asked at io/DefaultConsoleOutput.java:73. *)
Definition device := nat -> list N -> nat -> nat.

(** The stream of io/DefaultConsoleOutput.java:73: what has arrived, the number of attempts, the bytes in the buffer and the field [trouble], which
    [checkError] tells. *)
Record pstream := mkPStream { ps_arrived : list N; ps_attempts : nat; ps_buffer : list N; ps_trouble : bool }.

(** The stream when the program starts (io/ConsoleOutput.java:22). *)
Definition ps_start : pstream := mkPStream [] 0 [] false.

(** FileOutputStream.write, within io/DefaultConsoleOutput.java:73; false if it throws. *)
Definition device_write (dev : device) (b : list N) (s : pstream) : pstream * bool :=
  let k := Nat.min (dev (ps_attempts s) (ps_arrived s) (length b)) (length b) in
  (mkPStream (ps_arrived s ++ firstn k b) (S (ps_attempts s)) (ps_buffer s) (ps_trouble s), k =? length b).

(** BufferedOutputStream.flushBuffer, within io/DefaultConsoleOutput.java:73: the buffer keeps its bytes if the write throws. *)
Definition flush_buffer (dev : device) (s : pstream) : pstream * bool :=
  match ps_buffer s with
  | [] => (s, true)
  | b => match device_write dev b s with
         | (s', true) => (mkPStream (ps_arrived s') (ps_attempts s') [] (ps_trouble s'), true)
         | (s', false) => (s', false)
         end
  end.

(** BufferedOutputStream.write(byte[], int, int), within io/DefaultConsoleOutput.java:73; [size] is the size of the buffer. *)
Definition buffer_write (dev : device) (size : nat) (b : list N) (s : pstream) : pstream * bool :=
  let add s := mkPStream (ps_arrived s) (ps_attempts s) (ps_buffer s ++ b) (ps_trouble s) in
  if size <=? length b then
    match flush_buffer dev s with
    | (s', true) => device_write dev b s'
    | (s', false) => (s', false)
    end
  else if size - length (ps_buffer s) <? length b then
    match flush_buffer dev s with
    | (s', true) => (add s', true)
    | (s', false) => (s', false)
    end
  else (add s, true).

(** PrintStream.write(byte[], int, int), within io/DefaultConsoleOutput.java:73: writes and flushes; an IOException is caught and noted in [trouble]. *)
Definition print_bytes (dev : device) (size : nat) (s : pstream) (b : list N) : pstream :=
  let noted s := mkPStream (ps_arrived s) (ps_attempts s) (ps_buffer s) true in
  match buffer_write dev size b s with
  | (s', true) =>
      match flush_buffer dev s' with
      | (s'', true) => s''
      | (s'', false) => noted s''
      end
  | (s', false) => noted s'
  end.

(** The pieces of a whole run, one after the other (io/DefaultConsoleOutput.java:73). *)
Definition print_all (dev : device) (size : nat) (pieces : list (list N)) : pstream := fold_left (print_bytes dev size) pieces ps_start.
