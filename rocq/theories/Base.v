(** * Java strings and the String operations used by the library.

    Not a model of repository code but of the JDK operations it calls.
    A [jstring] is the list of UTF-16 code units of a [java.lang.String]. *)

From Coq Require Export String Ascii.
From Coq Require Export List Bool Arith NArith ZArith Lia.
Export ListNotations.
Set Implicit Arguments.

(** A Java char: the elements of the names and texts of PathMatchers.java:419, DefaultFileFormatter.java:18 and so on. *)
Notation jchar := N (only parsing).

(** A Java String, as in PathMatchers.java:419 and DefaultFileFormatter.java:18-24: its UTF-16 code units. *)
Notation jstring := (list N) (only parsing).

(** ASCII literals (used for literals of the Java sources). As in DefaultFileFormatter.java:18, PathMatchers.java:304. *)
Definition js (s : string) : jstring := map N_of_ascii (list_ascii_of_string s).

(** The separator of names in paths, DefaultFileFormatter.java:18. *)
Definition c_slash : jchar := 47%N.

(** The separator of PathSorts.java:94-95, PathExtensionEmojiFunction.java:44. *)
Definition c_dot : jchar := 46%N.

(** The space of TreeFormats.java:8, 13. *)
Definition c_space : jchar := 32%N.

(** The line break of DefaultTreeEntryRenderer.java:69, 79. *)
Definition c_nl : jchar := 10%N.

(** The sign that starts a conversion in a format (RecordUtils.java:37, DefaultConsoleOutput.java:73). *)
Definition c_percent : jchar := 37%N.

(** [String.equals]. Called at PathMatchers.java:304, 341, 419, 484. *)
Fixpoint jeqb (a b : jstring) : bool :=
  match a, b with
  | [], [] => true
  | x :: a', y :: b' => N.eqb x y && jeqb a' b'
  | _, _ => false
  end.

(** [String.compareTo] (difference of the first differing code units, else of the lengths). Called by Comparator.comparing at
    PathSorts.java:16-20. *)
Fixpoint jcompare (a b : jstring) : Z :=
  match a, b with
  | [], [] => 0%Z
  | [], _ :: _ => (- Z.of_nat (length b))%Z
  | _ :: _, [] => Z.of_nat (length a)
  | x :: a', y :: b' =>
      if N.eqb x y then jcompare a' b' else (Z.of_N x - Z.of_N y)%Z
  end.

(** Character.isHighSurrogate, Character.isLowSurrogate. Called when io/DefaultConsoleOutput.java:73 writes, and within the comparisons of
    PathSorts.java:99, 112. *)
Definition is_high (c : jchar) : bool := ((55296 <=? c) && (c <? 56320))%N.

(** Character.isLowSurrogate, called when io/DefaultConsoleOutput.java:73 writes, and within the comparisons of PathSorts.java:99, 112. *)
Definition is_low (c : jchar) : bool := ((56320 <=? c) && (c <? 57344))%N.

(** Character.toCodePoint, called when io/DefaultConsoleOutput.java:73 writes, and within the comparisons of PathSorts.java:99, 112. *)
Definition to_code_point (high low : jchar) : N := (65536 + (high - 55296) * 1024 + (low - 56320))%N.

(** What a code unit outside of a pair counts as: itself. A number that is no code unit (no Java string has one) is moved beyond the code points.
    Within PathSorts.java:99, 112, PathMatchers.java:309, 346, 440, 489. *)
Definition lone (c : jchar) : N := if (c <? 65536)%N then c else (c + 1048576)%N.

(** The code points of a text (String.codePoints); a surrogate that is not part of a pair counts as a code point of its own. Within
    PathSorts.java:99, 112, PathMatchers.java:309, 346, 440, 489. *)
Fixpoint points (s : jstring) : list N :=
  match s with
  | [] => []
  | c :: s' =>
      match s' with
      | d :: s'' => if is_high c && is_low d then to_code_point c d :: points s'' else lone c :: points s'
      | [] => [lone c]
      end
  end.

(** The loop of [String.compareToIgnoreCase] over the code points of both texts, parameterised by the case folding
    [fold c = Character.toLowerCase (Character.toUpperCase c)] of code points. Simplification: of texts that differ in their lengths only, the
    difference of the lengths is counted in code points (the JDK counts code units; only its sign is used). Called at PathSorts.java:99, 112. *)
Fixpoint compare_folded (fold : N -> N) (a b : list N) : Z :=
  match a, b with
  | [], [] => 0%Z
  | [], _ :: _ => (- Z.of_nat (length b))%Z
  | _ :: _, [] => Z.of_nat (length a)
  | x :: a', y :: b' =>
      if N.eqb (fold x) (fold y) then compare_folded fold a' b'
      else (Z.of_N (fold x) - Z.of_N (fold y))%Z
  end.

(** [String.compareToIgnoreCase]. Called at PathSorts.java:99, 112. *)
Definition jcompare_ci (fold : N -> N) (a b : jstring) : Z := compare_folded fold (points a) (points b).

(** [String.equalsIgnoreCase]. Called at PathMatchers.java:440. *)
Definition jeqb_ci (fold : N -> N) (a b : jstring) : bool :=
  jeqb (map fold (points a)) (map fold (points b)).

(** [String.startsWith], [String.endsWith]. Called at PathMatchers.java:504. *)
Fixpoint jprefixb (a s : jstring) : bool :=
  match a, s with
  | [], _ => true
  | x :: a', y :: s' => N.eqb x y && jprefixb a' s'
  | _ :: _, [] => false
  end.

(** [String.endsWith], called at PathMatchers.java:518. *)
Definition jsuffixb (a s : jstring) : bool := jprefixb (rev a) (rev s).

(** All pieces of [s] between occurrences of the character [c], empty ones included. The first half of the split of PathSorts.java:94-95 and
    PathExtensionEmojiFunction.java:44. *)
Fixpoint split_on (c : jchar) (s : jstring) : list jstring :=
  match s with
  | [] => [[]]
  | x :: s' =>
      if N.eqb x c then [] :: split_on c s'
      else match split_on c s' with
           | [] => [[x]]
           | w :: ws => (x :: w) :: ws
           end
  end.

(** [String.split] drops empty pieces at the end (here: of the reversed list), PathSorts.java:94-95, PathExtensionEmojiFunction.java:44. *)
Fixpoint drop_leading_empty (l : list jstring) : list jstring :=
  match l with
  | [] :: l' => drop_leading_empty l'
  | _ => l
  end.

(** [s.split("\\.")]: no '.' gives the whole string; otherwise trailing empty pieces are removed. Called at PathSorts.java:94-95,
    PathExtensionEmojiFunction.java:44. *)
Definition jsplit_dot (s : jstring) : list jstring :=
  if existsb (N.eqb c_dot) s
  then rev (drop_leading_empty (rev (split_on c_dot s)))
  else [s].

(** [Collectors.joining(sep)] / [String.join(sep, l)]. Called at DefaultFileFormatter.java:19, RecordUtils.java:25,
    DefaultExecutionExceptionHandler.java:40. *)
Fixpoint join (sep : jstring) (l : list jstring) : jstring :=
  match l with
  | [] => []
  | [x] => x
  | x :: l' => x ++ sep ++ join sep l'
  end.

(** The test against null of SequentialEmojiFunction.java:25, LineExtensionBuilder.java:62. *)
Definition is_some {A} (o : option A) : bool := match o with Some _ => true | None => false end.
