(** * Model of the null checks of the rule builders and of the factories of options/PathMatchers.java

    Arguments are [option]s here, [None] being a Java null; Builders.v, Sorts.v, Emoji.v and Matchers.v model the same methods for
    arguments that are not null. *)

From Verif Require Export Builders Sorts Emoji.

(** ** Method bodies: statements that read and change the fields of one builder object, up to the first exception *)
(** Such as ChildLimitBuilder.java:97-101. *)
Definition body S A := S -> res A * S.

(** A statement after another one; it is not reached when the first one throws, and what that one changed stays changed. Such as
    ChildLimitBuilder.java:98-99. *)
Definition andthen {S A B} (a : body S A) (k : A -> body S B) : body S B :=
  fun s => let (r, s') := a s in match r with Ok x => k x s' | Throw e => (Throw e, s') end.

(** [Objects.requireNonNull(x)]. Such as ChildLimitBuilder.java:98, 118. *)
Definition non_null {S A} (x : option A) : body S A := fun s => (match x with Some a => Ok a | None => Throw ExNullPointer end, s).

(** A statement that changes fields. Such as ChildLimitBuilder.java:79, 99. *)
Definition change {S} (f : S -> S) : body S unit := fun s => (Ok tt, f s).

(** A call by a client that goes on after an exception: the object afterwards, and the exception. Of one of the methods of
    ChildLimitBuilder.java:78-120, LineExtensionBuilder.java:84-114, PathSortBuilder.java:97-136, DefaultEmojiMappingBuilder.java:63-115. *)
Definition attempt {S A} (b : body S A) (s : S) : S * option exn :=
  let (r, s') := b s in (s', match r with Ok _ => None | Throw e => Some e end).

(** ** ChildLimitBuilder.java *)

(** ChildLimitBuilder.java:58-120 with arguments that may be null. *)
Inductive limit_request :=
| AskLimitDefault (limit : Z)
| AskLimitRule (rule : option limit_fn)
| AskLimitMatcher (m : option matcher) (limit : Z)
| AskLimitBuild.

(** ChildLimitBuilder.java:97-101. *)
Definition limit_add_body (rule : option limit_fn) : body limit_builder unit :=
  andthen (non_null rule) (fun rule => change (fun b => limit_step b (LAdd rule))).

(** ChildLimitBuilder.java:117-120: the method for rules is called with a function that is not null. *)
Definition limit_add_matcher_body (m : option matcher) (limit : Z) : body limit_builder unit :=
  andthen (non_null m) (fun m => limit_add_body (Some (limit_rule m limit))).

(** ChildLimitBuilder.java:78-81, 97-101, 117-120 for the methods that change the object; 58-59 for [build]. *)
Definition limit_attempt (s : limit_session) (r : limit_request) : limit_session * option exn :=
  let on b := let (b', thrown) := attempt b (ls_builder s) in (mkLimitSession b' (ls_built s), thrown) in
  match r with
  | AskLimitDefault z => on (change (fun b => limit_step b (LSetDefault z)))
  | AskLimitRule rule => on (limit_add_body rule)
  | AskLimitMatcher m z => on (limit_add_matcher_body m z)
  | AskLimitBuild => (limit_exec s LBuild, None)
  end.

(** ** LineExtensionBuilder.java *)

(** LineExtensionBuilder.java:56-114 with arguments that may be null. *)
Inductive ext_request :=
| AskExtRule (rule : option ext_fn)
| AskExtMatcher (m : option matcher) (ext : option jstring)
| AskExtLineBreak (m : option matcher)
| AskExtBuild.

(** LineExtensionBuilder.java:84-88. *)
Definition ext_add_body (rule : option ext_fn) : body ext_builder unit :=
  andthen (non_null rule) (fun rule => change (fun b => ext_step b (XAdd rule))).

(** LineExtensionBuilder.java:100-103: the extension is not checked. *)
Definition ext_add_matcher_body (m : option matcher) (ext : option jstring) : body ext_builder unit :=
  andthen (non_null m) (fun m => ext_add_body (Some (ext_rule m ext))).

(** LineExtensionBuilder.java:84-88, 100-103, 112-114; 56-57 for [build]. *)
Definition ext_attempt (s : ext_session) (r : ext_request) : ext_session * option exn :=
  let on b := let (b', thrown) := attempt b (xs_builder s) in (mkExtSession b' (xs_built s), thrown) in
  match r with
  | AskExtRule rule => on (ext_add_body rule)
  | AskExtMatcher m x => on (ext_add_matcher_body m x)
  | AskExtLineBreak m => on (ext_add_matcher_body m (Some LINE_BREAK_EXTENSION))
  | AskExtBuild => (ext_exec s XBuild, None)
  end.

(** ** PathSortBuilder.java *)

(** PathSortBuilder.java:74-136 with arguments that may be null. *)
Inductive sort_request :=
| AskSortRule (order : option (path -> M Z))
| AskSortMatcher (m : option matcher) (precedence : Z)
| AskSortFirst (m : option matcher)
| AskSortLast (m : option matcher)
| AskSortBuild.

(** PathSortBuilder.java:97-101. *)
Definition sort_add_body (order : option (path -> M Z)) : body sort_builder unit :=
  andthen (non_null order) (fun order => change (fun b => sort_add b order)).

(** PathSortBuilder.java:113-116. *)
Definition sort_add_matcher_body (m : option matcher) (precedence : Z) : body sort_builder unit :=
  andthen (non_null m)
    (fun m => sort_add_body (Some (fun p => matches <- m p; ret (if matches then precedence else DEFAULT_PRECEDENCE)))).

(** PathSortBuilder.java:97-101, 113-116, 124-126, 134-136; 74-75 for [build]. *)
Definition sort_attempt (s : sort_session) (r : sort_request) : sort_session * option exn :=
  let on b := let (b', thrown) := attempt b (ss_builder s) in (mkSortSession b' (ss_built s), thrown) in
  match r with
  | AskSortRule o => on (sort_add_body o)
  | AskSortMatcher m z => on (sort_add_matcher_body m z)
  | AskSortFirst m => on (sort_add_matcher_body m HIGHEST_PRECEDENCE)
  | AskSortLast m => on (sort_add_matcher_body m LOWEST_PRECEDENCE)
  | AskSortBuild => (sort_exec s SBuild, None)
  end.

(** ** DefaultEmojiMappingBuilder.java *)

(** DefaultEmojiMappingBuilder.java:38-115 with arguments that may be null. *)
Inductive emoji_request :=
| AskDefaultDir (e : option jstring)
| AskDirName (n e : option jstring)
| AskAddDir (m : option matcher) (e : option jstring)
| AskDefaultFile (e : option jstring)
| AskFileName (n e : option jstring)
| AskFileExt (x e : option jstring)
| AskAddFile (m : option matcher) (e : option jstring)
| AskEmojiBuild.

(** A setter of two arguments: both are checked, the first one first (DefaultEmojiMappingBuilder.java:70-75, 78-83, 94-99, 102-107,
    110-115). *)
Definition emoji_pair_body {A} (x : option A) (e : option jstring) (op : A -> jstring -> emoji_op) : body emoji_builder unit :=
  andthen (non_null x) (fun x => andthen (non_null e) (fun e => change (fun b => emoji_step b (op x e)))).

(** DefaultEmojiMappingBuilder.java:64-67, 88-91. *)
Definition emoji_default_body (e : option jstring) (op : jstring -> emoji_op) : body emoji_builder unit :=
  andthen (non_null e) (fun e => change (fun b => emoji_step b (op e))).

(** DefaultEmojiMappingBuilder.java:63-115; 38-57 for [build], which may throw as well. *)
Definition emoji_attempt (lower : jstring -> jstring) (s : emoji_session) (r : emoji_request) : emoji_session * option exn :=
  let on b := let (b', thrown) := attempt b (es_builder s) in (mkEmojiSession b' (es_built s), thrown) in
  match r with
  | AskDefaultDir e => on (emoji_default_body e ESetDefaultDir)
  | AskDirName n e => on (emoji_pair_body n e ESetDirName)
  | AskAddDir m e => on (emoji_pair_body m e EAddDir)
  | AskDefaultFile e => on (emoji_default_body e ESetDefaultFile)
  | AskFileName n e => on (emoji_pair_body n e ESetFileName)
  | AskFileExt x e => on (emoji_pair_body x e ESetFileExt)
  | AskAddFile m e => on (emoji_pair_body m e EAddFile)
  | AskEmojiBuild =>
      (emoji_exec lower s EBuild, match emoji_build lower (es_builder s) with Ok _ => None | Throw e => Some e end)
  end.

(** A sequence of calls by a client that goes on after exceptions: the session afterwards, and what each call threw. Of methods of
    ChildLimitBuilder.java:58-120 and so on. *)
Fixpoint attempts {S R} (f : S -> R -> S * option exn) (s : S) (l : list R) : S * list (option exn) :=
  match l with
  | [] => (s, [])
  | r :: l' => let (s', t) := f s r in let (s'', ts) := attempts f s' l' in (s'', t :: ts)
  end.

(** ** PathMatchers.java *)

(** A call of a factory method. PathMatchers.java:62-686 with arguments that may be null. *)
Inductive wish :=
| WNot (m : option matcher)
| WOf (md : mode) (m : option matcher) (ms : option (list (option matcher)))   (* allOf, anyOf, noneOf (PathMatcher, PathMatcher...) *)
| WOfAll (md : mode) (ms : option (list (option matcher)))                      (* allOf, anyOf, noneOf (Iterable) *)
| WIf (i t e : option matcher)
| WAbsoluteGlob (g : option jstring)
| WRelativeGlob (ref : option path) (g : option jstring)
| WAbsolute (m : option matcher)
| WRelative (ref : option path) (m : option matcher)
| WName (n : option jstring)
| WNameIgnoreCase (n : option jstring)
| WNameMatching (pattern : option (jstring -> bool))
| WNameGlob (g : option jstring)
| WNameStarting (x : option jstring)
| WNameEnding (x : option jstring)
| WExtension (x : option jstring)
| WDirectory | WFile | WRegularFile | WSymbolicLink
| WParent (m : option matcher)
| WAncestor (m : option matcher)
| WChild (m : option matcher)
| WDescendant (m : option matcher)
| WSibling (m : option matcher).

(** [Objects.requireNonNull(x)]. Such as PathMatchers.java:418, 503. *)
Definition need {A} (x : option A) : M A := match x with Some a => ret a | None => throw ExNullPointer end.

(** PathMatchers.java:195-204; [matchers.length] throws when the array is null (line 197). *)
Definition build_safe_list (m : option matcher) (ms : option (list (option matcher))) : M (list (option matcher)) :=
  m <- need m;
  ms <- need ms;
  ms <- need (check_non_null ms);
  ret (map Some (m :: ms)).

(** PathMatchers.java:106-108, 148-150, 191-193, 212-227. *)
Definition combine_iterable (md : mode) (ms : option (list (option matcher))) : M matcher :=
  ms <- need ms; fun w h => (combine_matchers ms md, h).

(** PathMatchers.java:62-65, 89-91, 106-108, 131-133, 148-150, 174-176, 191-193, 272-277, 300-311, 336-348, 364-367, 381-393, 417-420, 438-441, 462-465,
    480-491, 502-505, 516-519, 538-541, 554-556, 572-574, 585-587, 596-598, 610-614, 625-638, 650-653, 667-670, 683-686. *)
Definition make (x : wish) : M matcher :=
  match x with
  | WNot m => m <- need m; ret (pm_not m)
  | WOf md m ms => l <- build_safe_list m ms; combine_iterable md (Some l)
  | WOfAll md ms => combine_iterable md ms
  | WIf i t e => i <- need i; t <- need t; e <- need e; ret (pm_if_then_else i t e)
  | WAbsoluteGlob g => g <- need g; pm_absolute_path_glob g
  | WRelativeGlob ref g => g <- need g; ref <- need ref; pm_relative_path_glob ref g
  | WAbsolute m => m <- need m; ret (pm_absolute_path m)
  | WRelative ref m => m <- need m; ref <- need ref; pm_relative_path ref m
  | WName n => n <- need n; ret (pm_name n)
  | WNameIgnoreCase n => n <- need n; ret (pm_name_ignore_case n)
  | WNameMatching f => f <- need f; ret (pm_name_matching f)
  | WNameGlob g => g <- need g; pm_name_glob g
  | WNameStarting x => x <- need x; ret (pm_name_starting_with x)
  | WNameEnding x => x <- need x; ret (pm_name_ending_with x)
  | WExtension x => x <- need x; ret (pm_extension x)
  | WDirectory => ret pm_is_directory
  | WFile => ret pm_is_file
  | WRegularFile => ret pm_is_regular_file
  | WSymbolicLink => ret pm_is_symbolic_link
  | WParent m => m <- need m; ret (pm_direct_parent m)
  | WAncestor m => m <- need m; ret (pm_any_ancestor m)
  | WChild m => m <- need m; ret (pm_any_direct_child m)
  | WDescendant m => m <- need m; ret (pm_any_descendant m)
  | WSibling m => m <- need m; ret (pm_sibling m)
  end.
