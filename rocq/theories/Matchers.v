(** * Model of options/PathMatchers.java *)

From Verif Require Export World.

(** A [java.nio.file.PathMatcher]: an arbitrary effectful test. As in all functions of PathMatchers.java:62-700. *)
Definition matcher := path -> M bool.

(** PathMatchers.java:62-65 (null checks of Java arguments are not modelled). *)
Definition pm_not (m : matcher) : matcher := fun p => b <- m p; ret (negb b).

(** PathMatchers.java:229-235. *)
Fixpoint pm_all (ms : list matcher) (p : path) : M bool :=
  match ms with
  | [] => ret true
  | m :: ms' => b <- m p; if negb b then ret false else pm_all ms' p
  end.

(** PathMatchers.java:237-243. *)
Fixpoint pm_any (ms : list matcher) (p : path) : M bool :=
  match ms with
  | [] => ret false
  | m :: ms' => b <- m p; if b then ret true else pm_any ms' p
  end.

(** PathMatchers.java:245-251. *)
Fixpoint pm_none (ms : list matcher) (p : path) : M bool :=
  match ms with
  | [] => ret true
  | m :: ms' => b <- m p; if b then ret false else pm_none ms' p
  end.

(** PathMatchers.java:206-210. *)
Inductive mode := ALL | ANY | NONE.

(** PathMatchers.java:212-227. Elements are [option matcher], [None] being a Java null. *)
Fixpoint check_non_null (ms : list (option matcher)) : option (list matcher) :=
  match ms with
  | [] => Some []
  | None :: _ => None
  | Some m :: ms' => match check_non_null ms' with Some l => Some (m :: l) | None => None end
  end.

(** PathMatchers.java:212-227. *)
Definition combine_matchers (ms : list (option matcher)) (md : mode) : res matcher :=
  match check_non_null ms with
  | None => Throw ExNullPointer
  | Some [] => Throw ExIllegalArgument
  | Some l => Ok (match md with
                  | ALL => fun p => pm_all l p
                  | ANY => fun p => pm_any l p
                  | NONE => fun p => pm_none l p
                  end)
  end.

(** PathMatchers.java:106-108, 191-193, 148-150. The varargs versions (89-91, 174-176, 131-133) first
    copy their arguments into a list (195-204) and are the special case of a non-empty list. *)
Definition pm_all_of (ms : list (option matcher)) : res matcher := combine_matchers ms ALL.

(** PathMatchers.java:174-176, 191-193. *)
Definition pm_any_of (ms : list (option matcher)) : res matcher := combine_matchers ms ANY.

(** PathMatchers.java:131-133, 148-150. *)
Definition pm_none_of (ms : list (option matcher)) : res matcher := combine_matchers ms NONE.

(** A client's mutable collection of matchers and the matchers combined from it so far, oldest first:
    [combineMatchers] copies the elements into a list of its own (PathMatchers.java:214-218). *)
Record coll_session := mkCollSession { cs_coll : list (option matcher); cs_made : list (res matcher) }.

(** What a client does: change the collection in any way, or call allOf/anyOf/noneOf on it. PathMatchers.java:106-108, 148-150, 191-193. *)
Inductive coll_cmd := CChange (l : list (option matcher)) | CCombine (md : mode).

(** PathMatchers.java:106-108, 148-150, 191-193 for [CCombine]. *)
Definition coll_exec (s : coll_session) (c : coll_cmd) : coll_session :=
  match c with
  | CChange l => mkCollSession l (cs_made s)
  | CCombine md => mkCollSession (cs_coll s) (cs_made s ++ [combine_matchers (cs_coll s) md])
  end.

(** A sequence of such calls (PathMatchers.java:106-108, 148-150, 191-193). *)
Definition coll_run (s : coll_session) (cmds : list coll_cmd) : coll_session := fold_left coll_exec cmds s.

(** PathMatchers.java:272-277. *)
Definition pm_if_then_else (i t e : matcher) : matcher :=
  fun p => b <- i p; if b then t p else e p.

(** [path.normalize().toAbsolutePath()] as written at PathMatchers.java:366, 384, 386. *)
Definition clean_path (p : path) : M path := j <- get_jvm; ret (to_absolute (jv_cwd j) (normalize p)).

(** PathMatchers.java:364-367. *)
Definition pm_absolute_path (m : matcher) : matcher := fun p => q <- clean_path p; m q.

(** PathMatchers.java:381-393. The reference is cleaned when the matcher is created; the roots of two
    absolute Unix paths are always equal, so the check of line 387 never fails here. *)
Definition pm_relative_path (ref : path) (m : matcher) : M matcher :=
  cref <- clean_path ref;
  ret (fun p => cp <- clean_path p; m (relativize cref cp)).

(** FileSystem.getPathMatcher("glob:" + glob). PathMatchers.java:309, 346, 489. *)
Definition glob_matcher (glob : jstring) : M matcher :=
  j <- get_jvm;
  match jv_glob j glob with
  | None => throw (ExPatternSyntax glob)
  | Some f => ret (fun p => ret (f p))
  end.

(** The glob of PathMatchers.java:304, 341, 484. *)
Definition s_star : jstring := [42%N].

(** PathMatchers.java:300-311. *)
Definition pm_absolute_path_glob (glob : jstring) : M matcher :=
  if jeqb glob s_star then ret (fun _ => ret true)
  else m <- glob_matcher glob; ret (pm_absolute_path m).

(** PathMatchers.java:336-348. *)
Definition pm_relative_path_glob (ref : path) (glob : jstring) : M matcher :=
  if jeqb glob s_star then ret (fun _ => ret true)
  else m <- glob_matcher glob; pm_relative_path ref m.

(** PathMatchers.java:397-399 combined with the tests that follow it: apply [f] to the string of the
    file name, false if there is none. *)
Definition pm_name_test (f : jstring -> bool) : matcher :=
  fun p => ret (match get_file_name p with None => false | Some n => f (path_str n) end).

(** PathMatchers.java:417-420. *)
Definition pm_name (name : jstring) : matcher := pm_name_test (fun s => jeqb s name).
(** PathMatchers.java:438-441. *)
Definition pm_name_ignore_case (name : jstring) : matcher :=
  fun p => j <- get_jvm; pm_name_test (fun s => jeqb_ci (jv_fold j) s name) p.
(** PathMatchers.java:462-465; the compiled regular expression is an arbitrary predicate. *)
Definition pm_name_matching (pattern : jstring -> bool) : matcher := pm_name_test pattern.
(** PathMatchers.java:480-491. *)
Definition pm_name_glob (glob : jstring) : M matcher :=
  if jeqb glob s_star then ret (fun _ => ret true)
  else m <- glob_matcher glob;
       ret (fun p => match get_file_name p with None => ret false | Some n => m n end).
(** PathMatchers.java:502-505. *)
Definition pm_name_starting_with (prefix : jstring) : matcher := pm_name_test (jprefixb prefix).
(** PathMatchers.java:516-519. *)
Definition pm_name_ending_with (suffix : jstring) : matcher := pm_name_test (jsuffixb suffix).
(** PathMatchers.java:538-541. *)
Definition pm_extension (ext : jstring) : matcher := pm_name_ending_with (c_dot :: ext).

(** PathMatchers.java:554-556. *)
Definition pm_is_directory : matcher := has_kind KDir.
(** PathMatchers.java:572-574. *)
Definition pm_is_file : matcher := pm_not pm_is_directory.
(** PathMatchers.java:585-587. *)
Definition pm_is_regular_file : matcher := has_kind KReg.
(** PathMatchers.java:596-598. *)
Definition pm_is_symbolic_link : matcher := has_kind KLink.

(** PathMatchers.java:610-614. *)
Definition pm_direct_parent (m : matcher) : matcher :=
  fun p => match get_parent p with None => ret false | Some q => m q end.

(** PathMatchers.java:625-638. The fuel is the number of name elements, an upper bound on the number
    of ancestors. *)
Fixpoint ancestor_loop (fuel : nat) (m : matcher) (parent : option path) : M bool :=
  match parent with
  | None => ret false
  | Some q =>
      match fuel with
      | O => throw ExFuel
      | S fuel' => b <- m q; if b then ret true else ancestor_loop fuel' m (get_parent q)
      end
  end.

(** PathMatchers.java:625-638. *)
Definition pm_any_ancestor (m : matcher) : matcher :=
  fun p => ancestor_loop (length (p_names p)) m (get_parent p).

(** [Files.walk(path, depth)] consumed by a short-circuiting operation: JDK FileTreeWalker (NOFOLLOW). [walk n skip visit p] visits [p] (unless
    [skip]: the stream's [skip(1)] at the root), then what lies below it down to [n] levels; [visit] answers whether to stop; the result says whether
    it stopped. The attributes of [p] are read and, if needed, its stream opened before [p] is handed to [visit]; streams are closed when exhausted
    and when the consumer stops or fails (then failures of close are ignored). What fails at the root before any element exists is thrown by
    [Files.walk] itself and wrapped by the library; later failures are wrapped by the JDK's iterator. PathMatchers.java:692-699. *)
Fixpoint walk (n : nat) (skip : bool) (visit : path -> M bool) (p : path) {struct n} : M bool :=
  let visit_p := if skip then ret false else visit p in
  k <- lstat p;
  match k with
  | None => throw (ExUncheckedIO (if skip then WalkStart else WalkNext) p)
  | Some k =>
      match n with
      | O => visit_p
      | S n' =>
          if kind_eqb k KDir then
            o <- open_dir p;
            match o with
            | None => throw (ExUncheckedIO (if skip then WalkStart else WalkNext) p)
            | Some dl =>
                fun w h =>
                  let body :=
                    b <- visit_p;
                    if b then ret true
                    else (fix each (l : list jstring) : M bool :=
                            match l with
                            | [] => ret false
                            | x :: l' =>
                                s <- walk n' false visit (resolve_name p x);
                                if s then ret true else each l'
                            end) (dl_names dl)
                  in
                  match body w h with
                  | (Ok true, h') => let (_, h'') := close_dir p w h' in (Ok true, h'')
                  | (Ok false, h') =>
                      if dl_fail dl
                      then let (_, h'') := close_dir p w (EvIterFail p :: h') in (Throw (ExUncheckedIO WalkNext p), h'')
                      else match close_dir p w h' with
                           | (Ok true, h'') => (Ok false, h'')
                           | (_, h'') => (Throw (ExUncheckedIO WalkNext p), h'')
                           end
                  | (Throw e, h') => let (_, h'') := close_dir p w h' in (Throw e, h'')
                  end
            end
          else visit_p
      end
  end.

(** PathMatchers.java:688-700. *)
Definition test_descendants (p : path) (depth : Z) (m : matcher) (inclusion : path -> bool) : M bool :=
  d <- pm_is_directory p;
  if negb d then ret false
  else walk (Z.to_nat depth) true (fun q => if inclusion q then m q else ret false) p.

(** Integer.MAX_VALUE, PathMatchers.java:669. *)
Definition int_max_value : Z := 2147483647%Z.

(** PathMatchers.java:650-653. *)
Definition pm_any_direct_child (m : matcher) : matcher := fun p => test_descendants p 1 m (fun _ => true).
(** PathMatchers.java:667-670. *)
Definition pm_any_descendant (m : matcher) : matcher :=
  fun p => test_descendants p int_max_value m (fun _ => true).
(** PathMatchers.java:683-686. *)
Definition pm_sibling (m : matcher) : matcher :=
  fun p => match get_parent p with
           | None => ret false
           | Some q => test_descendants q 1 m (fun s => negb (path_eqb s p))
           end.
