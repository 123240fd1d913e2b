(** * C145 to C147: several threads *)

From Verif Require Import SpecParts SpecThreads ThreadFacts PartProgFacts Cases ThreadCases.
From Coq Require Import Lia.
Open Scope nat_scope.

(** C145. While the file system does not change, a call that returns or throws in a thread does what it does alone: the same outcome and the same
    accesses, however many other threads there are, whatever they do and however the steps are interleaved. *)
Theorem C145_as_if_alone : forall w h0 ts ts' g i o p t r,
  unchanging w -> execution w h0 (ts, []) (ts', g) ->
  nth_error ts i = Some t -> means t (pretty_print o p) -> nth_error ts' i = Some (Done r) ->
  pretty_print o p w h0 = (r, events_of i g ++ h0).
Proof. exact thread_alone. Qed.
Print Assumptions C145_as_if_alone.

(** Every call is such a program, given programs for the functions in the options. *)
Theorem C145_calls_are_programs : forall o limit order emoji dirs files ext p,
  given_programs o limit order emoji dirs files ext -> exists t, means t (pretty_print o p).
Proof. exact programs_exist. Qed.
Print Assumptions C145_calls_are_programs.

(** With options set up from the parts the library offers, every call is such a program, as long as the user's own parts ([u]) are. *)
Theorem C145_library_parts : forall w u lower l o err p,
  (forall m, own_matcher u m -> exists t : path -> prog bool, forall q, means (t q) (m q)) ->
  (forall f, own_number u f -> exists t : path -> prog Z, forall q, means (t q) (f q)) ->
  (forall f, own_text u f -> exists t : path -> prog (option jstring), forall q, means (t q) (f q)) ->
  (forall c, own_order u c -> exists t : path -> path -> prog Z, forall a b, means (t a b) (c a b)) ->
  (forall s, In s l -> setter_ok w true u s) -> set_all lower l default_options = (o, err) ->
  exists t, means t (pretty_print o p).
Proof. exact parts_programs. Qed.
Print Assumptions C145_library_parts.

(** No interleaving goes on for ever, and none gets stuck before all calls have returned or thrown. *)
Theorem C145_all_end : forall w h0,
  (forall f : nat -> state, ~ forall n, step w h0 (f n) (f (S n))) /\
  (forall ts g, all_done ts \/ exists s, step w h0 (ts, g) s).
Proof. exact (fun w h0 => conj (no_infinite w h0) (progress w h0)). Qed.
Print Assumptions C145_all_end.

Example C145_case :
  given_programs noting_options noting_limit alphabetical_order (fun _ => Done (Ok None)) (fun _ => Done (Ok true)) (fun _ => Done (Ok true))
    (fun _ => Done (Ok None)) /\
  unchanging sample_world /\ execution sample_world [] (two_calls, []) two_calls_done /\
  means (nth 0 two_calls (Done (Ok []))) (pretty_print noting_options (pth "/home/u/src")) /\
  means (nth 1 two_calls (Done (Ok []))) (pretty_print noting_options (pth "/home/u")) /\
  nth 0 (results two_calls_done) None =
    Some (Ok (js "src/" ++ [c_nl] ++ [9492; 9472]%N ++ js " main/" ++ [c_nl] ++ js "   " ++ [9492; 9472]%N ++ js " java/" ++ [c_nl] ++
              js "      " ++ [9500; 9472]%N ++ js " A.java" ++ [c_nl] ++ js "      " ++ [9492; 9472]%N ++ js " B.java")) /\
  (exists out, nth 1 (results two_calls_done) None = Some (Ok out)) /\
  firstn 6 (rev (map fst (snd two_calls_done))) = [0; 1; 0; 1; 0; 1].
Proof.
  split; [exact noting_programs|]. split; [apply static_unchanging|]. split.
  { replace two_calls_done with (play sample_world [] (two_calls, []) (turns 100)) by (vm_compute; reflexivity). apply play_execution. }
  split; [apply noting_means|]. split; [apply noting_means|]. split; [vm_compute; reflexivity|]. split; [eexists; vm_compute; reflexivity|].
  vm_compute. reflexivity.
Qed.

(** A limit of the user's own, a matcher that walks through directories, a sort: *)
Definition own_limit : own := mkOwn (fun _ => False) (fun f => f = logged 1 (fun _ => ret 2%Z)) (fun _ => False) (fun _ => False).
Definition own_limit_setters : list setter :=
  [SetChildLimitFn (Some (logged 1 (fun _ => ret 2%Z))); SetDirFilter (Some (pm_any_direct_child pm_is_directory)); SetSort (Some DIRECTORY_FIRST)].
Definition own_limit_options : options := fst (set_all (map ascii_lower) own_limit_setters default_options).
Example C145_parts_case :
  (forall f, own_number own_limit f -> exists t : path -> prog Z, forall q, means (t q) (f q)) /\
  (forall s, In s own_limit_setters -> setter_ok sample_world true own_limit s) /\
  snd (set_all (map ascii_lower) own_limit_setters default_options) = None /\
  In (EvUser 1 (pth "/home/u/src")) (snd (pretty_print own_limit_options (pth "/home/u/src") sample_world [])) /\
  In (EvOpen (pth "/home/u/src/main")) (snd (pretty_print own_limit_options (pth "/home/u/src") sample_world [])).
Proof.
  split; [intros f ->; exists (fun q => Do (AUser 1 q) (fun _ => Done (Ok 2%Z))); intros q w h; reflexivity|].
  split; [|split; [reflexivity|split; vm_compute; tauto]].
  intros s [<-|[<-|[<-|[]]]]; [now apply lp_own|cbn; now apply as_child, as_directory|apply op_first].
Qed.

(** C146. Even if the file system changes: a call in a thread does what it would do alone in a world that gives, at each access, the answer that the
    file system gave at that moment. *)
Theorem C146_world_of_its_moments : forall w h0 ts ts' g i o p t r,
  execution w h0 (ts, []) (ts', g) ->
  nth_error ts i = Some t -> means t (pretty_print o p) -> nth_error ts' i = Some (Done r) ->
  exists moment, moments_of i g h0 moment /\ pretty_print o p (at_moments moment w) h0 = (r, events_of i g ++ h0).
Proof. exact thread_world. Qed.
Print Assumptions C146_world_of_its_moments.

(** So what is displayed was answered to this thread, each answer being the one of the file system at that moment. *)
Theorem C146_shows_what_was_answered : forall w h0 ts ts' g i o p t out v,
  (forall moment, honest_callbacks (at_moments moment w) o /\ sees (at_moments moment w) o v) ->
  execution w h0 (ts, []) (ts', g) ->
  nth_error ts i = Some t -> means t (pretty_print o p) -> nth_error ts' i = Some (Done (Ok out)) ->
  exists moment e s, moments_of i g h0 moment /\ shows v true e s /\ out = text (o_tree_format o) (labelled v s) /\
    truthful_from (at_moments moment w) h0 (rev (events_of i g)) /\ entry_path e = Some (location w p) /\
    forall k x, at_depth k e x -> seen_entry (at_moments moment w) o h0 (rev (events_of i g)) (Z.of_nat k) x.
Proof. exact thread_seen. Qed.
Print Assumptions C146_shows_what_was_answered.

(** Alone, the first call would show the file in both directories. *)
Example C146_case :
  let w := moving_world 12 in
  let s := play w [] (two_in_d, []) (turns 100) in
  execution w [] (two_in_d, []) s /\ means (nth 0 two_in_d (Done (Ok []))) (pretty_print noting_options (pth "/d")) /\
  (forall moment, honest_callbacks (at_moments moment w) noting_options /\ sees (at_moments moment w) noting_options plain_view) /\
  nth 0 (results s) None = Some (Ok (js "d/" ++ [c_nl] ++ [9500; 9472]%N ++ js " a/" ++ [c_nl] ++
                                     [9492; 9472]%N ++ js " b/" ++ [c_nl] ++ js "   " ++ [9492; 9472]%N ++ js " m")) /\
  result (pretty_print noting_options (pth "/d") w []) =
    Some (js "d/" ++ [c_nl] ++ [9500; 9472]%N ++ js " a/" ++ [c_nl] ++ [9474]%N ++ js "  " ++ [9492; 9472]%N ++ js " m" ++ [c_nl] ++
          [9492; 9472]%N ++ js " b/" ++ [c_nl] ++ js "   " ++ [9492; 9472]%N ++ js " m").
Proof.
  cbn zeta. split; [apply play_execution|]. split; [apply noting_means|]. split; [intro; split; [apply noting_honest|apply noting_sees]|].
  split; vm_compute; reflexivity.
Qed.

(** C147. Every call closes in its thread what it opened, whatever the others do. *)
Theorem C147_closed : forall w h0 ts ts' g i o p t r,
  (forall moment, callbacks (at_moments moment w) o balanced (fun _ => True)) ->
  execution w h0 (ts, []) (ts', g) ->
  nth_error ts i = Some t -> means t (pretty_print o p) -> nth_error ts' i = Some (Done r) ->
  balanced (rev (events_of i g)).
Proof. exact thread_closed. Qed.
Print Assumptions C147_closed.

(** At every moment, finished or not, the streams a call holds open are those of a chain of directories that starts at the printed one. *)
Theorem C147_chain : forall w h0 ts ts' g i o p t c,
  (forall moment, callbacks (at_moments moment w) o (at_most_open c) (fun _ => True)) ->
  execution w h0 (ts, []) (ts', g) -> nth_error ts i = Some t -> means t (pretty_print o p) ->
  exists l1 l2, open_after [] (rev (events_of i g)) = l1 ++ l2 /\ length l1 <= c /\ nested (location w p) l2 /\
    (Z.of_nat (length l2) <= Z.max 0 (o_max_depth o))%Z.
Proof. exact thread_streams. Qed.
Print Assumptions C147_chain.

(** So together the calls never hold more streams than their maximal depths, added up. *)
Theorem C147_total : forall w h0 jobs ts ts' g,
  (forall job, In job jobs -> forall moment, callbacks (at_moments moment w) (fst job) (at_most_open 0) (fun _ => True)) ->
  Forall2 prints ts jobs -> execution w h0 (ts, []) (ts', g) ->
  (unclosed (map snd g) <= total_depth jobs)%Z.
Proof. exact streams_total. Qed.
Print Assumptions C147_total.

(** In the middle of two calls five streams are open. *)
Example C147_case :
  let jobs := [(noting_options, pth "/home/u/src"); (noting_options, pth "/home/u")] in
  let s := play sample_world [] (two_calls, []) (turns 14) in
  (forall w, callbacks w noting_options balanced (fun _ => True)) /\ (forall w, callbacks w noting_options (at_most_open 0) (fun _ => True)) /\
  Forall2 prints two_calls jobs /\ execution sample_world [] (two_calls, []) s /\
  unclosed (map snd (snd s)) = 5%Z /\ total_depth jobs = 40%Z.
Proof.
  cbn zeta. split; [exact noting_balanced|]. split; [exact noting_callbacks|].
  split; [repeat constructor; apply noting_means|]. split; [apply play_execution|]. split; vm_compute; reflexivity.
Qed.
