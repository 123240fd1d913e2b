(** * Options objects and built printers: C49, C50, C74, C98 *)

From Verif Require Import SpecOptions SpecParts Cases OptionFacts PartFacts.
From Coq Require Import Lia.
Close Scope Z_scope.

(** C49. A chain of setter calls on a new options object; [holds] lists, for each of the nine options, the value of the last call for it, or
    the documented default. *)
Theorem C49_last_call_wins : forall lower l, (forall s, In s l -> ~ rejected lower s) ->
  exists o, set_all lower l default_options = (o, None) /\ holds lower l o.
Proof. exact C49_chain. Qed.
Print Assumptions C49_last_call_wins.

(** The same for every options object of a client that creates options objects and printer builders, and calls setters directly or
    through [customizeOptions], in any order. [receives] lists the setters executed on object [i]. *)
Theorem C49_every_object : forall lower calls i, all_possible (rev calls) -> i < objects_made (rev calls) ->
  exists t o, receives lower (rev calls) i t /\ nth_error (cl_objects (client_run lower calls)) i = Some o /\ holds lower t o.
Proof. exact C49_objects_lemma. Qed.
Print Assumptions C49_every_object.

(** The calls determine the options. *)
Theorem C49_options_are_determined : forall lower l o1 o2, holds lower l o1 -> holds lower l o2 -> o1 = o2.
Proof. exact C49_holds_det. Qed.
Print Assumptions C49_options_are_determined.

(** Exactly the rejected calls throw. *)
Theorem C49_rejected_calls : forall lower s o, rejected lower s <-> exists e, set_option lower s o = Throw e.
Proof. exact C49_rejected. Qed.
Print Assumptions C49_rejected_calls.

Definition case_setters : list setter :=
  [SetMaxDepth 3; SetCompact true; SetSort (Some (reversed ALPHABETICAL)); SetMaxDepth 2; SetTreeFormat (Some CLASSIC_ASCII)].
Definition case_calls : list call :=
  [NewBuilder; NewOptions; NewBuilder; Set_ 1 (SetMaxDepth 7); WithOptions 1 (Some 1); Customize 1 case_setters RetArgument;
   Customize 0 [SetCompact true; SetTreeFormat None; SetMaxDepth 9] (RetObject 1); Set_ 1 (SetEmojis None)].

Lemma case_calls_possible : all_possible (rev case_calls).
Proof.
  cbn [rev app case_calls]. repeat apply possible_cons; try apply possible_nil; cbn; repeat split; try lia; intros j E; inversion E; subst; lia.
Qed.

Example C49_case :
  (forall s, In s case_setters -> ~ rejected (map ascii_lower) s) /\
  all_possible (rev case_calls) /\ objects_made (rev case_calls) = 3 /\
  receives (map ascii_lower) (rev case_calls) 1 (SetMaxDepth 7 :: case_setters) /\
  map o_max_depth (cl_objects (client_run (map ascii_lower) case_calls)) = [20; 2; 20]%Z /\
  map o_compact (cl_objects (client_run (map ascii_lower) case_calls)) = [true; true; false] /\
  cl_builders (client_run (map ascii_lower) case_calls) = [0; 1].
Proof.
  split. { intros s [<-|[<-|[<-|[<-|[<-|[]]]]]] H; exact H. }
  split; [exact case_calls_possible|]. split; [reflexivity|].
  split; [|repeat split; vm_compute; reflexivity].
  set (lower := map ascii_lower).
  assert (R0 : refers lower [NewBuilder] 0 0) by apply (refers_new lower []).
  assert (D : executed lower case_setters case_setters).
  { exists []. split; [reflexivity|]. split; [|exact I]. intros s [<-|[<-|[<-|[<-|[<-|[]]]]]] H; exact H. }
  assert (K : forall l x, refers lower l 0 0 -> (forall j, ~ repoints lower x 0 j) -> refers lower (x :: l) 0 0) by (intros; now constructor).
  cbn [rev app case_calls]. apply receives_rejected; [|exact I].
  apply receives_kept; [|intros; discriminate|].
  - apply (receives_customize lower _ 1 _ _ 1 [SetMaxDepth 7] case_setters); [| |exact D].
    + apply receives_kept; [|intros; discriminate|intros; discriminate].
      apply (receives_set lower _ 1 []); [|intro H; exact H].
      apply receives_kept; [|intros; discriminate|intros; discriminate].
      apply (receives_options lower [NewBuilder]).
    + apply refers_repointed; [repeat constructor|now left].
  - intros b body r E H. injection E as <- <- <-.
    assert (F : refers lower (rev [NewBuilder; NewOptions; NewBuilder; Set_ 1 (SetMaxDepth 7); WithOptions 1 (Some 1); Customize 1 case_setters RetArgument]) 0 0).
    { cbn [rev app]. do 5 (apply K; [|intros j [E'|(? & E' & _)]; discriminate]). apply R0. }
    assert (P : all_possible (rev [NewBuilder; NewOptions; NewBuilder; Set_ 1 (SetMaxDepth 7); WithOptions 1 (Some 1); Customize 1 case_setters RetArgument])).
    { exact (all_possible_app [_; _] _ case_calls_possible). }
    destruct (sound_all lower _ P) as (_ & _ & Hr & _).
    destruct (Hr 0 0 F) as [E1 _]. destruct (Hr 0 1 H) as [E2 _]. rewrite E1 in E2. discriminate.
Qed.

(** C50 does not hold: changing the maximal depth of the options object after [build] changes what the printer prints, whether through the
    object or through the builder's [customizeOptions]. *)
Definition printed (l : list call) : res jstring := fst (client_print (client_run (map ascii_lower) l) 0 (pth "/home/u") sample_world []).
Theorem C50_refuted :
  printed [NewOptions; NewBuilder; WithOptions 0 (Some 0); Build 0; Set_ 0 (SetMaxDepth 1)] <>
  printed [NewOptions; NewBuilder; WithOptions 0 (Some 0); Build 0] /\
  printed [NewBuilder; Build 0; Customize 0 [SetMaxDepth 1] RetArgument] <> printed [NewBuilder; Build 0].
Proof. split; vm_compute; discriminate. Qed.
Print Assumptions C50_refuted.

(** C74. The printer built by builder [b] prints what a printer prints whose tree format and emojis are those the builder's options object had at
    [build] ([o1]), and whose other options are those the same object has now ([o2]). *)
Theorem C74_what_a_printer_reads : forall lower calls b later, all_possible (rev (calls ++ Build b :: later)) ->
  exists i t1 t2 o1 o2,
    refers lower (rev calls) b i /\ receives lower (rev calls) i t1 /\ holds lower t1 o1 /\
    receives lower (rev (calls ++ Build b :: later)) i t2 /\ holds lower t2 o2 /\
    forall p w h, client_print (client_run lower (calls ++ Build b :: later)) (printers_made (rev calls)) p w h =
      pretty_print (with_tree_format (o_tree_format o1) (with_emojis (o_emoji o1) o2)) p w h.
Proof. exact C74_lemma. Qed.
Print Assumptions C74_what_a_printer_reads.

Example C74_case :
  all_possible (rev ([NewBuilder] ++ Build 0 :: [Customize 0 [SetMaxDepth 1; SetTreeFormat (Some CLASSIC_ASCII)] RetArgument])) /\
  printed [NewBuilder; Build 0; Customize 0 [SetMaxDepth 1; SetTreeFormat (Some CLASSIC_ASCII)] RetArgument] =
  fst (pretty_print (with_max_depth 1 default_options) (pth "/home/u") sample_world []).
Proof.
  split; [|vm_compute; reflexivity]. cbn. constructor; [constructor; [constructor; [constructor|]|]|]; cbn; auto. split; [auto|]. intros; discriminate.
Qed.

(** C98. Options set up with the parts the library offers ([setter_ok]; [u] are the parts the user adds of their own): what the filters, limits,
    emojis, extensions and comparators do. Without the matchers on children, descendants and siblings they only ask for kinds of paths and lengths
    of files, and throw nothing of their own, as long as the user's own parts do no more. *)
Theorem C98_parts_only_ask : forall w u E lower l o err,
  own_parts w u (modest w) E -> (forall s, In s l -> setter_ok w false u s) -> set_all lower l default_options = (o, err) ->
  callbacks w o (modest w) E.
Proof. exact C98_modest_lemma. Qed.
Print Assumptions C98_parts_only_ask.

(** With these matchers they also read directories, but close what they open, and throw an UncheckedIOException at most. *)
Theorem C98_parts_close_what_they_open : forall w u (E : exn -> Prop) lower l o err,
  own_parts w u balanced E -> (forall s, In s l -> setter_ok w true u s) -> set_all lower l default_options = (o, err) ->
  callbacks w o balanced (fun x => E x \/ walk_failure x).
Proof. exact C98_balanced_lemma. Qed.
Print Assumptions C98_parts_close_what_they_open.

(** They remember nothing: they are told what the world answers at that moment. *)
Theorem C98_parts_remember_nothing : forall w u lower l o err,
  own_honest w u -> (forall s, In s l -> setter_ok w true u s) -> set_all lower l default_options = (o, err) -> honest_callbacks w o.
Proof. exact C98_honest_lemma. Qed.
Print Assumptions C98_parts_remember_nothing.

(** Directories first, then files named "A.java" (built sort), a limit for "u", an emoji for directories below "home", files below "src" only: the
    printer shows the answers, and asks for kinds and lengths only. *)
Definition parts_setters : list setter :=
  [SetSort (Some (then_comparing DIRECTORY_FIRST (sort_call (sort_run sort_start [SOp (SAddFirst (pm_name (js "A.java"))); SBuild; SOp (SAddLast pm_is_file)]) 0)));
   SetChildLimitFn (Some (limit_call (limit_run (limit_start (-1)%Z) [LOp (LAddMatcher (pm_name (js "u")) 1%Z); LBuild]) 0));
   SetEmojis (Some (emoji_call (emoji_run (map ascii_lower) (emoji_start FromBlank) [EBuild; EOp (EAddDir (pm_any_ancestor (pm_name (js "home"))) (js "D"))]) 0));
   SetLineExtension (Some (ext_call (ext_run ext_start [XOp (XAddLineBreak pm_is_regular_file); XBuild]) 0));
   SetFileFilter (Some (pm_any_ancestor (pm_name (js "src"))))].
Example C98_case :
  own_parts sample_world nothing_own (modest sample_world) (fun _ => False) /\ own_honest sample_world nothing_own /\
  own_parts sample_world nothing_own balanced (fun _ => False) /\
  (forall s, In s parts_setters -> setter_ok sample_world false nothing_own s) /\
  (forall s, In s parts_setters -> setter_ok sample_world true nothing_own s) /\
  snd (set_all (map ascii_lower) parts_setters default_options) = None /\
  In (EvLstat (pth "/home/u/src") (Some KDir)) (snd (pretty_print (fst (set_all (map ascii_lower) parts_setters default_options)) (pth "/home/u") sample_world [])).
Proof.
  split; [repeat split; intros ? []|]. split; [repeat split; intros ? []|]. split; [repeat split; intros ? []|].
  assert (K : forall b s, In s parts_setters -> setter_ok sample_world b nothing_own s).
  { intros b s [<-|[<-|[<-|[<-|[<-|[]]]]]].
    - apply op_then; [apply op_first|]. apply op_built; [|cbn; lia].
      intros c [<-|[<-|[<-|[]]]]; cbn; [apply as_name|exact I|apply as_file].
    - apply lp_built; [|cbn; lia]. intros c [<-|[<-|[]]]; cbn; [apply as_name|exact I].
    - eapply ep_built; [|vm_compute; reflexivity]. intros c [<-|[<-|[]]]; cbn; [exact I|apply as_ancestor, as_name].
    - apply xp_built; [|cbn; lia]. intros c [<-|[<-|[]]]; cbn; [apply as_regular|exact I].
    - cbn. apply as_ancestor, as_name. }
  split; [exact (K false)|]. split; [exact (K true)|]. split; [vm_compute; reflexivity|]. vm_compute. tauto.
Qed.
