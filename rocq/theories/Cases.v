(** * Concrete options and views used by the examples beside the theorems (tests, not proofs). *)

From Verif Require Export Samples SpecScan SpecHist SpecSeen.
From Verif Require Import PathFacts ScanFacts TreeFacts SeenFacts SortFacts BuilderFacts.

(** No extension, no emoji, no compaction. *)
Definition plain_view : view := mkView (fun _ => None) (fun _ => None) false.

Lemma default_sees w : sees w default_options plain_view.
Proof.
  split; [|split]; [|intros a h; exists h; reflexivity|reflexivity]. intro p. reflexivity.
Qed.

(** Extension " <- sources" on directories named "src", a one-character emoji on names starting with 'b', compaction on. *)
Definition case_ext (p : path) : option jstring :=
  if jeqb (last_name p) (js "src") then Some (js " <- sources") else None.
Definition case_emoji (p : path) : option jstring :=
  match last_name p with 98%N :: _ => Some [9989%N] | _ => None end.
Definition case_view : view := mkView case_ext case_emoji true.
Definition case_options : options :=
  with_compact_directories true
    (with_line_extension (Some (fun p => ret (case_ext p)))
       (with_emojis (fun p => ret (case_emoji p))
          (with_tree_format CLASSIC_ASCII default_options))).

Lemma case_sees w : sees w case_options case_view.
Proof. split; [|split]; [| |reflexivity]; intros a h; exists h; reflexivity. Qed.

(** Compaction on, no extension. *)
Definition compact_options : options := with_compact_directories true default_options.
Lemma compact_sees w : sees w compact_options (set_compact true plain_view).
Proof. split; [|split]; [|intros a h; exists h; reflexivity|reflexivity]. intro p. reflexivity. Qed.

Definition result {A} (r : res A * hist) : option A := match fst r with Ok a => Some a | Throw _ => None end.

(** The options mean these settings. *)
Definition default_settings : settings :=
  mkSettings (fun _ => true) (fun _ => true) (fun _ => (-1)%Z) alphabetical 20.
Lemma default_uses w : uses w default_options default_settings.
Proof. repeat split; repeat intro; eexists; reflexivity. Qed.

(** At most one child in directories named "java"; directories named "a" and files named "Zoo" hidden; depth 4; directories first. *)
Definition sample_disk : disk := static_disk sample_fs sample_jvm.
Definition case_settings : settings :=
  mkSettings (fun p => negb (jeqb (last_name p) (js "a")))
             (fun p => negb (jeqb (last_name p) (js "Zoo")))
             (fun p => if jeqb (last_name p) (js "java") then 1%Z else (-1)%Z)
             (then_by (dirs_first (is_dirb sample_disk)) alphabetical) 4.
Definition case_scan_options : options :=
  filter_directories (fun p => ret (s_dirs case_settings p))
    (filter_files (fun p => ret (s_files case_settings p))
       (with_child_limit_fn (fun p => ret (s_limit case_settings p))
          (with_sort DIRECTORY_FIRST
             (with_max_depth 4 default_options)))).
Lemma sample_steady : steady sample_world sample_disk.
Proof. apply static_steady. Qed.
Lemma sort_uses w c g : (forall a, answers w (c a) (g a)) ->
  uses w (with_sort c default_options) (mkSettings (fun _ => true) (fun _ => true) (fun _ => (-1)%Z) (then_by g alphabetical) 20).
Proof.
  intro H. split; [|split; [|split; [|split]]]; try (intros a h; exists h; reflexivity); [|reflexivity].
  intro a. apply answers_then; [exact H|]. intros x y h. exists h. reflexivity.
Qed.
Lemma case_uses : uses sample_world case_scan_options case_settings.
Proof.
  split; [|split; [|split; [|split]]]; try (intros a h; exists h; reflexivity); [|reflexivity].
  intro a. apply answers_then; [|intros x y h; exists h; reflexivity]. exact (directory_first_answers _ _ sample_steady).
Qed.
Lemma case_scan_sees w : sees w case_scan_options plain_view.
Proof. split; [|split]; [|intros a h; exists h; reflexivity|reflexivity]. intro p. reflexivity. Qed.

(** ** The sample file system is steady, its listings have no duplicates, and /home/u is readable. *)
Lemma table_fs_in t ns i : table_fs t ns = Some i -> In (ns, i) t.
Proof.
  unfold table_fs. destruct (find _ t) as [[ns' i']|] eqn:E; [|discriminate]. intro H. injection H as <-.
  apply find_some in E. destruct E as [Hin E]. cbn in E.
  assert (ns' = ns) as <-; [|exact Hin].
  clear -E. revert ns E. induction ns' as [|a l IH]; intros [|b l'] E; cbn in E; try discriminate; [reflexivity|].
  apply andb_prop in E. destruct E as [E1 E2]. f_equal; [|now apply IH].
  clear -E1. revert b E1. induction a as [|x a IH]; intros [|y b] E; cbn in E; try discriminate; [reflexivity|].
  apply andb_prop in E. destruct E as [E1 E2]. apply N.eqb_eq in E1. subst. f_equal. now apply IH.
Qed.

Fixpoint nodupb (l : list jstring) : bool :=
  match l with [] => true | x :: l' => negb (existsb (jeqb x) l') && nodupb l' end.

Lemma jeqb_same a : jeqb a a = true.
Proof. induction a; cbn; [reflexivity|]. now rewrite N.eqb_refl. Qed.

Lemma nodupb_NoDup l : nodupb l = true -> NoDup l.
Proof.
  induction l as [|x l IH]; intro H; [constructor|]. cbn in H. apply andb_prop in H. destruct H as [H1 H2]. constructor; [|auto].
  intro Hin. apply negb_true_iff in H1. rewrite <- not_true_iff_false in H1. apply H1. apply existsb_exists.
  exists x. split; [exact Hin|apply jeqb_same].
Qed.

Lemma table_distinct t j : forallb (fun e => match snd e with IDir l => nodupb l | _ => true end) t = true ->
  distinct_names (static_disk (table_fs t) j).
Proof.
  intros H p l Hl. cbn in Hl. unfold fs_lookup in Hl. destruct (table_fs t _) as [i|] eqn:E; [|discriminate].
  apply table_fs_in in E. rewrite forallb_forall in H. specialize (H _ E). cbn in *. destruct i; try discriminate.
  injection Hl as ->. now apply nodupb_NoDup.
Qed.

Lemma sample_distinct : distinct_names sample_disk.
Proof. apply table_distinct. vm_compute. reflexivity. Qed.

(** The same files, listed in the opposite order. *)
Definition reversed_inode (i : inode) : inode := match i with IDir l => IDir (rev l) | i => i end.
Definition reversed_table : table :=
  map (fun e => (fst e, reversed_inode (snd e))) sample_table.
Definition reversed_world : world := static_world (table_fs reversed_table) sample_jvm.
Definition reversed_disk : disk := static_disk (table_fs reversed_table) sample_jvm.

Lemma reversed_steady : steady reversed_world reversed_disk.
Proof. apply static_steady. Qed.

Lemma table_fs_map (f : inode -> inode) t ns :
  table_fs (map (fun e => (fst e, f (snd e))) t) ns = match table_fs t ns with Some i => Some (f i) | None => None end.
Proof.
  unfold table_fs. induction t as [|[n i] t IH]; cbn; [reflexivity|]. destruct (names_eqb n ns); [reflexivity|exact IH].
Qed.

Lemma reversed_lookup ns : table_fs reversed_table ns = match sample_fs ns with Some i => Some (reversed_inode i) | None => None end.
Proof. exact (table_fs_map reversed_inode sample_table ns). Qed.

Lemma reversed_listing f1 f2 j : (forall ns, f2 ns = match f1 ns with Some i => Some (reversed_inode i) | None => None end) ->
  same_but_order (static_disk f1 j) (static_disk f2 j).
Proof.
  intro H. unfold same_but_order, static_disk. cbn [d_kind d_attr d_list]. unfold fs_lookup.
  split; [|split]; intro p; rewrite H; destruct (f1 _) as [[]|]; cbn [opt_bind reversed_inode lkind skind]; try reflexivity; try exact I.
  apply Permutation_rev.
Qed.

Lemma reversed_same : same_but_order sample_disk reversed_disk.
Proof. exact (reversed_listing _ _ _ reversed_lookup). Qed.

(** What is reached from /home/u is in this list. *)
Definition sample_paths : list path := map pth
  ["/home/u"; "/home/u/Zoo"; "/home/u/b.txt"; "/home/u/a"; "/home/u/src"; "/home/u/link"; "/home/u/src/main";
   "/home/u/src/main/java"; "/home/u/src/main/java/A.java"; "/home/u/src/main/java/B.java"]%string.

Definition path_inb (p : path) (l : list path) : bool := existsb (path_eqb p) l.

Lemma path_inb_In p l : path_inb p l = true -> In p l.
Proof.
  unfold path_inb. intro H. apply existsb_exists in H. destruct H as (q & Hq & E). apply path_eqb_eq in E. now subst.
Qed.

(** The reached paths are closed under listing. *)
Definition closed_under_listing (l : list path) (dk : disk) : bool :=
  forallb (fun q => match d_list dk q with Some ns => forallb (fun n => path_inb (child q n) l) ns | None => true end) l.

Lemma reached_in st dk l root d p : closed_under_listing l dk = true -> In root l -> reach st dk 0 root d p -> In p l.
Proof.
  intros Hc Hroot. induction 1 as [|d p names n Hr IH Hd Hlt Hl Hin Ha]; [exact Hroot|].
  unfold closed_under_listing in Hc. rewrite forallb_forall in Hc. specialize (Hc p IH). rewrite Hl, forallb_forall in Hc.
  apply path_inb_In. now apply Hc.
Qed.

Definition all_readable (l : list path) (dk : disk) : bool :=
  forallb (fun q => if is_dirb dk q then match d_list dk q with Some ns => (length ns <? 32)%nat | None => false end else is_some (d_attr dk q)) l.

Lemma sample_readable st : readable st sample_disk (pth "/home/u").
Proof.
  intros d p Hr. apply (reached_in _ _ sample_paths) in Hr; [|vm_compute; reflexivity|apply path_inb_In; vm_compute; reflexivity].
  assert (H : all_readable sample_paths sample_disk = true) by (vm_compute; reflexivity).
  unfold all_readable in H. rewrite forallb_forall in H. specialize (H p Hr). unfold is_dir. unfold is_dirb in H. split.
  - intros Hk _. rewrite Hk in H. destruct (d_list sample_disk p) as [ns|]; [|discriminate]. exists ns. split; [reflexivity|right].
    apply Nat.ltb_lt in H. eapply Nat.le_lt_trans; [apply filter_length_le|]. now rewrite map_length.
  - intro Hk. destruct (d_kind sample_disk p) as [[]|]; try congruence; (destruct (d_attr sample_disk p); [eauto|discriminate]).
Qed.

(** ** Callbacks *)
Lemma pure_callback {A B} w (g : A -> B) (K : trace -> Prop) (E : exn -> Prop) : K [] -> callback w (fun a => ret (g a)) K E.
Proof. intros HK a h. exists (Ok (g a)), []. split; [reflexivity|]. split; [exact HK|discriminate]. Qed.

Lemma default_callbacks w (K : trace -> Prop) E : K [] -> callbacks w default_options K E.
Proof. intro HK. repeat split; try apply (pure_callback w _ K E HK). intro a. apply (pure_callback w _ K E HK). Qed.

Lemma case_callbacks w E : callbacks w case_scan_options (modest w) E.
Proof.
  assert (HK : modest w []) by constructor. split; [|split; [|split; [|split; [|split; [exact I|]]]]]; try apply (pure_callback w _ _ E HK).
  intros a b h. set (ka := w_lstat w h a). set (kb := w_lstat w (EvLstat a ka :: h) b). set (dir k := match k with Some KDir => true | _ => false end).
  exists (Ok (if Bool.eqb (dir ka) (dir kb) then alphabetical a b else if dir ka then (-1)%Z else 1%Z)), [EvLstat a ka; EvLstat b kb].
  split; [|split; [constructor; [exists h; reflexivity|constructor; [eexists; reflexivity|constructor]]|]].
  - cbn. unfold then_comparing, DIRECTORY_FIRST, pm_is_directory, has_kind, bind, lstat, ret. fold ka. cbn. fold ka. fold kb.
    destruct ka as [[]|], kb as [[]|]; reflexivity.
  - discriminate.
Qed.

(** Directories are shown if they have a file of that name. *)
Definition has_file (n : string) : matcher := fun p => pm_is_regular_file (child p (js n)).
Definition asking_options (n : string) : options := filter_directories (has_file n) default_options.

Lemma asking_run n p w h : has_file n p w h =
  (Ok match w_lstat w h (child p (js n)) with Some k => kind_eqb k KReg | None => false end,
   EvLstat (child p (js n)) (w_lstat w h (child p (js n))) :: h).
Proof. reflexivity. Qed.

Lemma asking_callbacks n w (K : trace -> Prop) E : K [] -> (forall h q, K [EvLstat q (w_lstat w h q)]) -> callbacks w (asking_options n) K E.
Proof.
  intros HK HK1. split; [|repeat split; try (intro; apply (pure_callback w _ K E HK)); apply (pure_callback w _ K E HK)].
  intros p h. eexists _, [_]. split; [apply asking_run|]. split; [apply HK1|discriminate].
Qed.

Lemma asking_modest n w E : callbacks w (asking_options n) (modest w) E.
Proof. apply asking_callbacks; [constructor|]. intros h q. repeat constructor. cbn. eauto. Qed.

Lemma pure_honest {A B} w (g : A -> B) : honest w (fun a => ret (g a)).
Proof. intros a h. exists (Ok (g a)), []. split; [reflexivity|apply truthful_nil]. Qed.

Lemma asking_honest n w : honest_callbacks w (asking_options n).
Proof.
  split; [|repeat split; try (intro; apply (pure_honest w)); apply (pure_honest w)].
  intros p h. eexists _, [_]. split; [apply asking_run|]. now apply truthful_one.
Qed.

Lemma asking_sees n w : sees w (asking_options n) plain_view.
Proof. split; [|split]; [intro p|intros p h; now exists h|]; reflexivity. Qed.

Lemma pure_agrees {A B} w (g : A -> B) : agrees w (fun a => ret (g a)) g.
Proof. intros a h b h' H. injection H as <- _. reflexivity. Qed.

Lemma answers_agrees {A B} w (f : A -> M B) (g : A -> B) : answers w f g -> agrees w f g.
Proof. intros Hf a h b h' H. destruct (Hf a h) as [h1 E]. rewrite E in H. now injection H as <- _. Qed.

(** A directory that contains itself, for ever. *)
Definition loop_world : world := {|
  w_lstat := fun _ _ => Some KDir; w_stat := fun _ _ => Some KDir;
  w_length := fun _ _ => 0%Z; w_open := fun _ _ => Some (mkDirlist [js "x"] false);
  w_close_ok := fun _ _ => true; w_jvm := sample_jvm |}.

(** A callback that logs its argument, then throws on "b.txt". *)
Definition throwing_options : options :=
  filter_files (fun p w h => (if jeqb (last_name p) (js "B.java") then Throw (ExUser 7) else Ok true, EvUser 1 p :: h)) default_options.
Lemma throwing_callbacks w : callbacks w throwing_options balanced (fun x => x = ExUser 7).
Proof.
  split; [apply (pure_callback w); constructor|]. split; [|repeat split; try (intro; apply (pure_callback w); constructor); apply (pure_callback w); constructor].
  intros p h. eexists _, [EvUser 1 p]. split; [reflexivity|]. split; [constructor; [discriminate|discriminate|constructor]|].
  destruct (jeqb _ _); [|discriminate]. intros x H. now injection H as <-.
Qed.

(** Reading /r fails half-way. *)
Definition iter_fail_world : world := {|
  w_lstat := w_lstat sample_world; w_stat := w_stat sample_world; w_length := w_length sample_world;
  w_open := fun h p => match w_open sample_world h p with Some dl => Some (mkDirlist (dl_names dl) true) | None => None end;
  w_close_ok := fun _ _ => true; w_jvm := sample_jvm |}.

(** The kind of a path can be read only once: later attempts fail. *)
Definition flaky_world : world := {|
  w_lstat := fun h p => if existsb (fun ev => match ev with EvLstat q _ => path_eqb p q | _ => false end) h then None else w_lstat sample_world h p;
  w_stat := w_stat sample_world; w_length := w_length sample_world; w_open := w_open sample_world;
  w_close_ok := fun _ _ => true; w_jvm := sample_jvm |}.

(** A directory /d with these children. *)
Definition flat_world (l : list (jstring * inode)) : world :=
  static_world (table_fs (([], IDir [js "d"]) :: ([js "d"], IDir (map fst l)) :: map (fun e => ([js "d"; fst e], snd e)) l)) sample_jvm.

Lemma flat_displays o v w p d es ks out h k : sees w o v -> scan o (location w p) w [] = (Ok (EDir d es), h) -> Forall2 (shows v false) es ks ->
  pretty_print o p w [] = (Ok out, k) -> displays o v w p (SDir [d] ks) out.
Proof. intros Hs He Hk Hp. split; [exact Hs|]. exists (EDir d es), h, k. split; [exact He|]. split; [constructor; [now left|exact Hk]|exact Hp]. Qed.

Lemma limited_sees n w : sees w (with_child_limit_fn (fun _ => ret n) default_options) plain_view.
Proof. split; [|split]; [|intros a h; exists h; reflexivity|reflexivity]. intro p. reflexivity. Qed.

Lemma C84_lemma :
  (exists w1 w2 out,
     displays default_options plain_view w1 (pth "/d") (SDir [pth "/d"] [SFile (pth "/d/x?") KReg]) out /\
     displays default_options plain_view w2 (pth "/d") (SDir [pth "/d"] [SFile (pth "/d/x") KOther]) out) /\
  (exists o w1 w2 out, o_tree_format o = o_tree_format default_options /\
     displays default_options plain_view w1 (pth "/d") (SDir [pth "/d"] [SFile (pth "/d/-") KReg; SFile (pth "/d/...") KReg]) out /\
     displays o plain_view w2 (pth "/d") (SDir [pth "/d"] [SFile (pth "/d/-") KReg; SDots]) out) /\
  (exists f w1 w2 out,
     displays default_options plain_view w1 (pth "/d") (SDir [pth "/d"] [SFile f KReg; SFile (pth "/d/C") KReg]) out /\
     displays default_options plain_view w2 (pth "/d")
       (SDir [pth "/d"] [SFile (pth "/d/A") KReg; SFile (pth "/d/B") KReg; SFile (pth "/d/C") KReg]) out).
Proof.
  assert (K : forall l, Forall2 (shows plain_view false) (map (fun e => EFile (fst e) (snd e)) l) (map (fun e => SFile (fst e) (snd e)) l))
    by (induction l; constructor; [constructor|assumption]).
  split; [|split].
  - exists (flat_world [(js "x?", IReg 0)]), (flat_world [(js "x", IOther)]). eexists. split.
    + eapply flat_displays; [apply default_sees|vm_compute; reflexivity|exact (K [(pth "/d/x?", KReg)])|vm_compute; reflexivity].
    + eapply flat_displays; [apply default_sees|vm_compute; reflexivity|exact (K [(pth "/d/x", KOther)])|vm_compute; reflexivity].
  - exists (with_child_limit_fn (fun _ => ret 1%Z) default_options), (flat_world [(js "-", IReg 0); (js "...", IReg 0)]), (flat_world [(js "-", IReg 0); (js "b", IReg 0)]).
    eexists. split; [reflexivity|]. split.
    + eapply flat_displays; [apply default_sees|vm_compute; reflexivity|exact (K [(pth "/d/-", KReg); (pth "/d/...", KReg)])|vm_compute; reflexivity].
    + eapply flat_displays; [apply limited_sees|vm_compute; reflexivity| |vm_compute; reflexivity]. repeat constructor.
  - exists (mkPath true [js "d"; js "A" ++ [10; 9500; 9472; 32]%N ++ js "B"]), (flat_world [(js "A" ++ [10; 9500; 9472; 32]%N ++ js "B", IReg 0); (js "C", IReg 0)]), (flat_world [(js "A", IReg 0); (js "B", IReg 0); (js "C", IReg 0)]).
    eexists. split.
    + eapply flat_displays; [apply default_sees|vm_compute; reflexivity|exact (K [(mkPath true [js "d"; js "A" ++ [10; 9500; 9472; 32]%N ++ js "B"], KReg); (pth "/d/C", KReg)])|vm_compute; reflexivity].
    + eapply flat_displays; [apply default_sees|vm_compute; reflexivity|exact (K [(pth "/d/A", KReg); (pth "/d/B", KReg); (pth "/d/C", KReg)])|vm_compute; reflexivity].
Qed.

Lemma name_ok n : n <> [] -> forallb (fun c => negb (c =? c_slash)%N && negb (c =? c_nl)%N) n = true -> one_line_name n.
Proof.
  intros Hn H. rewrite forallb_forall in H. split; [exact Hn|]. split; intro Hc; apply H in Hc; discriminate Hc.
Qed.
Lemma unmarked_ok n : n <> js "..." -> match rev n with c :: _ => negb (c =? 42)%N && negb (c =? 63)%N | [] => true end = true -> unmarked n.
Proof.
  intros Hn H. split; [exact Hn|]. intro n'. split; intros ->; rewrite rev_app_distr in H; discriminate H.
Qed.

Lemma C85_case_lemma : exists s out, displays compact_options (set_compact true plain_view) sample_world (pth "/home/u") s out /\ clear_names s /\
  outline_of s = ODir [js "u"] [OFile (js "Zoo") []; ODir [js "a"] []; OFile (js "b.txt") []; OFile (js "link") [];
                                ODir [js "src"; js "main"; js "java"] [OFile (js "A.java") []; OFile (js "B.java") []]].
Proof.
  exists (SDir [pth "/home/u"] [SFile (pth "/home/u/Zoo") KReg; SDir [pth "/home/u/a"] []; SFile (pth "/home/u/b.txt") KReg; SFile (pth "/home/u/link") KDir;
    SDir [pth "/home/u/src"; pth "/home/u/src/main"; pth "/home/u/src/main/java"]
      [SFile (pth "/home/u/src/main/java/A.java") KReg; SFile (pth "/home/u/src/main/java/B.java") KReg]]).
  eexists. split; [|split; [|vm_compute; reflexivity]].
  - eapply flat_displays; [apply compact_sees|vm_compute; reflexivity| |vm_compute; reflexivity].
    assert (NM : forall v d (es : list entry), length es <> 1%nat -> ~ mergeable v d es) by (intros v d es H (_ & c & -> & _); now apply H).
    constructor; [constructor|]. constructor; [apply (shows_compact (set_compact true plain_view) _ _ []); [reflexivity|apply chain_stop; apply NM; discriminate|constructor]|].
    constructor; [constructor|]. constructor; [constructor|]. constructor; [|constructor].
    eapply shows_compact; [reflexivity| |].
    + apply chain_next; [split; [reflexivity|eexists; split; [reflexivity|exact I]]|].
      apply chain_next; [split; [reflexivity|eexists; split; [reflexivity|exact I]]|]. apply chain_stop. apply NM. discriminate.
    + repeat constructor.
  - assert (F : forall p k, last_name p <> [] -> forallb (fun c => negb (c =? c_slash)%N && negb (c =? c_nl)%N) (last_name p) = true ->
      last_name p <> js "..." -> match rev (last_name p) with c :: _ => negb (c =? 42)%N && negb (c =? 63)%N | [] => true end = true -> clear_names (SFile p k)).
    { intros p k A B C D. constructor; [now apply name_ok|now apply unmarked_ok]. }
    assert (F' : forall p k, (negb (names_eqb [last_name p] [[]]) && forallb (fun c => negb (c =? c_slash)%N && negb (c =? c_nl)%N) (last_name p) &&
      negb (jeqb (last_name p) (js "...")) && match rev (last_name p) with c :: _ => negb (c =? 42)%N && negb (c =? 63)%N | [] => true end) = true -> clear_names (SFile p k)).
    { intros p k H. apply andb_prop in H. destruct H as [H D]. apply andb_prop in H. destruct H as [H C]. apply andb_prop in H. destruct H as [A B].
      apply F; try assumption; intro E; rewrite E in *; [discriminate A|discriminate C]. }
    assert (G : forall p, (negb (names_eqb [last_name p] [[]]) && forallb (fun c => negb (c =? c_slash)%N && negb (c =? c_nl)%N) (last_name p)) = true -> one_line_name (last_name p)).
    { intros p H. apply andb_prop in H. destruct H as [A B]. apply name_ok; [|exact B]. intro E. rewrite E in A. discriminate A. }
    constructor; [discriminate|intros d [<-|[]]; apply G; vm_compute; reflexivity|].
    intros k [<-|[<-|[<-|[<-|[<-|[]]]]]]; try (apply F'; vm_compute; reflexivity); (constructor; [discriminate| |]).
    + intros d [<-|[]]; apply G; vm_compute; reflexivity.
    + intros k [].
    + intros d [<-|[<-|[<-|[]]]]; apply G; vm_compute; reflexivity.
    + intros k [<-|[<-|[]]]; apply F'; vm_compute; reflexivity.
Qed.

(** The labels of the lines at the first level, with the default tree format. *)
Definition names_after (r : option jstring) : list jstring :=
  match r with
  | None => []
  | Some out => map (fun l => skipn 3 l) (filter (fun l => (hd 32 l =? 9500)%N || (hd 32 l =? 9492)%N) (tl (split_on c_nl out)))
  end.

(** ** A file system that changes: [fs1] during the first [n] events, [fs2] afterwards. *)
Definition changing_world (fs1 fs2 : fsys) (n : nat) (j : jvm) : world :=
  let at_ (h : hist) := static_world (if (length h <? n)%nat then fs1 else fs2) j in
  mkWorld (fun h => w_lstat (at_ h) h) (fun h => w_stat (at_ h) h) (fun h => w_length (at_ h) h) (fun h => w_open (at_ h) h) (fun h => w_close_ok (at_ h) h) j.

(** The file "m" is in "d/a", or in "d/b". *)
Definition moved_fs (in_a : bool) : fsys := table_fs [
  (names_of "d", IDir [js "a"; js "b"]);
  (names_of "d/a", IDir (if in_a then [js "m"] else []));
  (names_of "d/b", IDir (if in_a then [] else [js "m"]));
  (names_of (if in_a then "d/a/m" else "d/b/m"), IReg 1)
].

(** ** A comparator that breaks its contract *)

(** [(int) (size1 - size2)]. *)
Definition size_difference : comparator := fun a b =>
  x <- file_length a; y <- file_length b; ret ((x - y + 2147483648) mod 4294967296 - 2147483648)%Z.
Definition many_files : list (jstring * inode) :=
  map (fun i => ([48 + i / 10; 48 + i mod 10]%N, IReg (Z.of_N (i * i * 123456789 mod 5000000000)))) (map N.of_nat (seq 0 60)).
Definition many_fs : fsys :=
  table_fs (([], IDir [js "d"]) :: ([js "d"], IDir (map fst many_files)) :: map (fun e => ([js "d"; fst e], snd e)) many_files).
Definition many_disk : disk := static_disk many_fs sample_jvm.
Definition many_order : ordering := fun a b => ((d_length many_disk a - d_length many_disk b + 2147483648) mod 4294967296 - 2147483648)%Z.
Definition many_settings : settings := mkSettings (fun _ => true) (fun _ => true) (fun _ => (-1)%Z) (then_by many_order alphabetical) 20.

Lemma many_steady : steady (flat_world many_files) many_disk.
Proof. apply static_steady. Qed.

Lemma many_uses : uses (flat_world many_files) (with_sort size_difference default_options) many_settings.
Proof. apply sort_uses. intros a b h. eexists. reflexivity. Qed.

Lemma many_sees c : sees (flat_world many_files) (with_sort c default_options) plain_view.
Proof. split; [|split]; [|intros a h; exists h; reflexivity|reflexivity]. intro p. reflexivity. Qed.

Lemma many_readable d q : reach many_settings many_disk 0 (location (flat_world many_files) (pth "/d")) d q ->
  (is_dir many_disk q -> exists l, d_list many_disk q = Some l) /\ (~ is_dir many_disk q -> exists k, d_attr many_disk q = Some k).
Proof.
  intro Hr. set (all := pth "/d" :: map (fun e => mkPath true [js "d"; fst e]) many_files).
  apply (reached_in _ _ all) in Hr; [|vm_compute; reflexivity|apply path_inb_In; vm_compute; reflexivity].
  assert (H : forallb (fun q => if is_dirb many_disk q then is_some (d_list many_disk q) else is_some (d_attr many_disk q)) all = true) by (vm_compute; reflexivity).
  rewrite forallb_forall in H. specialize (H q Hr). unfold is_dir. unfold is_dirb in H. split.
  - intros Hk. rewrite Hk in H. destruct (d_list many_disk q) as [ns|]; [now exists ns|discriminate].
  - intro Hk. destruct (d_kind many_disk q) as [[]|]; try congruence; (destruct (d_attr many_disk q); [eauto|discriminate]).
Qed.

Lemma many_callbacks : callbacks (flat_world many_files) (with_sort size_difference default_options) (fun _ => True) (fun _ => False).
Proof.
  destruct (default_callbacks (flat_world many_files) (fun _ => True) (fun _ => False) I) as (H1 & H2 & H3 & H4 & H5 & _).
  repeat (split; [assumption|]). intros a b h. destruct (proj1 (proj2 (proj2 (proj2 many_uses))) a b h) as (h' & E).
  exists (Ok (s_cmp many_settings a b)), [EvLength a (d_length many_disk a); EvLength b (d_length many_disk b)]. split; [|split; [exact I|discriminate]].
  cbn [o_comparator with_sort default_options]. unfold then_comparing, size_difference, file_length, bind, ret. cbn [many_settings s_cmp].
  unfold then_by. fold (many_order a b). destruct (_ =? 0)%Z; reflexivity.
Qed.

Lemma many_not_orderly : ~ orderly (flat_world many_files) (with_sort size_difference default_options).
Proof.
  intros (g & (_ & Ht & _) & Ha).
  assert (E : forall a b, g a b = then_by many_order alphabetical a b).
  { intros a b. destruct (proj1 (proj2 (proj2 (proj2 many_uses))) a b []) as (h' & E). symmetry. exact (Ha _ _ _ _ _ E). }
  assert (H : (then_by many_order alphabetical (pth "/d/00") (pth "/d/03") > 0)%Z).
  { rewrite <- E. apply Ht with (y := pth "/d/05"); rewrite E; vm_compute; reflexivity. }
  vm_compute in H. discriminate.
Qed.

Lemma default_orderly w : orderly w default_options.
Proof. exists alphabetical. split; [apply contract_alphabetical|]. intros a b h z h' H. injection H as <- _. reflexivity. Qed.

