(** * Globs with [**] inside, and the example program that prints the project *)

From Verif Require Import SpecExample ExampleFacts DocTreeFacts GlobMatchFacts PointFacts GlobFacts BuilderFacts MatcherFacts PathFacts RenderFacts LayoutFacts ScanPrintFacts TreeFacts SortFacts EmojiFacts.
From Coq Require Import Lia.
Close Scope Z_scope.

(** ** Globs with [**] inside *)
Definition slashes (l : list jstring) : jstring := flat_map (fun n => c_slash :: n) l.

Lemma slashes_app a b : slashes (a ++ b) = slashes a ++ slashes b.
Proof. unfold slashes. apply flat_map_app. Qed.

Lemma slashes_slashed l : l <> [] -> slashes l = c_slash :: slashed l.
Proof.
  unfold slashed. induction l as [|n [|m l] IH]; intro H; [now contradict H|cbn; now rewrite app_nil_r|].
  rewrite join_cons by discriminate. specialize (IH ltac:(discriminate)). change (slashes (n :: m :: l)) with (c_slash :: n ++ slashes (m :: l)). now rewrite IH.
Qed.

Lemma clean_slashes l : no_terminator (slashes l) <-> no_terminator (slashed l).
Proof.
  destruct l as [|n l]; [reflexivity|]. rewrite slashes_slashed by discriminate. unfold no_terminator. split; [intro H; now inversion H|]. intro H. now constructor.
Qed.

Lemma name_then (n s x y : jstring) : ~ In c_slash n -> n ++ s = x ++ c_slash :: y -> exists x', x = n ++ x' /\ s = x' ++ c_slash :: y.
Proof.
  revert x. induction n as [|c n IH]; intros x Hn E; [now exists x|]. destruct x as [|d x]; cbn in E; injection E as E1 E2.
  - exfalso. apply Hn. now left.
  - subst d. destruct (IH x) as (x' & -> & ->); [intro K; apply Hn; now right|exact E2|]. now exists x'.
Qed.

Lemma slashes_split L : Forall real_name L -> forall x y, slashes L = x ++ c_slash :: y -> exists a b, L = a ++ b /\ x = slashes a /\ slashes b = c_slash :: y.
Proof.
  intro H. induction H as [|n L Hn H IH]; intros x y E; [now destruct x|]. cbn [slashes flat_map] in E. fold (slashes L) in E.
  destruct x as [|c x]; cbn in E.
  - injection E as E2. exists [], (n :: L). split; [reflexivity|]. split; [reflexivity|]. cbn. now rewrite <- E2.
  - injection E as <- E2. destruct (name_then _ _ _ _ (real_no_slash n Hn) E2) as (x' & -> & E3). destruct (IH _ _ E3) as (a & b & -> & -> & Hb). now exists (n :: a), b.
Qed.

Lemma slashes_one n b : real_name n -> Forall real_name b -> slashes b = c_slash :: n -> b = [n].
Proof.
  intros Hn Hb E. destruct b as [|m b]; [discriminate|]. cbn in E. fold (slashes b) in E. injection E as E. destruct b as [|k b]; [cbn in E; now rewrite app_nil_r in E; subst|].
  exfalso. apply (real_no_slash n Hn). rewrite <- E. apply in_app_iff. right. now left.
Qed.

Lemma slashes_first n b y : real_name n -> Forall real_name b -> slashes b = c_slash :: n ++ c_slash :: y -> exists b', b = n :: b' /\ b' <> [] /\ y = slashed b'.
Proof.
  intros Hn Hb E. destruct b as [|m b]; [discriminate|]. cbn in E. fold (slashes b) in E. injection E as E. inversion Hb as [|? ? Hm Hb']; subst.
  destruct b as [|k b].
  - exfalso. apply (real_no_slash m Hm). cbn in E. rewrite app_nil_r in E. subst m. apply in_app_iff. right. now left.
  - rewrite slashes_slashed in E by discriminate. apply first_slash in E as [-> <-]; [|now apply real_no_slash..]. exists (k :: b). split; [reflexivity|]. split; [discriminate|reflexivity].
Qed.

Definition between (s : jstring) : list gitem := GAny :: map GLit s ++ [GAny].

Lemma in_any_items l s : in_items (GAny :: l) s <-> exists x y, s = x ++ y /\ no_terminator x /\ in_items l y.
Proof.
  split.
  - intro H. inversion H as [|? ? a b Ha Hb]; subst. inversion Ha; subst. now exists a, b.
  - intros (x & y & -> & Hx & Hy). constructor; [now constructor|exact Hy].
Qed.
Lemma in_name_items l s : in_items (GName :: l) s <-> exists x y, s = x ++ y /\ ~ In c_slash x /\ in_items l y.
Proof.
  split.
  - intro H. inversion H as [|? ? a b Ha Hb]; subst. inversion Ha; subst. now exists a, b.
  - intros (x & y & -> & Hx & Hy). constructor; [now constructor|exact Hy].
Qed.
Lemma in_lit_items t l s : in_items (map GLit t ++ l) s <-> exists y, s = t ++ y /\ in_items l y.
Proof.
  rewrite in_items_app. split.
  - intros (a & b & -> & Ha & Hb). apply in_lits in Ha as ->. now exists b.
  - intros (y & -> & Hy). exists t, y. split; [reflexivity|]. split; [now apply in_lits|exact Hy].
Qed.
Lemma in_no_items s : in_items [] s <-> s = [].
Proof. split; [intro H; now inversion H|intros ->; constructor]. Qed.

(** Stars and characters of one code unit, no two stars in a row: these items can be matched unit by unit. *)
Fixpoint simpleb (l : list gitem) : bool :=
  match l with
  | [] => true
  | GLit c :: l' => (c <? 55296)%N && simpleb l'
  | GAny :: l' | GName :: l' => match l' with [] | GLit _ :: _ => simpleb l' | _ => false end
  | _ => false
  end.

Lemma small_whole c : (c < 55296)%N -> whole_unit c.
Proof. unfold whole_unit, high_half, low_half. lia. Qed.

Lemma simple_apart l a b : simpleb l = true -> match l with [] | GLit _ :: _ => True | _ => False end -> in_items l b -> apart a b.
Proof.
  intros Hl Hm H. destruct l as [|[c| | | | |] l]; try destruct Hm.
  - inversion H; subst. intros x u v y _ E. discriminate.
  - inversion H as [|? ? x y Hx Hy]; subst. inversion Hx; subst. cbn in Hl. apply andb_true_iff in Hl as [Hc _]. apply N.ltb_lt in Hc.
    apply apart_whole. now apply small_whole.
Qed.

Lemma simple_units : forall l s, simpleb l = true -> in_items l (points s) <-> in_items l s.
Proof.
  induction l as [|i l IH]; intros s Hl.
  - split; intro H; inversion H as [E|]; [|constructor]. assert (s = []) as -> by (apply points_inj; now rewrite <- H0). constructor.
  - destruct i as [c| | | | |]; try discriminate Hl.
    + cbn in Hl. apply andb_true_iff in Hl as [Hc Hl]. apply N.ltb_lt, small_whole in Hc. split; intro H; inversion H as [|? ? x y Hx Hy E1 E2]; subst; inversion Hx; subst.
      * symmetry in E2. apply points_cons in E2 as (b & -> & <-); [|exact Hc]. apply (is_next (GLit c) l [c] b); [constructor|now apply IH].
      * cbn [app]. rewrite (points_whole _ _ Hc). apply (is_next (GLit c) l [c]); [constructor|now apply IH].
    + cbn [simpleb] in Hl. assert (Hm : match l with [] | GLit _ :: _ => True | _ => False end) by (destruct l as [|[]]; try exact I; discriminate).
      assert (Hl' : simpleb l = true) by (destruct l as [|[]]; try destruct Hm; exact Hl).
      rewrite !in_name_items. split; intros (x & y & E & Hx & Hy).
      * apply points_split in E as (a & b & -> & <- & <-). exists a, b. rewrite in_slash in Hx. split; [reflexivity|]. split; [exact Hx|now apply IH].
      * subst s. exists (points x), (points y). rewrite in_slash. split; [apply points_app; now apply (simple_apart l)|]. split; [exact Hx|now apply IH].
    + cbn [simpleb] in Hl. assert (Hm : match l with [] | GLit _ :: _ => True | _ => False end) by (destruct l as [|[]]; try exact I; discriminate).
      assert (Hl' : simpleb l = true) by (destruct l as [|[]]; try destruct Hm; exact Hl).
      rewrite !in_any_items. split; intros (x & y & E & Hx & Hy).
      * apply points_split in E as (a & b & -> & <- & <-). exists a, b. rewrite term_points in Hx. split; [reflexivity|]. split; [exact Hx|now apply IH].
      * subst s. exists (points x), (points y). rewrite term_points. split; [apply points_app; now apply (simple_apart l)|]. split; [exact Hx|now apply IH].
Qed.

Lemma jdk_read g f l : jdk_glob g = Some f -> read_glob g = Some l -> simpleb l = true -> forall p, f p = true <-> in_items l (path_str p).
Proof. intros E R Hl p. unfold jdk_glob in E. rewrite R in E. injection E as <-. rewrite glob_matches_iff. now apply simple_units. Qed.

Section DeepGlobs.
  Context (d n : jstring) (L : list jstring).
  Hypothesis Hd : real_name d.
  Hypothesis Hn : real_name n.
  Hypothesis HL : Forall real_name L.
  Hypothesis Hne : L <> [].

  (** [**/d/**] *)
  Lemma glob_within f : jdk_glob (js "**/" ++ d ++ js "/**") = Some f -> read_glob (js "**/" ++ d ++ js "/**") = Some (GAny :: map GLit (c_slash :: d ++ [c_slash]) ++ [GAny]) ->
    simpleb (GAny :: map GLit (c_slash :: d ++ [c_slash]) ++ [GAny]) = true ->
    f (mkPath true L) = true <-> clean_below d (mkPath true L).
  Proof.
    intros E R Hl. rewrite (jdk_read _ _ _ E R Hl); clear E R Hl f. rewrite str_absolute, <- (slashes_slashed L Hne), in_any_items. split.
    - intros (x & y & Es & Hx & Hy). apply in_lit_items in Hy as (z & -> & Hz). apply in_any_items in Hz as (z1 & z2 & -> & Hz1 & Hz2). apply in_no_items in Hz2 as ->.
      rewrite app_nil_r in Es. cbn [app] in Es. rewrite <- app_assoc in Es. destruct (slashes_split L HL _ _ Es) as (a & b & E1 & -> & E2).
      assert (Forall real_name b) as Hb by (rewrite E1 in HL; apply Forall_app in HL; tauto).
      destruct (slashes_first d b z1 Hd Hb E2) as (b' & -> & Hb' & ->). exists a, b'. cbn [p_names]. split; [exact E1|]. split; [exact Hb'|]. split; [now apply clean_slashes|exact Hz1].
    - intros (a & b & E & Hb & Ha & Hb'). cbn [p_names] in E. exists (slashes a), (slashes (d :: b)). rewrite E, slashes_app. split; [reflexivity|]. split; [now apply clean_slashes|].
      apply in_lit_items. exists (slashed b). split; [|apply in_any_items; exists (slashed b), []; split; [now rewrite app_nil_r|]; split; [exact Hb'|constructor]].
      cbn [slashes flat_map]. fold (slashes b). rewrite slashes_slashed by exact Hb. cbn [app]. now rewrite <- app_assoc.
  Qed.

  (** [**/d/**/n] *)
  Lemma glob_deep_within f : jdk_glob (js "**/" ++ d ++ js "/**/" ++ n) = Some f ->
    read_glob (js "**/" ++ d ++ js "/**/" ++ n) = Some (GAny :: map GLit (c_slash :: d ++ [c_slash]) ++ GAny :: map GLit (c_slash :: n)) ->
    simpleb (GAny :: map GLit (c_slash :: d ++ [c_slash]) ++ GAny :: map GLit (c_slash :: n)) = true ->
    f (mkPath true L) = true <-> clean_deep d n (mkPath true L).
  Proof.
    intros E R Hl. rewrite (jdk_read _ _ _ E R Hl); clear E R Hl f. rewrite str_absolute, <- (slashes_slashed L Hne), in_any_items. split.
    - intros (x & y & Es & Hx & Hy). apply in_lit_items in Hy as (z & -> & Hz). apply in_any_items in Hz as (z1 & z2 & -> & Hz1 & Hz2). apply in_lits in Hz2 as ->.
      cbn [app] in Es. rewrite <- app_assoc in Es. destruct (slashes_split L HL _ _ Es) as (a & b & E1 & -> & E2).
      assert (Forall real_name b) as Hb by (rewrite E1 in HL; apply Forall_app in HL; tauto).
      destruct (slashes_first d b (z1 ++ c_slash :: n) Hd Hb E2) as (b' & -> & Hb' & E3). inversion Hb as [|? ? _ Hr]; subst.
      assert (E4 : slashes b' = (c_slash :: z1) ++ c_slash :: n) by (rewrite slashes_slashed by exact Hb'; now rewrite <- E3).
      destruct (slashes_split b' Hr _ _ E4) as (u & v & -> & Eu & Ev). apply Forall_app in Hr as [_ Hv]. apply (slashes_one n v Hn Hv) in Ev as ->.
      assert (u <> []) as Hu by (intros ->; discriminate). rewrite slashes_slashed in Eu by exact Hu. injection Eu as ->.
      exists a, u. cbn [p_names]. split; [reflexivity|]. split; [exact Hu|]. split; [now apply clean_slashes|exact Hz1].
    - intros (a & b & E & Hb & Ha & Hb'). cbn [p_names] in E. exists (slashes a), (slashes (d :: b ++ [n])). rewrite E, slashes_app. split; [reflexivity|]. split; [now apply clean_slashes|].
      apply in_lit_items. exists (slashed b ++ c_slash :: n). split.
      + cbn [slashes flat_map]. fold (slashes (b ++ [n])). rewrite slashes_app, slashes_slashed by exact Hb. cbn. rewrite app_nil_r. cbn [app]. now rewrite <- app_assoc.
      + apply in_any_items. exists (slashed b), (c_slash :: n). split; [reflexivity|]. split; [exact Hb'|now apply in_lits].
  Qed.

  (** [**/n] *)
  Lemma glob_called f : jdk_glob (js "**/" ++ n) = Some f -> read_glob (js "**/" ++ n) = Some (GAny :: map GLit (c_slash :: n)) ->
    simpleb (GAny :: map GLit (c_slash :: n)) = true ->
    f (mkPath true L) = true <-> clean_name n (mkPath true L).
  Proof.
    intros E R Hl. rewrite (jdk_read _ _ _ E R Hl); clear E R Hl f. rewrite str_absolute, <- (slashes_slashed L Hne), in_any_items. split.
    - intros (x & y & Es & Hx & Hy). apply in_lits in Hy as ->. destruct (slashes_split L HL _ _ Es) as (a & b & E1 & -> & E2).
      assert (Forall real_name b) as Hb by (rewrite E1 in HL; apply Forall_app in HL; tauto). apply (slashes_one n b Hn Hb) in E2 as ->.
      exists a. split; [exact E1|now apply clean_slashes].
    - intros (a & E & Ha). cbn [p_names] in E. exists (slashes a), (c_slash :: n). rewrite E, slashes_app. split; [cbn; now rewrite app_nil_r|]. split; [now apply clean_slashes|now apply in_lits].
  Qed.

  (** [*/d/**] on relative paths *)
  Lemma glob_second f : jdk_glob (js "*/" ++ d ++ js "/**") = Some f -> read_glob (js "*/" ++ d ++ js "/**") = Some (GName :: map GLit (c_slash :: d ++ [c_slash]) ++ [GAny]) ->
    simpleb (GName :: map GLit (c_slash :: d ++ [c_slash]) ++ [GAny]) = true ->
    f (mkPath false L) = true <-> exists m l, L = m :: d :: l /\ l <> [] /\ no_terminator (slashed l).
  Proof.
    intros E R Hl. rewrite (jdk_read _ _ _ E R Hl); clear E R Hl f. rewrite str_relative, in_name_items. split.
    - intros (x & y & Es & Hx & Hy). apply in_lit_items in Hy as (z & -> & Hz). apply in_any_items in Hz as (z1 & z2 & -> & Hz1 & Hz2). apply in_no_items in Hz2 as ->.
      rewrite app_nil_r in Es. cbn [app] in Es. rewrite <- app_assoc in Es.
      assert (E4 : slashes L = (c_slash :: x) ++ c_slash :: d ++ [c_slash] ++ z1) by (rewrite slashes_slashed by exact Hne; now rewrite Es).
      destruct (slashes_split L HL _ _ E4) as (a & b & E1 & E3 & E2).
      assert (Forall real_name b) as Hb by (rewrite E1 in HL; apply Forall_app in HL; tauto).
      destruct (slashes_first d b z1 Hd Hb E2) as (b' & -> & Hb' & ->). destruct a as [|m a]; [discriminate|]. cbn in E3. fold (slashes a) in E3. injection E3 as ->.
      destruct a as [|k a]; [|exfalso; apply Hx; apply in_app_iff; right; now left]. exists m, b'. split; [exact E1|]. now split.
    - intros (m & l & E & Hl & Hc). exists m, (slashes (d :: l)). assert (real_name m) as Hm by (rewrite E in HL; now inversion HL).
      rewrite E. split; [|split; [now apply real_no_slash|]].
      + assert (c_slash :: slashed (m :: d :: l) = c_slash :: m ++ slashes (d :: l)) as K by (rewrite <- slashes_slashed by discriminate; reflexivity). now injection K.
      + apply in_lit_items. exists (slashed l). split; [|apply in_any_items; exists (slashed l), []; split; [now rewrite app_nil_r|]; split; [exact Hc|constructor]].
        cbn [slashes flat_map]. fold (slashes l). rewrite slashes_slashed by exact Hl. cbn [app]. now rewrite <- app_assoc.
  Qed.
End DeepGlobs.

(** ** The structure of the project *)
Lemma readable_everywhere dk z p : whole_disk_readable dk -> readable_below dk z p.
Proof.
  intro H. split.
  - intro Hd. destruct (H p Hd) as (l & E & _). now exists l.
  - intros k q Hq _. split; [|intros Hd _; destruct (H q Hd) as (l & E & _); now exists l].
    inversion Hq as [names n Hd El Hin|k' q' names n _ Hd El Hin]; subst.
    + destruct (H p Hd) as (l & E & K). rewrite El in E. injection E as <-. auto.
    + destruct (H q' Hd) as (l & E & K). rewrite El in E. injection E as <-. auto.
Qed.

Lemma decides_main_class w dk : steady w dk -> whole_disk_readable dk -> decides w anywhere (pm_any_descendant (pm_name main_class)) (has_main_class dk).
Proof.
  intros Hw Hr. destruct (decides_eq w main_class) as (gn & N1 & N2).
  assert (K : forall p h, exists b h', pm_any_descendant (pm_name main_class) p w h = (Ok b, h') /\ (b = true <-> has_main_class dk p)).
  { intros p h. destruct (C40_descendant_lemma w dk (pm_name main_class) gn p h Hw (readable_everywhere dk _ p Hr)) as (b & h' & E & Hb).
    - intros q h0 _. apply N1.
    - exists b, h'. split; [exact E|]. rewrite Hb. unfold has_main_class. split; intros (k & q & Hk & Hd & Hq); exists k, q; (split; [exact Hk|]; split; [exact Hd|]); now apply N2. }
  exists (fun p => match fst (pm_any_descendant (pm_name main_class) p w []) with Ok b => b | Throw _ => false end). split.
  - intros p h. destruct (K p h) as (b & h' & E & Hb), (K p []) as (b' & h'' & E' & Hb'). exists h'. rewrite E, E'. cbn [fst]. do 2 f_equal. eapply iff_bool; [exact Hb|exact Hb'].
  - intros p _. destruct (K p []) as (b' & h'' & E' & Hb'). rewrite E'. exact Hb'.
Qed.

Lemma decides_dir w dk : steady w dk -> decides w anywhere pm_is_directory (is_dir dk).
Proof.
  intro Hw. exists (is_dirb dk). split; [now apply is_directory_answers|]. intros p _. unfold is_dirb, is_dir. destruct (d_kind dk p) as [[]|]; split; congruence.
Qed.

Section Project.
  Context (w : world) (dk : disk) (T : list jstring) (m : jstring).
  Hypothesis U : usual w dk.
  Hypothesis Hcwd : jv_cwd (w_jvm w) = T ++ [m].
  Hypothesis Hne : T <> [].
  Hypothesis Hread : whole_disk_readable dk.
  Let P := below_T T.
  Let folder := path_of (js "..").

  Lemma project_real_T : Forall real_name T.
  Proof. pose proof (us_cwd _ _ U) as H. rewrite Hcwd in H. now apply Forall_app in H. Qed.

  Lemma project_at : at_names w folder T.
  Proof.
    split; [exact project_real_T|]. change folder with (mkPath false [n_dotdot]). eapply same_trans; [apply same_cwd|]. rewrite Hcwd, <- app_assoc. cbn [app].
    pose proof (us_cwd _ _ U) as H. rewrite Hcwd in H. apply Forall_app in H as [_ H]. inversion H as [|? ? [_ [H1 H2]] _]; subst.
    pose proof (same_up (T ++ [m]) true T m [] H1 H2) as K. now rewrite app_nil_r in K.
  Qed.

  Lemma project_location : location w folder = mkPath true T.
  Proof.
    rewrite <- (DocTreeFacts.location_real w T project_real_T). apply same_location_location. apply project_at.
  Qed.

  Lemma below_nonempty p : P p -> exists L, p = mkPath true L /\ L <> [] /\ Forall real_name L /\ at_names w p L.
  Proof.
    intros Hp. destruct (below_at w T project_real_T p Hp) as (H1 & H2 & H3). exists (p_names p). split; [exact H2|]. split; [|now split].
    destruct Hp as (rest & _ & ->). cbn. intro K. apply app_eq_nil in K. now destruct K.
  Qed.

  Lemma absolute_decides h g f Q : g <> s_star -> jdk_glob g = Some f -> (forall L, L <> [] -> Forall real_name L -> f (mkPath true L) = true <-> Q (mkPath true L)) ->
    exists c, pm_absolute_path_glob g w h = (Ok c, h) /\ decides w P c Q.
  Proof.
    intros Hg E HQ. destruct (absolute_glob w h g f (us_globs _ _ U) (us_cwd _ _ U) Hg E) as (c & Ec & Hc). exists c. split; [exact Ec|].
    apply tells_decides; [eapply absolute_pure, Ec|]. intros p Hp. destruct (below_nonempty p Hp) as (L & -> & HL & HR & Ha).
    exists (f (mkPath true L)). split; [intro h'; apply (Hc _ L Ha (or_introl eq_refl))|]. now apply HQ.
  Qed.

  Lemma sources_decides h : exists c, pm_relative_path_glob folder (js "*/src/**") w h = (Ok c, h) /\
    decides w P c (fun p => exists m l, p_names p = T ++ m :: js "src" :: l /\ l <> [] /\ no_terminator (slashed l)).
  Proof.
    destruct (jdk_glob (js "*/src/**")) as [f|] eqn:E; [|discriminate].
    destruct (relative_glob w h (js "*/src/**") f folder T (us_globs _ _ U) ltac:(discriminate) E project_at) as (c & Ec & Hc). exists c. split; [exact Ec|].
    apply tells_decides; [eapply relative_pure, Ec|]. intros p Hp. destruct (below_at w T project_real_T p Hp) as (Ha & _ & _).
    eexists. split; [intro h'; apply (Hc _ _ _ Ha)|]. destruct Hp as (rest & Hr & ->). cbn [p_names]. rewrite (proj2 (rel_under T (T ++ rest) rest ltac:(destruct rest as [|x rest]; [now left|right; exists x, rest; split; [reflexivity|]; inversion Hr as [|? ? [_ [_ H]] _]; exact H])) eq_refl).
    destruct rest as [|x rest].
    - rewrite (jdk_read _ _ _ E eq_refl eq_refl). split.
      + intro K. exfalso. apply in_name_items in K as (x & y & Es & _ & K). cbn in Es. symmetry in Es. apply app_eq_nil in Es as [-> ->].
        change (in_items (map GLit (js "/src/") ++ [GAny]) []) in K. apply in_lit_items in K as (z & Ez & _). discriminate.
      + intros (n & l & E' & _). exfalso. apply app_inv_head in E'. discriminate.
    - rewrite (glob_second (js "src") (x :: rest) ltac:(real_names) Hr ltac:(discriminate) f E eq_refl eq_refl).
      split; intros (n & l & E1 & E2); exists n, l; (split; [|exact E2]); [now rewrite E1|]. now apply app_inv_head in E1.
  Qed.

  Lemma called_decides h n f : real_name n -> jdk_glob (js "**/" ++ n) = Some f -> read_glob (js "**/" ++ n) = Some (GAny :: map GLit (c_slash :: n)) ->
    simpleb (GAny :: map GLit (c_slash :: n)) = true ->
    exists c, pm_absolute_path_glob (js "**/" ++ n) w h = (Ok c, h) /\ decides w P c (clean_name n).
  Proof. intros Hn E R Hl. apply (absolute_decides h _ f); [discriminate|exact E|]. intros L HL Hr. now apply glob_called. Qed.

  Lemma any_of_ok c ms h : any_of (c :: ms) w h = (Ok (fun p => pm_any (c :: ms) p), h).
  Proof. unfold any_of, lift_res, pm_any_of, combine_matchers. now rewrite check_non_null_spec. Qed.
  Lemma none_of_ok c ms h : none_of (c :: ms) w h = (Ok (fun p => pm_none (c :: ms) p), h).
  Proof. unfold none_of, lift_res, pm_none_of, combine_matchers. now rewrite check_non_null_spec. Qed.

  Lemma everywhere c Q : decides w anywhere c Q -> decides w P c Q.
  Proof. apply decides_weaken; [exact (fun _ _ => I)|reflexivity]. Qed.

  Theorem project_structure_prints : prints_wish project_structure_run w dk T (project_wish dk T).
  Proof.
    pose proof project_real_T as HT. pose proof project_at as Hat. pose proof (us_steady _ _ U) as Hw.
    assert (Hm : forall h, exists dirs files cli examples core main_java,
      (forall X (k : matcher -> matcher -> matcher -> matcher -> matcher -> matcher -> M X),
        (target <- pm_relative_path_glob folder (js "target");
         src <- pm_relative_path_glob folder (js "src");
         sources <- pm_relative_path_glob folder (js "*/src/**");
         not_excluded <- none_of [pm_name_starting_with (js "."); target; src; sources];
         dir_filter <- any_of [pm_any_descendant (pm_name (js "FileTreePrettyPrinter.java")); not_excluded];
         main_entry <- pm_absolute_path_glob (js "**/jfiletreeprettyprinter-core/**/FileTreePrettyPrinter.java");
         in_core <- pm_absolute_path_glob (js "**/jfiletreeprettyprinter-core/**");
         others <- none_of [in_core; pm_name_starting_with (js ".")];
         file_filter <- any_of [main_entry; others];
         unused <- pm_absolute_path_glob (js "**/jfiletreeprettyprinter-core/src/main/java/io/github/computerdaddyguy/jfiletreeprettyprinter");
         unused_else <- none_of [pm_name_starting_with (js ".")];
         cli <- pm_absolute_path_glob (js "**/jfiletreeprettyprinter-cli");
         examples <- pm_absolute_path_glob (js "**/jfiletreeprettyprinter-examples");
         core <- pm_absolute_path_glob (js "**/jfiletreeprettyprinter-core");
         main_java <- pm_relative_path_glob folder (js "src/main/java");
         k dir_filter file_filter cli examples core main_java) w h = k dirs files cli examples core main_java w h) /\
      decides w P dirs (project_dirs dk T) /\ decides w P files project_files /\
      decides w P cli (clean_name (js "jfiletreeprettyprinter-cli")) /\ decides w P examples (clean_name (js "jfiletreeprettyprinter-examples")) /\
      decides w P core (clean_name core_module) /\ decides w P main_java (fun p => p_names p = T ++ [js "src"; js "main"; js "java"])).
    { intro h.
      destruct (relative_names w dk T folder U HT Hat h [js "target"] (js "target") ltac:(discriminate) ltac:(real_names) ltac:(plain_literal)) as (target & E1 & D1).
      destruct (relative_names w dk T folder U HT Hat h [js "src"] (js "src") ltac:(discriminate) ltac:(real_names) ltac:(plain_literal)) as (src & E2 & D2).
      destruct (relative_names w dk T folder U HT Hat h [js "src"; js "main"; js "java"] (js "src/main/java") ltac:(discriminate) ltac:(real_names) ltac:(plain_literal)) as (main_java & E3 & D3).
      destruct (sources_decides h) as (sources & E4 & D4).
      destruct (jdk_glob (js "**/jfiletreeprettyprinter-core/**/FileTreePrettyPrinter.java")) as [f5|] eqn:G5; [|discriminate].
      destruct (absolute_decides h (js "**/jfiletreeprettyprinter-core/**/FileTreePrettyPrinter.java") f5 (clean_deep core_module main_class) ltac:(discriminate) G5) as (main_entry & E5 & D5).
      { intros L HL Hr. apply (glob_deep_within core_module main_class L ltac:(real_names) ltac:(real_names) Hr HL f5 G5 eq_refl eq_refl). }
      destruct (jdk_glob (js "**/jfiletreeprettyprinter-core/**")) as [f6|] eqn:G6; [|discriminate].
      destruct (absolute_decides h (js "**/jfiletreeprettyprinter-core/**") f6 (clean_below core_module) ltac:(discriminate) G6) as (in_core & E6 & D6).
      { intros L HL Hr. apply (glob_within core_module L ltac:(real_names) Hr HL f6 G6 eq_refl eq_refl). }
      destruct (jdk_glob (js "**/jfiletreeprettyprinter-core/src/main/java/io/github/computerdaddyguy/jfiletreeprettyprinter")) as [f7|] eqn:G7; [|discriminate].
      destruct (absolute_glob w h (js "**/jfiletreeprettyprinter-core/src/main/java/io/github/computerdaddyguy/jfiletreeprettyprinter") f7 (us_globs _ _ U) (us_cwd _ _ U) ltac:(discriminate) G7) as (unused & E7 & _).
      destruct (called_decides h (js "jfiletreeprettyprinter-cli") _ ltac:(real_names) eq_refl eq_refl eq_refl) as (cli & E8 & D8).
      destruct (called_decides h (js "jfiletreeprettyprinter-examples") _ ltac:(real_names) eq_refl eq_refl eq_refl) as (examples & E9 & D9).
      destruct (called_decides h core_module _ ltac:(real_names) eq_refl eq_refl eq_refl) as (core & E10 & D10).
      do 6 eexists. split; [|split; [|split; [|split; [|split; [|split]]]]].
      - intros X k. rewrite (bind_ok _ _ _ _ _ _ E1), (bind_ok _ _ _ _ _ _ E2), (bind_ok _ _ _ _ _ _ E4).
        rewrite (bind_ok _ _ _ _ _ _ (none_of_ok _ _ h)), (bind_ok _ _ _ _ _ _ (any_of_ok _ _ h)).
        rewrite (bind_ok _ _ _ _ _ _ E5), (bind_ok _ _ _ _ _ _ E6).
        rewrite (bind_ok _ _ _ _ _ _ (none_of_ok _ _ h)), (bind_ok _ _ _ _ _ _ (any_of_ok _ _ h)).
        rewrite (bind_ok _ _ _ _ _ _ E7), (bind_ok _ _ _ _ _ _ (none_of_ok _ _ h)).
        rewrite (bind_ok _ _ _ _ _ _ E8), (bind_ok _ _ _ _ _ _ E9), (bind_ok _ _ _ _ _ _ E10), (bind_ok _ _ _ _ _ _ E3). reflexivity.
      - eapply decides_weaken; [intros p Hp; exact Hp| |apply decides_any; constructor; [apply everywhere, (decides_main_class w dk Hw Hread)|constructor; [|constructor]]].
        2:{ apply (decides_none w P [_; _; _; _]). constructor; [apply everywhere, decides_starting|]. constructor; [exact D1|]. constructor; [exact D2|]. constructor; [exact D4|constructor]. }
        intros p _. unfold project_dirs. rewrite !Exists_cons, !Exists_nil. tauto.
      - eapply decides_weaken; [intros p Hp; exact Hp| |apply decides_any; constructor; [exact D5|constructor; [|constructor]]].
        2:{ apply (decides_none w P [_; _]). constructor; [exact D6|]. constructor; [apply everywhere, decides_starting|constructor]. }
        intros p _. unfold project_files. rewrite !Exists_cons, !Exists_nil. tauto.
      - exact D8.
      - exact D9.
      - exact D10.
      - exact D3. }
    apply (prints_made _ w dk T _ folder U HT Hne project_location).
    - intros rest Hr. assert (Hp : P (mkPath true (T ++ rest))) by (exists rest; split; [exact Hr|reflexivity]).
      destruct (Hm []) as (dirs & files & cli & examples & core & main_java & _ & _ & _ & D3 & D4 & D5 & D6). split.
      + apply (rules_total w P None [(cli, clean_name (js "jfiletreeprettyprinter-cli"), Some 0%Z); (examples, clean_name (js "jfiletreeprettyprinter-examples"), Some 0%Z);
          (core, clean_name core_module, Some 1%Z)] (mkPath true (T ++ rest)) Hp). repeat (apply Forall_cons; [assumption|]). constructor.
      + apply (rules_total w P None [
          (pm_name (js "project-structure.png"), named (eq (js "project-structure.png")), tabbed 1 (js "// This image"));
          (pm_name (js "README.md"), named (eq (js "README.md")), tabbed 2 (js "// You're reading at this!"));
          (pm_name main_class, named (eq main_class), tabbed 1 (js "// Lib main entry point"));
          (pm_name (js "jfiletreeprettyprinter-cli"), named (eq (js "jfiletreeprettyprinter-cli")), tabbed 1 (js "// Everything to build the executable"));
          (pm_name core_module, named (eq core_module), tabbed 1 (js "// The Java lib"));
          (pm_name (js "jfiletreeprettyprinter-examples"), named (eq (js "jfiletreeprettyprinter-examples")), tabbed 1 (js "// Some examples"));
          (main_java, (fun p => p_names p = T ++ [js "src"; js "main"; js "java"]), Some [])] (mkPath true (T ++ rest)) Hp).
        repeat (apply Forall_cons; [first [apply everywhere, decides_eq|assumption]|]). constructor.
    - intro h. destruct (Hm h) as (dirs & files & cli & examples & core & main_java & Hk & D1 & D2 & D3 & D4 & D5 & D6).
      destruct (limit_rules w P [(cli, clean_name (js "jfiletreeprettyprinter-cli"), 0%Z); (examples, clean_name (js "jfiletreeprettyprinter-examples"), 0%Z);
        (core, clean_name core_module, 1%Z)]) with (d := (-1)%Z) as (gl & L1 & L2); [|reflexivity|].
      { repeat (apply Forall_cons; [split; [assumption|cbn; lia]|]). constructor. }
      destruct (extension_rules w P [
          (pm_name (js "project-structure.png"), named (eq (js "project-structure.png")), tabbed 1 (js "// This image"));
          (pm_name (js "README.md"), named (eq (js "README.md")), tabbed 2 (js "// You're reading at this!"));
          (pm_name main_class, named (eq main_class), tabbed 1 (js "// Lib main entry point"));
          (pm_name (js "jfiletreeprettyprinter-cli"), named (eq (js "jfiletreeprettyprinter-cli")), tabbed 1 (js "// Everything to build the executable"));
          (pm_name core_module, named (eq core_module), tabbed 1 (js "// The Java lib"));
          (pm_name (js "jfiletreeprettyprinter-examples"), named (eq (js "jfiletreeprettyprinter-examples")), tabbed 1 (js "// Some examples"));
          (main_java, (fun p => p_names p = T ++ [js "src"; js "main"; js "java"]), Some [])]) as (gx & X1 & X2).
      { repeat (apply Forall_cons; [split; [first [apply everywhere, decides_eq|assumption]|apply some_not_none]|]). constructor. }
      set (ranks := [
          (pm_name core_module, named (eq core_module), (-100)%Z);
          (pm_name (js "jfiletreeprettyprinter-examples"), named (eq (js "jfiletreeprettyprinter-examples")), (-90)%Z);
          (pm_name (js "jfiletreeprettyprinter-cli"), named (eq (js "jfiletreeprettyprinter-cli")), (-80)%Z);
          (pm_name (js "assets"), named (eq (js "assets")), (-70)%Z);
          (pm_name (js "docs"), named (eq (js "docs")), (-60)%Z);
          (pm_is_directory, is_dir dk, (-1)%Z)]).
      assert (Hranks : Forall (fun r => decides w anywhere (fst (fst r)) (snd (fst r))) ranks).
      { repeat (apply Forall_cons; [first [apply decides_eq|now apply decides_dir]|]). constructor. }
      destruct (sort_rules w anywhere ranks) as (gs & S1 & S2).
      { eapply Forall_impl; [|apply Forall_and; [exact Hranks|repeat (apply Forall_cons; [|]); [..|apply Forall_nil]; cbn [snd ranks]]]; [intros r Hr; exact Hr|discriminate..]. }
      destruct (C73_lemma w (us_lower _ _ U)) as (f & Ef & _).
      eexists. split; [|unfold project_structure_run, project_structure_with; rewrite Hk; unfold customized, bind, get_jvm; cbn [set_all set_option require]; rewrite Ef; reflexivity].
      apply fulfilled; [exact U|exact HT|reflexivity|reflexivity|reflexivity|exact D1|exact D2|..|exact Ef].
      + exists gl. split; [exact L1|]. intros p l Hp Hl. apply L2; assumption.
      + exists (then_by (by_prec gs) alphabetical). split; [|split].
        * eapply refined_configured; [apply contract_by_prec|reflexivity].
        * intro p. apply answers_then; [|exact (answers_alphabetical w)]. intros q h1. apply answers_then; [|exact (answers_alphabetical w)].
          apply answers_comparing. exact S1.
        * intros p q. rewrite refined_lt. cbn [wi_before project_wish].
          assert (R : forall p, project_rank dk p (gs p)).
          { intro x. destruct (rules_total w anywhere 0%Z ranks x I Hranks) as (z & Hz). rewrite (S2 x z I Hz). exact Hz. }
          assert (B : forall a b : path, refined (fun a b => zcompare (gs a) (gs b)) a b <-> (gs a < gs b)%Z \/ (gs a = gs b /\ by_names a b)).
          { intros a b. unfold refined, by_names, zcompare. destruct (Z.ltb_spec (gs a) (gs b)), (Z.ltb_spec (gs b) (gs a)); try lia; intuition lia. }
          assert (K : refined (by_prec gs) p q <-> refined (fun a b => zcompare (gs a) (gs b)) p q).
          { unfold by_prec. rewrite <- !refined_lt. set (c := fun a b : path => zcompare (gs a) (gs b)). unfold then_by.
            destruct (Z.eqb_spec (c p q) 0) as [E|E].
            - destruct (Z.eqb_spec (alphabetical p q) 0); [now rewrite e|reflexivity].
            - destruct (Z.eqb_spec (c p q) 0); [contradiction|reflexivity]. }
          rewrite K, B. split; [intro H; exists (gs p), (gs q); split; [apply R|]; split; [apply R|exact H]|].
          intros (a & b & Ra & Rb & H). rewrite (first_rule_fun _ _ _ _ (R p) Ra), (first_rule_fun _ _ _ _ (R q) Rb). exact H.
      + exists gx. split; [exact X1|]. intros p x Hp Hx. apply X2; assumption.
  Qed.
End Project.
