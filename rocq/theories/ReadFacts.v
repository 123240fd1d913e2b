(** * Proofs about reading a printed text *)

From Coq Require Import Lia Arith.
From Verif Require Import SpecScan SpecRead PathFacts RenderFacts LayoutFacts ShownFacts PrintFacts OutlineFacts TreeFacts ScanFacts ScanPrintFacts.
Open Scope nat_scope.

Fixpoint levels (d : nat) (t : dtree) : list (nat * jstring) := match t with DT l ks => (d, l) :: flat_map (levels (S d)) ks end.

Lemma levels_shift t : forall d, levels (S d) t = map shift (levels d t).
Proof.
  induction t as [l ks IH] using dtree_ind'. intro d. cbn [levels map]. f_equal.
  induction IH as [|k ks Hk _ IHk]; [reflexivity|]. cbn [flat_map]. now rewrite map_app, Hk, IHk.
Qed.

Lemma levels_rows t : map drow (rows t) = levels 0 t.
Proof.
  induction t as [l ks IH] using dtree_ind'. rewrite rows_eq. cbn [map levels]. f_equal.
  induction IH as [|k ks Hk _ IHk]; [reflexivity|]. rewrite drows_below_cons, Hk, IHk, <- levels_shift. reflexivity.
Qed.

Lemma levels_below ks : map drow (rows_below ks) = flat_map (levels 1) ks.
Proof. pose proof (levels_rows (DT [] ks)) as H. rewrite rows_eq in H. cbn [map levels] in H. now injection H. Qed.

Definition ends_at (d : nat) (l : list (nat * jstring)) : Prop := match l with [] => True | (k, _) :: _ => k < d end.

Lemma gather_levels : forall fuel ks d tail, length (flat_map (levels d) ks ++ tail) <= fuel -> ends_at d tail ->
  gather fuel d (flat_map (levels d) ks ++ tail) = (ks, tail).
Proof.
  induction fuel as [|fuel IH]; intros ks d tail Hf Ht.
  - destruct ks as [|[l kids] ks]; [|cbn in Hf; lia]. destruct tail; [reflexivity|cbn in Hf; lia].
  - destruct ks as [|[l kids] ks].
    + cbn [flat_map app gather]. destruct tail as [|[k l] tail]; [reflexivity|]. cbn in Ht. destruct (Nat.eqb_spec k d); [lia|reflexivity].
    + cbn [flat_map levels app gather] in *. rewrite Nat.eqb_refl, <- app_assoc in *. cbn [length] in Hf.
      rewrite IH.
      * rewrite IH; [reflexivity| |exact Ht]. rewrite app_length in Hf. lia.
      * lia.
      * destruct ks as [|[l' kids'] ks]; cbn; [|lia]. destruct tail as [|[k l'] tail]; [exact I|]. cbn in *. lia.
Qed.

Lemma jeqb_true a b : jeqb a b = true <-> a = b.
Proof. destruct (jeqb_spec a b); split; congruence. Qed.

Lemma jeqb_same a : jeqb a a = true.
Proof. now apply jeqb_true. Qed.

Lemma firstn_sym n (s : jstring) r : length s = n -> firstn n (s ++ r) = s.
Proof. intros <-. rewrite firstn_app, Nat.sub_diag, firstn_all. cbn. apply app_nil_r. Qed.

Lemma skipn_sym n (s : jstring) r : length s = n -> skipn (n + 1) (s ++ [c_space] ++ r) = r.
Proof. intros <-. rewrite app_assoc. replace (length s + 1) with (length (s ++ [c_space])) by (rewrite app_length; reflexivity). now rewrite skipn_app, skipn_all, Nat.sub_diag. Qed.

Lemma read_line_row tf : distinguishable tf -> forall flags l fuel, flags <> [] -> length (row_prefix tf flags ++ l) <= fuel ->
  read_line tf fuel (row_prefix tf flags ++ l) = Some (length flags, l).
Proof.
  intros ((w & Hw1 & Hw2 & Hw3 & Hw4) & Hd & _).
  assert (Hne : forall b i, In b [tf_non_last tf; tf_last tf] -> In i [tf_continuation tf; tf_empty tf] -> jeqb i b = false).
  { intros b i Hb Hi. destruct (jeqb_spec i b) as [E|]; [|reflexivity]. exfalso. exact (Hd b i Hb Hi (eq_sym E)). }
  induction flags as [|b flags IH]; intros l fuel Hn Hf; [congruence|]. destruct flags as [|b' flags].
  - cbn [row_prefix] in *. rewrite <- app_assoc in *. destruct fuel as [|fuel]; [rewrite !app_length in Hf; cbn in Hf; lia|].
    cbn [read_line]. rewrite Hw2. rewrite firstn_sym, skipn_sym by (destruct b; assumption).
    destruct b; [rewrite jeqb_same; reflexivity|]. rewrite jeqb_same, Bool.orb_true_r. reflexivity.
  - change (row_prefix tf (b :: b' :: flags)) with ((if b then tf_empty tf else tf_continuation tf) ++ [c_space] ++ row_prefix tf (b' :: flags)) in *.
    rewrite <- !app_assoc in *. destruct fuel as [|fuel]; [rewrite !app_length in Hf; cbn in Hf; lia|].
    cbn [read_line]. rewrite Hw2. rewrite firstn_sym, skipn_sym by (destruct b; assumption).
    rewrite (Hne (tf_last tf)), (Hne (tf_non_last tf)); [|cbn; auto|destruct b; cbn; auto|cbn; auto|destruct b; cbn; auto]. cbn [orb].
    rewrite IH; [|discriminate|rewrite !app_length in *; cbn [length] in Hf; lia].
    destruct b; [rewrite jeqb_same|rewrite jeqb_same, Bool.orb_true_r]; reflexivity.
Qed.

Lemma read_lines_rows tf l : distinguishable tf -> (forall r, In r l -> fst r <> []) -> read_lines tf (map (row_text tf) l) = Some (map drow l).
Proof.
  intros Hd. induction l as [|r l IH]; intro H; [reflexivity|]. cbn [map read_lines]. unfold row_text at 1 2.
  rewrite read_line_row; [|exact Hd|apply H; now left|reflexivity]. rewrite IH; [reflexivity|]. intros; apply H; now right.
Qed.

Lemma read_text_text tf t : distinguishable tf -> labels_on_one_line t -> read_text tf (text tf t) = Some t.
Proof.
  intros Hd Hl. unfold read_text, text. rewrite split_on_join.
  - destruct t as [l ks]. rewrite rows_eq. cbn [map]. rewrite read_lines_rows; [|exact Hd|apply rows_below_flags_nonempty].
    rewrite levels_below. rewrite <- (app_nil_r (flat_map (levels 1) ks)). rewrite gather_levels; [reflexivity|lia|exact I].
  - intro E. apply map_eq_nil in E. now apply (rows_nonempty t).
  - apply Forall_forall. intros s Hs. apply in_map_iff in Hs. destruct Hs as (r & <- & Hr). unfold row_text. rewrite in_app_iff.
    intros [H|H]; [now apply (row_prefix_nl_free tf (fst r) Hd)|now apply (Hl r)].
Qed.

(** ** From labels to names *)

Lemma split_chain (l : list jstring) : (forall n, In n l -> ~ In c_slash n) -> split_on c_slash (concat (map (fun n => n ++ js "/") l)) = l ++ [[]].
Proof.
  induction l as [|n l IH]; intro H; [reflexivity|]. cbn [map concat]. rewrite <- app_assoc. change (js "/" ++ ?x) with (c_slash :: x).
  rewrite (split_on_app_free c_slash n) by (apply H; now left).
  rewrite IH by (intros; apply H; now right). reflexivity.
Qed.

Lemma read_names_labelled v s : bare v -> clear_names s -> read_names (labelled v s) = outline_of s.
Proof.
  intro B. induction s as [chain ks IH|f k|] using shown_ind'; intro C; rewrite ?(dir_label_text v), ?(file_label_text v) by assumption; cbn [outline_of].
  - inversion C as [? ? Cn Cc Ck| |]; subst. cbn [read_names]. rewrite split_chain.
    + rewrite rev_app_distr. cbn [rev app]. destruct (rev (map last_name chain)) as [|n ns] eqn:E.
      { exfalso. apply Cn. apply (f_equal (@length jstring)) in E. rewrite rev_length, map_length in E. now destruct chain. }
      change (rev ns ++ [n]) with (rev (n :: ns)). rewrite <- E, rev_involutive, map_map. f_equal. clear -IH Ck. induction IH as [|k ks Hk _ IHk]; [reflexivity|]. cbn [map].
      rewrite Hk by (apply Ck; now left). f_equal. apply IHk. intros; apply Ck; now right.
    + intros n Hn. apply in_map_iff in Hn. destruct Hn as (d & <- & Hd). apply (Cc d Hd).
  - inversion C as [|? ? Cf Cu|]; subst. cbn [read_names]. rewrite split_on_free.
    2: { intro H. apply in_app_or in H. destruct H as [H|H]; [now apply (proj1 (proj2 Cf))|now apply mark_no_slash in H]. }
    cbn [rev app]. destruct (last_name f ++ kind_mark k) as [|x l] eqn:E.
    { exfalso. apply app_eq_nil in E. now apply (proj1 Cf). }
    rewrite <- E. destruct (jeqb_spec (last_name f ++ kind_mark k) (js "...")) as [D|_]; [now apply file_not_dots in D|].
    assert (R : kind_mark k = [] -> match rev (last_name f) with 42%N :: n => OFile (rev n) (js "*") | 63%N :: n => OFile (rev n) (js "?") | _ => OFile (last_name f) [] end = OFile (last_name f) []).
    { intros _. destruct (rev (last_name f)) as [|y r] eqn:Er; [reflexivity|].
      assert (Ef : last_name f = rev r ++ [y]) by (rewrite <- (rev_involutive (last_name f)), Er; reflexivity).
      destruct (proj2 Cu (rev r)) as [U1 U2]. destruct (N.eq_dec y 42) as [->|N1]; [now elim U1|]. destruct (N.eq_dec y 63) as [->|N2]; [now elim U2|].
      destruct y as [|q]; [reflexivity|]. do 6 (destruct q as [q|q|]; try reflexivity; try congruence). }
    destruct k; cbn [kind_mark] in *; rewrite ?app_nil_r, ?rev_app_distr; try (apply R; reflexivity).
    + change (js "*") with [42%N]. cbn [rev app]. now rewrite rev_involutive.
    + change (js "?") with [63%N]. cbn [rev app]. now rewrite rev_involutive.
  - reflexivity.
Qed.

Theorem run_read o p w h out h' v :
  sees w o v -> distinguishable (o_tree_format o) -> pretty_print o p w h = (Ok out, h') ->
  exists e h0 s, scan o (location w p) w h = (Ok e, h0) /\ shows v true e s /\
    (labels_on_one_line (labelled v s) -> read_text (o_tree_format o) out = Some (labelled v s)).
Proof.
  intros Hs Hd H. destruct (C01_lemma _ _ _ _ _ _ _ Hs H) as (e & h0 & s & Hsc & Hsh & ->). exists e, h0, s. repeat split; auto.
  intro Hl. apply read_text_text; assumption.
Qed.

Theorem run_names o p w out v s :
  bare v -> distinguishable (o_tree_format o) -> displays o v w p s out -> clear_names s ->
  option_map read_names (read_text (o_tree_format o) out) = Some (outline_of s).
Proof.
  intros B Hd (Hs & e & h & k & Hsc & Hsh & H) C. destruct (run_read _ _ _ _ _ _ _ Hs Hd H) as (e' & h0 & s' & Hsc' & Hsh' & R).
  rewrite Hsc in Hsc'. injection Hsc' as <- _. rewrite (shows_fun _ _ _ _ _ Hsh' Hsh) in R.
  rewrite R by (now apply clear_one_line). cbn [option_map]. now rewrite read_names_labelled.
Qed.

(** ** From names to paths *)

Definition sits_in (base : path) (e : entry) : Prop := forall q, entry_path e = Some q -> q = child base (last_name q).

Fixpoint placed (e : entry) : Prop :=
  match e with
  | EDir d es => (fix all (l : list entry) : Prop := match l with [] => True | c :: l => (placed c /\ sits_in d c) /\ all l end) es
  | _ => True
  end.

Lemma placed_dir d es : placed (EDir d es) <-> Forall (fun c => placed c /\ sits_in d c) es.
Proof.
  cbn [placed]. induction es as [|c es IH]; [split; intro; [constructor|exact I]|]. split.
  - intros [H1 H2]. constructor; [exact H1|now apply IH].
  - intro H. inversion H; subst. split; [assumption|now apply IH].
Qed.

Lemma child_last p n : last_name (child p n) = n.
Proof. unfold last_name, child. cbn. apply last_last. Qed.

Lemma tree_placed st dk : forall e d p, tree_at st dk d p e -> placed e.
Proof.
  induction e as [p0 es IH|f k|q|n] using entry_ind'; intros d p H; try exact I.
  inversion H as [|? ? Hd Hm|? ? names order es' Hd Hm Hl Ho HF]; subst.
  - repeat split. discriminate.
  - apply placed_dir. rewrite Forall_app. split.
    + apply Forall_app in IH. destruct IH as [IH _].
      assert (Hc : forall c, In c (limited (s_limit st p0) order) -> exists n, c = child p0 n).
      { intros c Hc. apply limited_incl in Hc. apply (Permutation_in c (Permutation_sym (proj1 Ho))) in Hc. apply filter_In in Hc. destruct Hc as [Hc _].
        apply in_map_iff in Hc. destruct Hc as (n & <- & _). now exists n. }
      clear H. revert IH Hc. induction HF as [|c e cs es He HF IHF]; intros IH Hc; constructor.
      * inversion IH as [|? ? Hce _]; subst. split; [eapply Hce; exact He|]. intros q Hq. rewrite (tree_at_path _ _ _ _ _ He) in Hq. injection Hq as <-.
        destruct (Hc c (or_introl eq_refl)) as [n ->]. now rewrite child_last.
      * inversion IH; subst. apply IHF; [assumption|]. intros x Hx. apply Hc. now right.
    + unfold marker. destruct (_ && _)%bool; repeat constructor; discriminate.
Qed.

Lemma chain_steps v : forall e ds es, chain_of v e ds es -> forall base, placed e -> sits_in base e ->
  steps base (map last_name ds) = ds /\ Forall (fun c => placed c /\ sits_in (fold_left child (map last_name ds) base) c) es /\
  entry_paths e = ds ++ flat_map entry_paths es.
Proof.
  induction 1 as [d es Hm|d c ds es Hm Hc IH]; intros base Hp Hs; pose proof (Hs d eq_refl) as Hd; apply placed_dir in Hp; cbn [map steps fold_left]; rewrite <- Hd.
  - split; [reflexivity|]. split; [exact Hp|reflexivity].
  - inversion Hp as [|? ? [Hp1 Hs1] _]; subst. destruct (IH d Hp1 Hs1) as (E1 & E2 & E3). split; [now rewrite E1|]. split; [exact E2|].
    cbn [entry_paths flat_map]. now rewrite app_nil_r, E3.
Qed.

Lemma shows_outline v : forall top e s, shows v top e s -> forall base, placed e -> sits_in base e -> outline_paths base (outline_of s) = entry_paths e.
Proof.
  fix IH 4. intros top e s H base Hp Hs. destruct H as [t f k|t q|t q|t q es ks Hc HF|e ds es ks Hc Hch HF].
  - cbn. now rewrite <- (Hs f eq_refl).
  - reflexivity.
  - reflexivity.
  - apply placed_dir in Hp. cbn [outline_of outline_paths map steps fold_left entry_paths app]. rewrite <- (Hs q eq_refl). f_equal.
    clear Hc Hs. induction HF as [|x y es ks Hx HF IHF]; [reflexivity|]. inversion Hp as [|? ? [Hp1 Hs1] Hp2]; subst. cbn [map flat_map].
    rewrite (IH _ _ _ Hx q Hp1 Hs1), IHF by exact Hp2. reflexivity.
  - destruct (chain_steps _ _ _ _ Hch base Hp Hs) as (E1 & E2 & E3). cbn [outline_of outline_paths]. rewrite E1, E3. f_equal.
    clear E1 E3 Hc Hch Hp Hs. induction HF as [|x y es ks Hx HF IHF]; [reflexivity|]. inversion E2 as [|? ? [Hp1 Hs1] Hp2]; subst. cbn [map flat_map].
    rewrite (IH _ _ _ Hx _ Hp1 Hs1), IHF by exact Hp2. reflexivity.
Qed.

Lemma directory_child p : last_name p <> [] -> p = child (directory_of p) (last_name p).
Proof.
  destruct p as [a ns]. unfold last_name, directory_of, child. cbn. intro H. f_equal. apply app_removelast_last. intros ->. now apply H.
Qed.

Lemma clear_root v e s : shows v true e s -> clear_names s -> forall q, entry_path e = Some q -> last_name q <> [].
Proof.
  intros H C q Hq. inversion H; subst; cbn in Hq; try discriminate; injection Hq as <-; inversion C; subst.
  - match goal with H : one_line_name _ |- _ => apply H end.
  - match goal with H : forall d, In d [_] -> one_line_name _ |- _ => apply H; now left end.
Qed.

Theorem run_paths o p w h out h' v dk st :
  steady w dk -> uses w o st -> sees w o v -> bare v -> distinguishable (o_tree_format o) ->
  pretty_print o p w h = (Ok out, h') ->
  exists e s, tree_at st dk 0 (location w p) e /\ shows v true e s /\ out = text (o_tree_format o) (labelled v s) /\
    (clear_names s -> read_paths (o_tree_format o) (location w p) out = Some (entry_paths e)).
Proof.
  intros Hw Hu Hs B Hd H. destruct (print_tree _ _ _ _ _ _ _ _ _ Hw Hu Hs H) as (e & s & Ht & Hsh & ->). exists e, s. split; [exact Ht|]. split; [exact Hsh|]. split; [reflexivity|].
  intro C. unfold read_paths. rewrite read_text_text; [|exact Hd|now apply clear_one_line]. cbn [option_map]. rewrite read_names_labelled by assumption.
  f_equal. eapply shows_outline; [exact Hsh|eapply tree_placed; exact Ht|]. intros q Hq. pose proof (clear_root _ _ _ Hsh C q Hq) as Hn.
  rewrite (tree_at_path _ _ _ _ _ Ht) in Hq. injection Hq as <-. now apply directory_child.
Qed.

Theorem run_accepted o p w h out h' v dk st :
  steady w dk -> distinct_names dk -> uses w o st -> sees w o v -> (forall q, (s_limit st q < 0)%Z) -> bare v -> distinguishable (o_tree_format o) ->
  pretty_print o p w h = (Ok out, h') ->
  exists e s, tree_at st dk 0 (location w p) e /\ shows v true e s /\
    (clear_names s -> exists paths, read_paths (o_tree_format o) (location w p) out = Some paths /\ NoDup paths /\
       forall q, In q paths <-> exists d, reach st dk 0 (location w p) d q).
Proof.
  intros Hw Hdn Hu Hs Hl B Hd H. destruct (run_paths _ _ _ _ _ _ _ _ _ Hw Hu Hs B Hd H) as (e & s & Ht & Hsh & _ & R). exists e, s. split; [exact Ht|]. split; [exact Hsh|].
  intro C. exists (entry_paths e). split; [now apply R|]. split; [eapply tree_paths_NoDup; eauto|]. intro q. split.
  - eapply tree_paths_reach; eauto.
  - intros [d Hr]. eapply tree_reach_paths; eauto.
Qed.
