(** * How command lines are read *)

From Verif Require Import SpecArgs SpecCli PathFacts PointFacts CliFacts.

(** A number that is not the literal a match looks for. *)
Ltac other a := destruct a as [|a]; [reflexivity|]; do 8 (try (destruct a as [a|a|]; try reflexivity; try congruence)).

(** ** The names of options *)

Ltac eqs := repeat match goal with
  | |- context [jeqb ?a ?b] => destruct (jeqb_spec a b)
  | H : context [jeqb ?a ?b] |- _ => destruct (jeqb_spec a b)
  end.

Definition kind_names (o : opt) : list jstring :=
  map js (match o with OOptions => ["-o"; "--options"] | ODebug => ["-d"; "--debug"] | OHelp => ["-h"; "--help"] | OVersion => ["-V"; "--version"] end)%string.

Lemma find_option_spec s o : find_option s = Some o <-> In s (kind_names o).
Proof.
  unfold find_option, option_names. cbn [find fst].
  split.
  - eqs; cbn; intro H; try discriminate; injection H as <-; subst; cbn; tauto.
  - destruct o; cbn [kind_names map In]; intros [<-|[<-|[]]]; reflexivity.
Qed.

Lemma names_kinds s : In s names_of_options <-> exists o, find_option s = Some o.
Proof.
  split.
  - cbn [names_of_options map In]. intro H. repeat (destruct H as [<-|H]; [eexists; reflexivity|]). destruct H.
  - intros (o & H). apply find_option_spec in H. destruct o; cbn [kind_names map In] in H; destruct H as [<-|[<-|[]]]; cbn; tauto.
Qed.

Lemma find_none s : find_option s = None <-> ~ In s names_of_options.
Proof.
  rewrite names_kinds. destruct (find_option s) as [o|]; split; intro H; try discriminate; try reflexivity.
  - destruct H. now exists o.
  - intros (o & E). discriminate.
Qed.

Lemma names_no_equals s : In s names_of_options -> ~ In 61%N s.
Proof.
  cbn [names_of_options map In]. intro H. repeat (destruct H as [<-|H]; [cbn; intuition discriminate|]). destruct H.
Qed.

Lemma cut_equals_spec s a b : cut_equals s = Some (a, b) <-> s = a ++ 61%N :: b /\ ~ In 61%N a.
Proof.
  revert a b. induction s as [|c s IH]; intros a b; cbn [cut_equals].
  - split; [discriminate|]. intros ([=] & _). now destruct a.
  - destruct (N.eqb_spec c 61) as [->|Hc].
    + split.
      * intros [= <- <-]. split; [reflexivity|intros []].
      * intros (E & Ha). destruct a as [|x a]; [now injection E as <-|]. injection E as <- E. destruct Ha. now left.
    + destruct (cut_equals s) as [[a' b']|].
      * split.
        -- intros [= <- <-]. destruct (IH a' b') as [IH1 _]. destruct (IH1 eq_refl) as (-> & Hn). split; [reflexivity|]. intros [E|E]; [congruence|now apply Hn].
        -- intros (E & Ha). destruct a as [|x a]; [injection E as -> _; contradiction|]. injection E as <- E.
           destruct (IH a b) as [_ IH2]. assert (H : Some (a', b') = Some (a, b)) by (apply IH2; split; [exact E|intro; apply Ha; now right]).
           now injection H as <- <-.
      * split; [discriminate|]. intros (E & Ha). destruct a as [|x a]; [injection E as -> _; contradiction|]. injection E as <- E.
        destruct (IH a b) as [_ IH2]. assert (H : None = Some (a, b)) by (apply IH2; split; [exact E|intro; apply Ha; now right]). discriminate.
Qed.

Lemma attached_spec s o v : attached s = Some (o, v) <-> exists n, In n (kind_names o) /\ s = n ++ js "=" ++ v.
Proof.
  unfold attached. destruct (cut_equals s) as [[a b]|] eqn:E.
  - pose proof (proj1 (cut_equals_spec s a b) E) as (Es & Ha). split.
    + destruct (find_option a) as [o'|] eqn:F; [|discriminate]. intros [= -> ->]. exists a. split; [now apply find_option_spec|exact Es].
    + intros (n & Hn & En). apply find_option_spec in Hn. assert (E' : cut_equals s = Some (n, v)).
      { apply cut_equals_spec. split; [exact En|]. apply names_no_equals, names_kinds. now exists o. }
      rewrite E in E'. injection E' as -> ->. now rewrite Hn.
  - split; [discriminate|]. intros (n & Hn & En). apply find_option_spec in Hn. assert (E' : cut_equals s = Some (n, v)).
    { apply cut_equals_spec. split; [exact En|]. apply names_no_equals, names_kinds. now exists o. }
    rewrite E in E'. discriminate.
Qed.

Lemma attached_none s : attached s = None <-> ~ exists n x, In n names_of_options /\ s = n ++ js "=" ++ x.
Proof.
  destruct (attached s) as [[o v]|] eqn:E; split; intro H; try discriminate; try reflexivity.
  - destruct H. apply attached_spec in E as (n & Hn & ->). exists n, v. split; [|reflexivity]. apply names_kinds. exists o. now apply find_option_spec.
  - intros (n & x & Hn & Es). apply names_kinds in Hn as (o & Ho). apply find_option_spec in Ho.
    assert (E' : attached s = Some (o, x)) by (apply attached_spec; exists n; split; assumption). congruence.
Qed.

Definition letter_of (o : opt) : jchar := match o with OOptions => 111 | ODebug => 100 | OHelp => 104 | OVersion => 86 end%N.

Lemma short_spec c o : short_option c = Some o <-> c = letter_of o.
Proof.
  unfold short_option. rewrite find_option_spec. destruct o; cbn; split; [intros [[= <-]|[E|[]]]; [reflexivity|discriminate E]|intros ->; now left|..];
    try (intros [[= <-]|[E|[]]]; [reflexivity|discriminate E]); intros ->; now left.
Qed.

Lemma short_none c : short_option c = None <-> ~ In c option_letters.
Proof.
  destruct (short_option c) as [o|] eqn:E; split; intro H; try discriminate; try reflexivity.
  - apply short_spec in E. destruct H. subst. destruct o; cbn; tauto.
  - intro Hc. cbn in Hc. destruct Hc as [<-|[<-|[<-|[<-|[]]]]]; discriminate E.
Qed.

Lemma is_option_spec s : is_option s = true <-> option_like s.
Proof.
  unfold is_option, option_like. rewrite !Bool.orb_true_iff. split.
  - intros [[[H|H]|H]|H].
    + left. now destruct (jeqb_spec s (js "--")).
    + right. left. destruct (find_option s) as [o|] eqn:E; [|discriminate]. apply names_kinds. now exists o.
    + right. right. left. destruct (attached s) as [[o v]|] eqn:E; [|discriminate]. apply attached_spec in E as (n & Hn & ->).
      exists n, v. split; [|reflexivity]. apply names_kinds. exists o. now apply find_option_spec.
    + right. right. right. destruct s as [|a s]; [discriminate|]. destruct (N.eq_dec a 45) as [->|Ha].
      * destruct s as [|c [|x s]]; try discriminate. destruct (short_option c) as [o|] eqn:E; [|discriminate].
        exists c, (x :: s). split; [|split; [discriminate|reflexivity]]. apply short_spec in E as ->. destruct o; cbn; tauto.
      * exfalso. revert H. apply Bool.not_true_iff_false. other a.
  - intros [->|[H|[(n & x & Hn & ->)|(c & x & Hc & Hx & ->)]]].
    + left. left. left. reflexivity.
    + left. left. right. apply names_kinds in H as (o & ->). reflexivity.
    + left. right. apply names_kinds in Hn as (o & Ho). apply find_option_spec in Ho.
      replace (attached (n ++ js "=" ++ x)) with (Some (o, x)); [reflexivity|]. symmetry. apply attached_spec. now exists n.
    + right. destruct x as [|x l]; [congruence|]. cbn [js app]. cbn in Hc. destruct Hc as [<-|[<-|[<-|[<-|[]]]]]; reflexivity.
Qed.

Lemma not_option s : ~ option_like s <-> is_option s = false.
Proof. rewrite <- is_option_spec. destruct (is_option s); split; congruence. Qed.

(** ** Steps *)

Section Steps.
Context (pc : pico) (fold : N -> N).

Definition step (s : jstring) (rest : list jstring) (t : taken) : option (list jstring * taken) :=
  match find_option s with
  | Some o => apply_option fold o false rest t
  | None =>
      match attached s with
      | Some (o, value) => apply_option fold o true (value :: rest) t
      | None =>
          match s with
          | 45%N :: ((_ :: _ :: _) as letters) => cluster pc fold s letters true rest t
          | _ => Some (rest, if resembles pc s then unmatched s t else positional s t)
          end
      end
  end.

Lemma process_S n s rest t :
  process pc fold (S n) (s :: rest) t =
  if jeqb s (js "--") then Some (remainder pc rest t)
  else match step s rest t with Some (rest', t') => process pc fold n rest' t' | None => None end.
Proof. reflexivity. Qed.

Lemma apply_len o e ws t ws' t' : apply_option fold o e ws t = Some (ws', t') -> (length ws' <= length ws)%nat /\ (e = true -> (length ws' < length ws)%nat).
Proof.
  unfold apply_option. intro H.
  destruct o, e; try discriminate; try (destruct ws as [|v ws]; [try discriminate|]);
    repeat match type of H with
    | context [if ?b then _ else _] => destruct b
    | context [to_boolean ?a ?b] => destruct (to_boolean a b); [|discriminate]
    | option_map _ ?x = _ => destruct x; [injection H as <- <-|discriminate H]
    end; cbn; split; intros; try discriminate; lia.
Qed.

Lemma cluster_len word letters : forall first ws t ws' t', cluster pc fold word letters first ws t = Some (ws', t') -> (length ws' <= length ws)%nat.
Proof.
  induction letters as [|c rest IH]; intros first ws t ws' t' H; cbn [cluster] in H; [now injection H as <- <-|].
  destruct (short_option c) as [o|]; [|destruct first; injection H as <- _; lia].
  assert (K : match o with
              | OOptions => if is_option rest then match give_options [] t with Some t' => cluster pc fold word rest false ws t' | None => None end
                            else option_map (fun t' => (ws, t')) (give_options rest t)
              | _ => match give_flag o true t with Some t' => cluster pc fold word rest false ws t' | None => None end
              end = Some (ws', t') -> (length ws' <= length ws)%nat).
  { clear H. intro H. destruct o; [destruct (is_option rest)|..];
      try (destruct (give_options _ t); [|discriminate]); try (destruct (give_flag _ _ t); [|discriminate]); try (now apply IH in H);
      cbn in H; injection H as <- _; lia. }
  destruct rest as [|x rest]; [now apply apply_len in H|].
  destruct (N.eq_dec x 61) as [->|Hx].
  - destruct rest as [|y rest]; [now apply apply_len in H|]. apply apply_len in H as (_ & H). specialize (H eq_refl). cbn in H. lia.
  - apply K. rewrite <- H. clear - Hx. other x.
Qed.

Lemma step_len s rest t rest' t' : step s rest t = Some (rest', t') -> (length rest' <= length rest)%nat.
Proof.
  unfold step. intro H. destruct (find_option s) as [o|]; [now apply apply_len in H|].
  destruct (attached s) as [[o v]|].
  - apply apply_len in H as (_ & H). specialize (H eq_refl). cbn in H. lia.
  - assert (K : Some (rest, if resembles pc s then unmatched s t else positional s t) = Some (rest', t') -> (length rest' <= length rest)%nat)
      by (intros [= <- _]; lia).
    destruct s as [|a s]; [now apply K|]. destruct (N.eq_dec a 45) as [->|Ha].
    + destruct s as [|b [|c s]]; [now apply K..|]. now apply cluster_len in H.
    + apply K. rewrite <- H. clear - Ha. other a.
Qed.

Lemma process_enough : forall n m ws t, (length ws <= n)%nat -> (length ws <= m)%nat -> process pc fold n ws t = process pc fold m ws t.
Proof.
  induction n as [|n IH]; intros m ws t Hn Hm.
  - destruct ws; [|cbn in Hn; lia]. now destruct m.
  - destruct ws as [|s rest]; [now destruct m|]. destruct m as [|m]; [cbn in Hm; lia|]. rewrite !process_S.
    destruct (jeqb s (js "--")); [reflexivity|]. destruct (step s rest t) as [[rest' t']|] eqn:E; [|reflexivity].
    apply step_len in E. cbn in Hn, Hm. apply IH; lia.
Qed.

Definition run (ws : list jstring) (t : taken) : option taken := process pc fold (length ws) ws t.

Lemma run_nil t : run [] t = Some t.
Proof. reflexivity. Qed.

Lemma run_cons s rest t : s <> js "--" -> run (s :: rest) t = match step s rest t with Some (rest', t') => run rest' t' | None => None end.
Proof.
  intro Hs. unfold run at 1. cbn [length]. rewrite process_S. destruct (jeqb_spec s (js "--")) as [E|_]; [contradiction|].
  destruct (step s rest t) as [[rest' t']|] eqn:E; [|reflexivity]. apply step_len in E. apply process_enough; lia.
Qed.

Lemma run_dashes rest t : run (js "--" :: rest) t = Some (remainder pc rest t).
Proof. reflexivity. Qed.

(** ** Moves of the command *)

Definition first_of {A} (a b : option A) : option A := match a with Some _ => a | None => b end.

Definition add (t f : option jstring) (d : option bool) (T : taken) : taken :=
  mkTaken (first_of t (t_target T)) (first_of f (t_options T)) (first_of d (t_debug T)) (t_help T) (t_version T) (t_unmatched T).

Definition free (t f : option jstring) (d : option bool) (T : taken) : Prop :=
  (t <> None -> t_target T = None) /\ (f <> None -> t_options T = None) /\ (d <> None -> t_debug T = None).

Definition clean (T : taken) : Prop := t_help T = false /\ t_version T = false /\ t_unmatched T = [].

Inductive move (s : jstring) (rest rest' : list jstring) : option jstring -> option jstring -> option bool -> Prop :=
| mv_target : target_word pc s -> rest' = rest -> move s rest rest' (Some s) None None
| mv_options f : In s (kind_names OOptions) -> ~ option_like f -> rest = f :: rest' -> move s rest rest' None (Some f) None
| mv_attached f : attachable f -> s = js "-o" ++ f -> rest' = rest -> move s rest rest' None (Some f) None
| mv_bare : In s (kind_names OOptions) -> no_value_follows rest -> rest' = rest -> move s rest rest' None (Some []) None
| mv_debug : In s (kind_names ODebug) -> rest' = rest -> move s rest rest' None None (Some true)
| mv_value n v b : In n (kind_names ODebug) -> truth_word fold b v -> s = n ++ js "=" ++ v -> rest' = rest -> move s rest rest' None None (Some b)
| mv_both f : ~ option_like f -> s = js "-do" -> rest = f :: rest' -> move s rest rest' None (Some f) (Some true)
| mv_both_attached f : attachable f -> s = js "-do" ++ f -> rest' = rest -> move s rest rest' None (Some f) (Some true)
| mv_both_bare : no_value_follows rest -> s = js "-do" -> rest' = rest -> move s rest rest' None (Some []) (Some true).

Lemma names_dash n : In n names_of_options -> exists x, n = js "-" ++ x.
Proof. cbn [names_of_options map In]. intro H. repeat (destruct H as [<-|H]; [eexists; reflexivity|]). destruct H. Qed.

Lemma option_like_dash s : option_like s -> exists c x, s = 45%N :: c :: x.
Proof.
  intros [->|[H|[(n & x & Hn & ->)|(c & x & Hc & Hx & ->)]]].
  - now exists 45%N, [].
  - cbn [names_of_options map In] in H. repeat (destruct H as [<-|H]; [do 2 eexists; reflexivity|]). destruct H.
  - apply names_dash in Hn as (y & ->). destruct y; do 2 eexists; reflexivity.
  - now exists c, x.
Qed.

Lemma not_like s : ~ option_like s <->
  s <> js "--" /\ find_option s = None /\ attached s = None /\ (forall c x, x <> [] -> s = js "-" ++ c :: x -> short_option c = None).
Proof.
  rewrite find_none, attached_none. unfold option_like. split.
  - intro H. repeat split; try (intro E; apply H; tauto). intros c x Hx E. apply short_none. intro Hc. apply H. right. right. right. now exists c, x.
  - intros (H1 & H2 & H3 & H4) [E|[E|[E|(c & x & Hc & Hx & E)]]]; try contradiction. specialize (H4 c x Hx E). apply short_none in H4. contradiction.
Qed.

Lemma target_not_like s : target_word pc s -> ~ option_like s.
Proof.
  intros [H|[->|(_ & H)]]; [| |exact H]; intro L; apply option_like_dash in L as (c & x & E); [now apply (H (c :: x))|discriminate].
Qed.

Lemma resembles_dash s : (forall x, s <> js "-" ++ x) -> resembles pc s = false.
Proof. intro H. destruct s as [|a s]; [reflexivity|]. assert (Ha : a <> 45%N) by (intros ->; now apply (H s)). unfold resembles. other a. Qed.

Lemma step_target s rest T : target_word pc s -> step s rest T = Some (rest, positional s T).
Proof.
  intro H. pose proof (target_not_like s H) as L. apply not_like in L as (_ & L1 & L2 & L3). unfold step. rewrite L1, L2.
  destruct H as [H|[->|(Hn & H)]].
  - transitivity (Some (rest, if resembles pc s then unmatched s T else positional s T)); [|now rewrite resembles_dash].
    destruct s as [|a s]; [reflexivity|]. assert (Ha : a <> 45%N) by (intros ->; now apply (H s)). clear - Ha. other a.
  - reflexivity.
  - assert (R : resembles pc s = false).
    { destruct s as [|a s]; [reflexivity|]. unfold resembles. destruct (N.eq_dec a 45) as [->|Ha]; [|other a]. destruct s; [reflexivity|]. now rewrite Hn. }
    destruct s as [|a s]; [now rewrite R|]. destruct (N.eq_dec a 45) as [->|Ha].
    + destruct s as [|b [|c s]]; [now rewrite R..|]. cbn [cluster]. rewrite (L3 b (c :: s)); [|discriminate|reflexivity]. now rewrite R.
    + transitivity (Some (rest, if resembles pc (a :: s) then unmatched (a :: s) T else positional (a :: s) T)); [clear - Ha; other a|now rewrite R].
Qed.

Lemma truth_spec b v : to_boolean fold v = Some b <-> truth_word fold b v.
Proof.
  unfold to_boolean, truth_word, jeqb_ci. destruct (jeqb_spec (map fold (points (js "true"))) (map fold (points v))) as [E|E].
  - apply same_points in E. split.
    + intros [= <-]. split; [exact E|discriminate].
    + intros (_ & H). destruct b; [reflexivity|]. now destruct H.
  - rewrite <- same_points in E. destruct (jeqb_spec (map fold (points (js "false"))) (map fold (points v))) as [F|F].
    + apply same_points in F. split.
      * intros [= <-]. split; [exact F|]. intros _. exact E.
      * intros (H & _). destruct b; [contradiction|reflexivity].
    + rewrite <- same_points in F. split; [discriminate|]. intros (H & _). destruct b; contradiction.
Qed.

Lemma no_value_spec rest T : no_value_follows rest -> apply_option fold OOptions false rest T = option_map (fun t' => (rest, t')) (give_options [] T).
Proof. intros [->|(u & r & -> & H)]; [reflexivity|]. cbn. apply is_option_spec in H as ->. reflexivity. Qed.

Lemma cluster_options word f first rest T : attachable f -> cluster pc fold word (111%N :: f) first rest T = option_map (fun t' => (rest, t')) (give_options f T).
Proof.
  intros (Hf & He & Hl). apply not_option in Hl. cbn [cluster]. change (short_option 111) with (Some OOptions). rewrite Hl.
  destruct f as [|a f]; [congruence|]. assert (Ha : a <> 61%N) by (intros ->; now apply (He f)). other a.
Qed.

Lemma cluster_debug word c x first rest T : c <> 61%N ->
  cluster pc fold word (100%N :: c :: x) first rest T =
  match give_flag ODebug true T with Some T' => cluster pc fold word (c :: x) false rest T' | None => None end.
Proof. intro Hc. remember (cluster pc fold word (c :: x) false rest) as k. cbn [cluster]. change (short_option 100) with (Some ODebug). subst k. other c. Qed.

Lemma attach_word a f rest T : attachable f -> (a = js "-o" \/ a = js "-do") ->
  a ++ f <> js "--" /\ step (a ++ f) rest T = cluster pc fold (a ++ f) (tl (a ++ f)) true rest T.
Proof.
  intros (Hf & He & _) Ha. split; [destruct Ha as [->| ->]; discriminate|].
  assert (F : find_option (a ++ f) = None).
  { apply find_none. cbn [names_of_options map In]. intro H. destruct f as [|y f]; [congruence|]. destruct Ha as [->| ->];
      repeat (destruct H as [H|H]; [discriminate H|]); destruct H. }
  assert (G : attached (a ++ f) = None).
  { apply attached_none. intros (n & x & Hn & E). destruct f as [|y f]; [congruence|].
    assert (Hy : y <> 61%N) by (intros ->; now apply (He f)). cbn [names_of_options map In] in Hn.
    destruct Ha as [->| ->]; repeat (destruct Hn as [<-|Hn]; [cbn in E; try discriminate E; injection E; intros; subst; congruence|]); destruct Hn. }
  unfold step. rewrite F, G. destruct f as [|y f]; [congruence|]. destruct Ha as [->| ->]; reflexivity.
Qed.

Lemma move_step s rest rest' t f d T : move s rest rest' t f d -> free t f d T -> s <> js "--" /\ step s rest T = Some (rest', add t f d T).
Proof.
  intros H (F1 & F2 & F3).
  assert (O : forall v, f <> None -> give_options v T = Some (mkTaken (t_target T) (Some v) (t_debug T) (t_help T) (t_version T) (t_unmatched T)))
    by (intros v Hf; unfold give_options; now rewrite F2).
  assert (D : forall b, d <> None -> give_flag ODebug b T = Some (mkTaken (t_target T) (t_options T) (Some b) (t_help T) (t_version T) (t_unmatched T)))
    by (intros v Hf; unfold give_flag; now rewrite F3).
  assert (B : f <> None -> d <> None -> forall v, match give_flag ODebug true T with Some T' => give_options v T' | None => None end =
            Some (mkTaken (t_target T) (Some v) (Some true) (t_help T) (t_version T) (t_unmatched T)))
    by (intros Hf Hd v; rewrite (D true Hd); unfold give_options; cbn; now rewrite F2).
  destruct H as [Hs ->|f Hs Hf ->|f Hf -> ->|Hs Hr ->|Hs ->|n v b Hn Hv -> ->|f Hf -> ->|f Hf -> ->|Hr -> ->].
  - split; [intros ->; apply target_not_like in Hs; apply Hs; now left|]. rewrite (step_target s rest T Hs). unfold positional, add. now rewrite F1.
  - split; [intros ->; cbn in Hs; intuition discriminate|]. unfold step. apply find_option_spec in Hs as ->. cbn [apply_option].
    apply not_option in Hf as ->. now rewrite O.
  - destruct (attach_word (js "-o") f rest T Hf) as (H1 & H2); [now left|]. split; [exact H1|]. rewrite H2. cbn [js app tl].
    change (tl (js "-o" ++ f)) with (111%N :: f). rewrite cluster_options by exact Hf. now rewrite O.
  - split; [intros ->; cbn in Hs; intuition discriminate|]. unfold step. apply find_option_spec in Hs as ->. rewrite no_value_spec by exact Hr. now rewrite O.
  - split; [intros ->; cbn in Hs; intuition discriminate|]. unfold step. apply find_option_spec in Hs as ->. cbn [apply_option]. now rewrite D.
  - split; [cbn in Hn; destruct Hn as [<-|[<-|[]]]; discriminate|].
    assert (A : attached (n ++ js "=" ++ v) = Some (ODebug, v)) by (apply attached_spec; now exists n).
    assert (F : find_option (n ++ js "=" ++ v) = None).
    { apply find_none. intro H. apply names_no_equals in H. apply H. apply in_or_app. right. now left. }
    unfold step. rewrite F, A. cbn [apply_option]. apply truth_spec in Hv as ->. now rewrite D.
  - split; [discriminate|]. change (step (js "-do") (f :: rest') T) with (cluster pc fold (js "-do") [100; 111]%N true (f :: rest') T).
    rewrite cluster_debug by discriminate. cbn [cluster]. change (short_option 111) with (Some OOptions). cbn [apply_option].
    apply not_option in Hf as ->. specialize (B ltac:(discriminate) ltac:(discriminate) f). destruct (give_flag ODebug true T); [|discriminate]. now rewrite B.
  - destruct (attach_word (js "-do") f rest T Hf) as (H1 & H2); [now right|]. split; [exact H1|]. rewrite H2.
    change (tl (js "-do" ++ f)) with (100%N :: 111%N :: f). rewrite cluster_debug by discriminate.
    specialize (B ltac:(discriminate) ltac:(discriminate) f). destruct (give_flag ODebug true T); [|discriminate]. rewrite cluster_options by exact Hf. now rewrite B.
  - split; [discriminate|]. change (step (js "-do") rest T) with (cluster pc fold (js "-do") [100; 111]%N true rest T).
    rewrite cluster_debug by discriminate. cbn [cluster]. change (short_option 111) with (Some OOptions).
    specialize (B ltac:(discriminate) ltac:(discriminate) []). destruct (give_flag ODebug true T); [|discriminate]. rewrite no_value_spec by exact Hr. now rewrite B.
Qed.

(** ** The converse *)

Definition grows (T T' : taken) : Prop := clean T' -> clean T.

Lemma grows_options v T T' : give_options v T = Some T' -> grows T T'.
Proof. unfold give_options. destruct (t_options T); [discriminate|]. intros [= <-]. now intro. Qed.

Lemma grows_flag o b T T' : give_flag o b T = Some T' -> grows T T'.
Proof.
  destruct o; cbn; [discriminate|..]; intro H.
  - destruct (t_debug T); [discriminate|]. injection H as <-. now intro.
  - destruct (t_help T); [discriminate|]. injection H as <-. intros (H & _). discriminate.
  - destruct (t_version T); [discriminate|]. injection H as <-. intros (_ & H & _). discriminate.
Qed.

Lemma not_clean_unmatched s T : ~ clean (unmatched s T).
Proof. intros (_ & _ & H). cbn in H. now destruct (t_unmatched T). Qed.

Lemma grows_positional s T : grows T (positional s T).
Proof. unfold positional. destruct (t_target T); [intro H; now apply not_clean_unmatched in H|now intro]. Qed.

Lemma grows_apply o e ws T ws' T' : apply_option fold o e ws T = Some (ws', T') -> grows T T'.
Proof.
  unfold apply_option. intro H.
  destruct o, e; try discriminate; try (destruct ws as [|v ws]; [try discriminate|]);
    repeat match type of H with
    | context [if ?b then _ else _] => destruct b
    | context [to_boolean ?a ?b] => destruct (to_boolean a b); [|discriminate]
    end;
    match type of H with option_map _ ?x = _ => destruct x eqn:E; [injection H as <- <-|discriminate H] end; first [eapply grows_options; exact E | eapply grows_flag; exact E].
Qed.

Lemma grows_cluster word letters : forall first ws T ws' T', cluster pc fold word letters first ws T = Some (ws', T') -> grows T T'.
Proof.
  induction letters as [|c rest IH]; intros first ws T ws' T' H; cbn [cluster] in H; [injection H as <- <-; now intro|].
  destruct (short_option c) as [o|]; [|destruct first; injection H as <- <-; [destruct (resembles pc word); [|apply grows_positional]|]; intro K; now apply not_clean_unmatched in K].
  assert (K : match o with
              | OOptions => if is_option rest then match give_options [] T with Some t' => cluster pc fold word rest false ws t' | None => None end
                            else option_map (fun t' => (ws, t')) (give_options rest T)
              | _ => match give_flag o true T with Some t' => cluster pc fold word rest false ws t' | None => None end
              end = Some (ws', T') -> grows T T').
  { clear H. intro H. destruct o; [destruct (is_option rest)|..];
      try (destruct (give_options _ T) eqn:E; [|discriminate]); try (destruct (give_flag _ _ T) eqn:E; [|discriminate]);
      try (apply IH in H; intro K; apply H in K; first [exact (grows_options _ _ _ E K)|exact (grows_flag _ _ _ _ E K)]).
    injection H as <- <-. eapply grows_options; exact E. }
  destruct rest as [|x rest]; [now apply grows_apply in H|].
  destruct (N.eq_dec x 61) as [->|Hx].
  - destruct rest as [|y rest]; now apply grows_apply in H.
  - apply K. rewrite <- H. clear - Hx. other x.
Qed.

Lemma grows_step s rest T rest' T' : step s rest T = Some (rest', T') -> grows T T'.
Proof.
  unfold step. intro H. destruct (find_option s) as [o|]; [now apply grows_apply in H|].
  destruct (attached s) as [[o v]|]; [now apply grows_apply in H|].
  assert (K : Some (rest, if resembles pc s then unmatched s T else positional s T) = Some (rest', T') -> grows T T').
  { intros [= _ <-]. destruct (resembles pc s); [intro K; now apply not_clean_unmatched in K|apply grows_positional]. }
  destruct s as [|a s]; [now apply K|]. destruct (N.eq_dec a 45) as [->|Ha].
  - destruct s as [|b [|c s]]; [now apply K..|]. now apply grows_cluster in H.
  - apply K. rewrite <- H. clear - Ha. other a.
Qed.

Lemma grows_remainder ws : forall T, grows T (remainder pc ws T).
Proof.
  induction ws as [|s ws IH]; intro T; cbn [remainder]; [now intro|]. intro H. apply IH in H.
  destruct (is_option s && negb (pc_lenient pc)); [now apply not_clean_unmatched in H|now apply grows_positional in H].
Qed.

Lemma grows_process n : forall ws T T', process pc fold n ws T = Some T' -> grows T T'.
Proof.
  induction n as [|n IH]; intros ws T T' H; [cbn in H; injection H as <-; now intro|].
  destruct ws as [|s rest]; [injection H as <-; now intro|]. rewrite process_S in H.
  destruct (jeqb s (js "--")); [injection H as <-; apply grows_remainder|].
  destruct (step s rest T) as [[rest' T1]|] eqn:E; [|discriminate]. apply IH in H. apply grows_step in E. intro K. auto.
Qed.

Lemma add_nothing T : add None None None T = T.
Proof. now destruct T. Qed.

Lemma options_apply rest T rest' T' : apply_option fold OOptions false rest T = Some (rest', T') ->
  exists f, t_options T = None /\ T' = add None (Some f) None T /\ ((~ option_like f /\ rest = f :: rest') \/ (f = [] /\ no_value_follows rest /\ rest' = rest)).
Proof.
  cbn. intro H. assert (G : forall v (r : list jstring), option_map (fun t' => (r, t')) (give_options v T) = Some (rest', T') -> t_options T = None /\ T' = add None (Some v) None T /\ rest' = r).
  { intros v r K. unfold give_options in K. destruct (t_options T) eqn:E; [discriminate|]. injection K as <- <-. now repeat split. }
  destruct rest as [|v rest].
  - apply G in H as (H1 & -> & ->). exists []. repeat split; [exact H1|]. right. repeat split. now left.
  - destruct (is_option v) eqn:E.
    + apply G in H as (H1 & -> & ->). exists []. repeat split; [exact H1|]. right. repeat split. right. exists v, rest. split; [reflexivity|]. now apply is_option_spec.
    + apply G in H as (H1 & -> & ->). exists v. repeat split; [exact H1|]. left. split; [now apply not_option|reflexivity].
Qed.

Lemma cluster_other word letters rest T rest' T' : cluster pc fold word letters false rest T = Some (rest', T') -> clean T' ->
  (letters = [] \/ exists f, letters = 111%N :: f /\ t_options T = None /\
     (attachable f /\ rest' = rest /\ T' = add None (Some f) None T \/ f = [] /\ apply_option fold OOptions false rest T = Some (rest', T'))) \/
  (exists x, letters = 100%N :: x).
Proof.
  destruct letters as [|c x]; intros H C; [left; now left|]. cbn [cluster] in H. destruct (short_option c) as [o|] eqn:E.
  2:{ injection H as <- <-. now apply not_clean_unmatched in C. }
  apply short_spec in E as ->. destruct o; cbn [letter_of].
  - left. right. exists x. split; [reflexivity|].
    destruct x as [|a x].
    + split; [apply options_apply in H as (f & ? & _); assumption|]. right. split; [reflexivity|exact H].
    + destruct (N.eq_dec a 61) as [->|Ha]; [destruct x; discriminate|].
      assert (K : (if is_option (a :: x) then match give_options [] T with Some t' => cluster pc fold word (a :: x) false rest t' | None => None end
                   else option_map (fun t' => (rest, t')) (give_options (a :: x) T)) = Some (rest', T')) by (rewrite <- H; clear - Ha; other a).
      clear H. destruct (is_option (a :: x)) eqn:L.
      * exfalso. destruct (give_options [] T) as [T1|]; [|discriminate]. apply is_option_spec, option_like_dash in L as (b & y & L). injection L as -> ->.
        cbn [cluster] in K. change (short_option 45) with (@None opt) in K. injection K as <- <-. now apply not_clean_unmatched in C.
      * unfold give_options in K. destruct (t_options T) eqn:G; [discriminate|]. injection K as <- <-. split; [reflexivity|]. left. repeat split.
        -- discriminate.
        -- intros y E. injection E as -> _. congruence.
        -- now apply not_option.
  - right. now exists x.
  - exfalso. assert (K : forall T1, give_flag OHelp true T = Some T1 -> ~ clean T1) by (intros T1 E (K & _); cbn in E; destruct (t_help T); [discriminate|injection E as <-; discriminate]).
    destruct x as [|a x].
    { cbn in H. destruct (t_help T); [discriminate|]. injection H as <- <-. destruct C as (C & _). discriminate. }
    destruct (N.eq_dec a 61) as [->|Ha].
    { assert (A : exists ws, apply_option fold OHelp true ws T = Some (rest', T')) by (destruct x; eexists; exact H). destruct A as (ws & A).
      cbn in A. destruct ws as [|v ws]; [discriminate|]. destruct (to_boolean fold v); [|discriminate]. destruct (t_help T); [discriminate|]. injection A as <- <-. destruct C as (C & _). discriminate. }
    assert (G : match give_flag OHelp true T with Some t' => cluster pc fold word (a :: x) false rest t' | None => None end = Some (rest', T')) by (rewrite <- H; clear - Ha; other a).
    destruct (give_flag OHelp true T) eqn:E; [|discriminate]. apply grows_cluster in G. apply G in C. now apply (K t).
  - exfalso. assert (K : forall T1, give_flag OVersion true T = Some T1 -> ~ clean T1) by (intros T1 E (_ & K & _); cbn in E; destruct (t_version T); [discriminate|injection E as <-; discriminate]).
    destruct x as [|a x].
    { cbn in H. destruct (t_version T); [discriminate|]. injection H as <- <-. destruct C as (_ & C & _). discriminate. }
    destruct (N.eq_dec a 61) as [->|Ha].
    { assert (A : exists ws, apply_option fold OVersion true ws T = Some (rest', T')) by (destruct x; eexists; exact H). destruct A as (ws & A).
      cbn in A. destruct ws as [|v ws]; [discriminate|]. destruct (to_boolean fold v); [|discriminate]. destruct (t_version T); [discriminate|]. injection A as <- <-. destruct C as (_ & C & _). discriminate. }
    assert (G : match give_flag OVersion true T with Some t' => cluster pc fold word (a :: x) false rest t' | None => None end = Some (rest', T')) by (rewrite <- H; clear - Ha; other a).
    destruct (give_flag OVersion true T) eqn:E; [|discriminate]. apply grows_cluster in G. apply G in C. now apply (K t).
Qed.

Lemma cluster_first word c x rest T : short_option c <> None -> cluster pc fold word (c :: x) true rest T = cluster pc fold word (c :: x) false rest T.
Proof. intro H. cbn [cluster]. now destruct (short_option c). Qed.

Lemma cluster_twice word x first rest T : t_debug T <> None -> cluster pc fold word (100%N :: x) first rest T = None.
Proof.
  intro H. assert (G : forall b, give_flag ODebug b T = None) by (intro b; cbn; now destruct (t_debug T)).
  assert (A : forall e ws, apply_option fold ODebug e ws T = None).
  { intros e ws. cbn. destruct (t_debug T); [|congruence]. destruct e; [|reflexivity]. destruct ws as [|v ws]; [reflexivity|]. now destruct (to_boolean fold v). }
  destruct x as [|c x]; [apply A|]. destruct (N.eq_dec c 61) as [->|Hc].
  - destruct x; [apply (A true rest)|apply (A true)].
  - rewrite cluster_debug by exact Hc. now rewrite G.
Qed.

Lemma step_move s rest T rest' T' : step s rest T = Some (rest', T') -> s <> js "--" -> clean T' ->
  exists t f d, move s rest rest' t f d /\ free t f d T /\ T' = add t f d T.
Proof.
  intros H Hs C.
  assert (OPT : apply_option fold OOptions false rest T = Some (rest', T') -> In s (kind_names OOptions) ->
            exists t f d, move s rest rest' t f d /\ free t f d T /\ T' = add t f d T).
  { intros K Hk. apply options_apply in K as (f & H1 & -> & [(H2 & H3)|(-> & H2 & H3)]).
    - exists None, (Some f), None. split; [now apply mv_options|]. split; [|reflexivity]. repeat split; congruence.
    - exists None, (Some []), None. split; [now apply mv_bare|]. split; [|reflexivity]. repeat split; congruence. }
  assert (FLAG : forall o b, give_flag o b T = Some T' -> o = ODebug /\ t_debug T = None /\ T' = add None None (Some b) T).
  { intros o b K. destruct o; cbn in K; [discriminate|..].
    - destruct (t_debug T) eqn:E; [discriminate|]. injection K as <-. now repeat split.
    - destruct (t_help T); [discriminate|]. injection K as <-. destruct C as (C & _). discriminate.
    - destruct (t_version T); [discriminate|]. injection K as <-. destruct C as (_ & C & _). discriminate. }
  unfold step in H. destruct (find_option s) as [o|] eqn:F.
  { pose proof (proj1 (find_option_spec s o) F) as Hk. destruct o; [now apply OPT|..];
      cbn [apply_option] in H;
      match type of H with option_map _ ?x = _ => destruct x eqn:E; [injection H as <- <-|discriminate] end; apply FLAG in E as (E & D & ->); try discriminate E.
    exists None, None, (Some true). split; [now apply mv_debug|]. split; [|reflexivity]. repeat split; congruence. }
  destruct (attached s) as [[o v]|] eqn:A.
  { pose proof (proj1 (attached_spec s o v) A) as (n & Hn & Es). destruct o; [discriminate|..]; cbn [apply_option] in H;
      destruct (to_boolean fold v) as [b|] eqn:B; try discriminate;
      match type of H with option_map _ ?x = _ => destruct x eqn:E; [injection H as <- <-|discriminate] end; apply FLAG in E as (E & D & ->); try discriminate E.
    exists None, None, (Some b). split; [apply mv_value with (n := n) (v := v); try assumption; [now apply truth_spec|reflexivity]|]. split; [|reflexivity]. repeat split; congruence. }
  assert (POS : Some (rest, if resembles pc s then unmatched s T else positional s T) = Some (rest', T') -> (resembles pc s = false -> target_word pc s) ->
            exists t f d, move s rest rest' t f d /\ free t f d T /\ T' = add t f d T).
  { intros [= <- E] Ht. destruct (resembles pc s); [subst; now apply not_clean_unmatched in C|]. unfold positional in E.
    destruct (t_target T) eqn:G; [subst; now apply not_clean_unmatched in C|]. subst T'.
    exists (Some s), None, None. split; [apply mv_target; [now apply Ht|reflexivity]|]. split; [|reflexivity]. repeat split; congruence. }
  destruct s as [|a s]; [apply POS; [exact H|]; intros _; left; discriminate|].
  destruct (N.eq_dec a 45) as [->|Ha].
  2:{ apply POS; [rewrite <- H; clear - Ha; other a|]. intros _. left. intros x E. injection E as -> _. congruence. }
  assert (NUM : (forall c x, x <> [] -> 45%N :: s = js "-" ++ c :: x -> short_option c = None) -> resembles pc (45%N :: s) = false -> target_word pc (45%N :: s)).
  { intros Hc R. destruct s as [|b s]; [right; now left|]. right. right. split; [unfold resembles in R; now destruct (pc_number pc (45%N :: b :: s))|].
    apply not_like. repeat split; assumption. }
  destruct s as [|b [|c l]]; [apply POS; [exact H|]..|].
  { apply NUM. intros c x _ E. discriminate. }
  { apply NUM. intros c x Hx E. injection E as _ <-. congruence. }
  destruct (short_option b) as [o|] eqn:B.
  2:{ cbn [cluster] in H. rewrite B in H. apply POS; [exact H|]. apply NUM. intros c' x Hx E. injection E as <- _. exact B. }
  rewrite cluster_first in H by (rewrite B; discriminate). pose proof H as H0.
  apply cluster_other in H as [[H|(f & E & D & [(H1 & H2 & H3)|(-> & _)])]|(x & E)]; try exact C; [discriminate| |discriminate|].
  - injection E as -> <-. exists None, (Some (c :: l)), None. split; [now apply mv_attached|]. split; [|exact H3]. repeat split; congruence.
  - injection E as -> <-. destruct (N.eq_dec c 61) as [->|Hc].
    { exfalso. assert (K : attached (45%N :: 100%N :: 61%N :: l) = Some (ODebug, l)); [|congruence]. apply attached_spec. exists (js "-d"). split; [now left|reflexivity]. }
    rewrite cluster_debug in H0 by exact Hc. destruct (give_flag ODebug true T) as [T1|] eqn:G; [|discriminate].
    cbn in G. destruct (t_debug T) eqn:D; [discriminate|]. injection G as <-.
    set (T1 := mkTaken (t_target T) (t_options T) (Some true) (t_help T) (t_version T) (t_unmatched T)) in *. pose proof H0 as H1.
    apply cluster_other in H0 as [[H|(f & E & D1 & [(H2 & H3 & H4)|(-> & H2)])]|(x & E)]; try exact C; [discriminate|..].
    + injection E as -> ->. exists None, (Some f), (Some true). split; [now apply mv_both_attached|]. split; [|exact H4]. repeat split; try congruence.
      intros _. exact D1.
    + injection E as -> ->. apply options_apply in H2 as (f & H2 & -> & [(H3 & H4)|(-> & H3 & H4)]).
      * exists None, (Some f), (Some true). split; [now apply mv_both|]. split; [|reflexivity]. repeat split; try congruence. intros _. exact D1.
      * exists None, (Some []), (Some true). split; [now apply mv_both_bare|]. split; [|reflexivity]. repeat split; try congruence. intros _. exact D1.
    + injection E as -> ->. rewrite cluster_twice in H1; [discriminate|]. cbn. discriminate.
Qed.

(** ** Lines *)

Lemma add_add t f d t' f' d' T : (t <> None -> t' = None) -> (f <> None -> f' = None) -> (d <> None -> d' = None) ->
  add t' f' d' (add t f d T) = add (first_of t t') (first_of f f') (first_of d d') T.
Proof.
  intros H1 H2 H3. unfold add, first_of. cbn. f_equal.
  - destruct t; [rewrite H1 by discriminate|destruct t']; reflexivity.
  - destruct f; [rewrite H2 by discriminate|destruct f']; reflexivity.
  - destruct d; [rewrite H3 by discriminate|destruct d']; reflexivity.
Qed.

Lemma line_move s rest rest' t f d t' f' d' : move s rest rest' t f d -> line pc fold t' f' d' rest' ->
  (t <> None -> t' = None) -> (f <> None -> f' = None) -> (d <> None -> d' = None) ->
  line pc fold (first_of t t') (first_of f f') (first_of d d') (s :: rest).
Proof.
  intros H L H1 H2 H3.
  destruct H as [Hs ->|f Hs Hf ->|f Hf -> ->|Hs Hr ->|Hs ->|n v b Hn Hv -> ->|f Hf -> ->|f Hf -> ->|Hr -> ->]; cbn [first_of];
    try (specialize (H1 ltac:(discriminate)); subst t'); try (specialize (H2 ltac:(discriminate)); subst f'); try (specialize (H3 ltac:(discriminate)); subst d').
  - now apply line_target.
  - now apply line_options.
  - now apply line_options_attached.
  - now apply line_options_bare.
  - now apply line_debug.
  - now apply line_debug_value.
  - now apply line_both.
  - now apply line_both_attached.
  - now apply line_both_bare.
Qed.

Lemma move_line t f d ws : line pc fold t f d ws ->
  (ws = [] /\ t = None /\ f = None /\ d = None) \/
  (ws = [js "--"] /\ t = None /\ f = None /\ d = None) \/
  (exists u, ws = [js "--"; u] /\ t = Some u /\ f = None /\ d = None /\ (~ option_like u \/ pc_lenient pc = true)) \/
  exists s rest rest' t1 f1 d1 t2 f2 d2, ws = s :: rest /\ move s rest rest' t1 f1 d1 /\ line pc fold t2 f2 d2 rest' /\ (length rest' <= length rest)%nat /\
    t = first_of t1 t2 /\ f = first_of f1 f2 /\ d = first_of d1 d2 /\ (t1 <> None -> t2 = None) /\ (f1 <> None -> f2 = None) /\ (d1 <> None -> d2 = None).
Proof.
  intro L. destruct L as [|t f d ws Hs L|n t f d ws Hn Hf L|t f d ws Hf L|n t d ws Hn Hr L|n t f ws Hn L|n v b t f ws Hn Hv L|t f ws Hf L|t f ws Hf L|t ws Hr L| |t Ht];
    [left; now repeat split|..|right; left; now repeat split|right; right; left; now exists t]; right; right; right.
  - exists t, ws, ws, (Some t), None, None, None, f, d. repeat split; try congruence; try assumption; [now apply mv_target|lia].
  - exists n, (f :: ws), ws, None, (Some f), None, t, None, d. repeat split; try congruence; try assumption; [now apply mv_options|cbn; lia].
  - exists (js "-o" ++ f), ws, ws, None, (Some f), None, t, None, d. repeat split; try congruence; try assumption; [now apply mv_attached|lia].
  - exists n, ws, ws, None, (Some []), None, t, None, d. repeat split; try congruence; try assumption; [now apply mv_bare|lia].
  - exists n, ws, ws, None, None, (Some true), t, f, None. repeat split; try congruence; try assumption; [now apply mv_debug|lia].
  - exists (n ++ js "=" ++ v), ws, ws, None, None, (Some b), t, f, None. repeat split; try congruence; try assumption; [now apply mv_value with (n := n) (v := v)|lia].
  - exists (js "-do"), (f :: ws), ws, None, (Some f), (Some true), t, None, None. repeat split; try congruence; try assumption; [now apply mv_both|cbn; lia].
  - exists (js "-do" ++ f), ws, ws, None, (Some f), (Some true), t, None, None. repeat split; try congruence; try assumption; [now apply mv_both_attached|lia].
  - exists (js "-do"), ws, ws, None, (Some []), (Some true), t, None, None. repeat split; try congruence; try assumption; [now apply mv_both_bare|lia].
Qed.

Lemma first_of_some {A} (a b : option A) : first_of a b <> None <-> a <> None \/ b <> None.
Proof. destruct a, b; cbn; intuition congruence. Qed.

Lemma line_runs : forall n ws t f d T, (length ws <= n)%nat -> line pc fold t f d ws -> free t f d T -> run ws T = Some (add t f d T).
Proof.
  induction n as [|n IH]; intros ws t f d T Hn L Hf; apply move_line in L as [(-> & -> & -> & ->)|[(-> & -> & -> & ->)|[(u & -> & -> & -> & -> & Hu)|
    (s & rest & rest' & t1 & f1 & d1 & t2 & f2 & d2 & -> & M & L & Hl & -> & -> & -> & H1 & H2 & H3)]]]; try (cbn in Hn; lia);
    try (now rewrite run_nil, add_nothing); try (now rewrite run_dashes; cbn; rewrite add_nothing).
  - rewrite run_dashes. cbn [remainder]. destruct Hf as (Hf & _). specialize (Hf ltac:(discriminate)).
    replace (is_option u && negb (pc_lenient pc)) with false.
    + unfold positional. now rewrite Hf.
    + destruct Hu as [Hu|Hu]; [apply not_option in Hu; now rewrite Hu|]. rewrite Hu. now rewrite Bool.andb_false_r.
  - destruct Hf as (F1 & F2 & F3).
    assert (Hf1 : free t1 f1 d1 T) by (split; [|split]; intro; [apply F1|apply F2|apply F3]; apply first_of_some; now left).
    assert (Hf2 : free t2 f2 d2 (add t1 f1 d1 T)).
    { unfold add, free. cbn. repeat split; intro K.
      - destruct t1; [rewrite H1 in K by discriminate; congruence|]. apply F1. cbn. exact K.
      - destruct f1; [rewrite H2 in K by discriminate; congruence|]. apply F2. cbn. exact K.
      - destruct d1; [rewrite H3 in K by discriminate; congruence|]. apply F3. cbn. exact K. }
    destruct (move_step s rest rest' t1 f1 d1 T M Hf1) as (Hs & E). rewrite run_cons by exact Hs. rewrite E.
    rewrite (IH rest' t2 f2 d2); [|cbn in Hn; lia|exact L|exact Hf2]. f_equal. now apply add_add.
Qed.

Lemma runs_line : forall n ws T T', (length ws <= n)%nat -> run ws T = Some T' -> clean T' ->
  exists t f d, line pc fold t f d ws /\ free t f d T /\ T' = add t f d T.
Proof.
  assert (N : forall T, free None None None T) by (intro T; repeat split; congruence).
  induction n as [|n IH]; intros ws T T' Hn R C.
  - destruct ws; [|cbn in Hn; lia]. rewrite run_nil in R. injection R as <-. exists None, None, None. split; [constructor|]. split; [apply N|now rewrite add_nothing].
  - destruct ws as [|s rest].
    { rewrite run_nil in R. injection R as <-. exists None, None, None. split; [constructor|]. split; [apply N|now rewrite add_nothing]. }
    destruct (jeqb_spec s (js "--")) as [->|Hs].
    + rewrite run_dashes in R. injection R as <-. destruct rest as [|u rest].
      { exists None, None, None. split; [constructor|]. split; [apply N|now rewrite add_nothing]. }
      cbn [remainder] in C |- *. destruct (is_option u && negb (pc_lenient pc)) eqn:B; [apply grows_remainder in C; now apply not_clean_unmatched in C|].
      unfold positional in C |- *. destruct (t_target T) eqn:G; [apply grows_remainder in C; now apply not_clean_unmatched in C|].
      destruct rest as [|u' rest].
      * exists (Some u), None, None. split.
        -- apply line_dashes_target. apply Bool.andb_false_iff in B as [B|B]; [left; now apply not_option|right]. now destruct (pc_lenient pc).
        -- split; [|reflexivity]. repeat split; congruence.
      * exfalso. cbn [remainder] in C. destruct (is_option u' && negb (pc_lenient pc)); apply grows_remainder in C; now apply not_clean_unmatched in C.
    + rewrite run_cons in R by exact Hs. destruct (step s rest T) as [[rest' T1]|] eqn:E; [|discriminate].
      assert (C1 : clean T1) by (apply grows_process in R; now apply R).
      pose proof (step_len _ _ _ _ _ E) as Hl. apply step_move in E as (t1 & f1 & d1 & M & F & ->); [|exact Hs|exact C1].
      apply IH in R as (t2 & f2 & d2 & L & F2 & ->); [|cbn in Hn; lia|exact C].
      assert (K1 : t1 <> None -> t2 = None). { intro K. destruct t2; [|reflexivity]. destruct F2 as (F2 & _). specialize (F2 ltac:(discriminate)). cbn in F2. destruct t1; [discriminate|congruence]. }
      assert (K2 : f1 <> None -> f2 = None). { intro K. destruct f2; [|reflexivity]. destruct F2 as (_ & F2 & _). specialize (F2 ltac:(discriminate)). cbn in F2. destruct f1; [discriminate|congruence]. }
      assert (K3 : d1 <> None -> d2 = None). { intro K. destruct d2; [|reflexivity]. destruct F2 as (_ & _ & F2). specialize (F2 ltac:(discriminate)). cbn in F2. destruct d1; [discriminate|congruence]. }
      exists (first_of t1 t2), (first_of f1 f2), (first_of d1 d2). split; [now apply (line_move s rest rest')|]. split; [|now apply add_add].
      destruct F as (G1 & G2 & G3), F2 as (F1 & F2 & F3). repeat split; intro K; apply first_of_some in K as [K|K].
      * now apply G1.
      * specialize (F1 K). cbn in F1. destruct t1; [discriminate|exact F1].
      * now apply G2.
      * specialize (F2 K). cbn in F2. destruct f1; [discriminate|exact F2].
      * now apply G3.
      * specialize (F3 K). cbn in F3. destruct d1; [discriminate|exact F3].
Qed.

(** ** Help *)

Definition helped (T : taken) : bool := t_help T || t_version T.

Lemma helped_options v T T' : give_options v T = Some T' -> helped T' = helped T.
Proof. unfold give_options. destruct (t_options T); [discriminate|]. now intros [= <-]. Qed.

Lemma helped_flag o b T T' : give_flag o b T = Some T' -> helped T' = true -> helped T = true \/ o = OHelp \/ o = OVersion.
Proof.
  destruct o; cbn; [discriminate|..]; intro H; auto.
  destruct (t_debug T); [discriminate|]. injection H as <-. now left.
Qed.

Lemma helped_positional s T : helped (positional s T) = helped T.
Proof. unfold positional. now destruct (t_target T). Qed.

Lemma helped_apply o e ws T ws' T' : apply_option fold o e ws T = Some (ws', T') -> helped T' = true -> helped T = true \/ o = OHelp \/ o = OVersion.
Proof.
  unfold apply_option. intros H Hh.
  destruct o, e; try discriminate; try (destruct ws as [|v ws]; [try discriminate|]);
    repeat match type of H with
    | context [if ?b then _ else _] => destruct b
    | context [to_boolean ?a ?b] => destruct (to_boolean a b); [|discriminate]
    end;
    match type of H with option_map _ ?x = _ => destruct x eqn:E; [injection H as <- <-|discriminate H] end;
    first [apply helped_options in E; rewrite E in Hh; now left | eapply helped_flag; eassumption].
Qed.

Lemma suffix_apply o e ws T ws' T' : apply_option fold o e ws T = Some (ws', T') -> exists pre, ws = pre ++ ws' /\ (e = true -> pre <> []).
Proof.
  unfold apply_option. intro H.
  destruct o, e; try discriminate; try (destruct ws as [|v ws]; [try discriminate|]);
    repeat match type of H with
    | context [if ?b then _ else _] => destruct b
    | context [to_boolean ?a ?b] => destruct (to_boolean a b); [|discriminate]
    | option_map _ ?x = _ => destruct x; [injection H as <- <-|discriminate H]
    end; try (exists []; split; [reflexivity|congruence]); exists [v]; (split; [reflexivity|congruence]).
Qed.

Lemma helped_cluster word letters : forall first ws T ws' T', cluster pc fold word letters first ws T = Some (ws', T') ->
  (exists pre, ws = pre ++ ws') /\ (helped T' = true -> helped T = true \/ In 104%N letters \/ In 86%N letters).
Proof.
  induction letters as [|c rest IH]; intros first ws T ws' T' H; cbn [cluster] in H.
  { injection H as <- <-. split; [now exists []|]. now left. }
  destruct (short_option c) as [o|] eqn:S.
  2:{ destruct first; injection H as <- <-; (split; [now exists []|]); [|now left]. destruct (resembles pc word); [now left|rewrite helped_positional; now left]. }
  apply short_spec in S.
  assert (LET : o = OHelp \/ o = OVersion -> In 104%N (c :: rest) \/ In 86%N (c :: rest)) by (intros [->| ->]; subst c; cbn; tauto).
  assert (APP : forall e l, apply_option fold o e l T = Some (ws', T') -> (helped T' = true -> helped T = true \/ In 104%N (c :: rest) \/ In 86%N (c :: rest))).
  { intros e l K Hh. eapply helped_apply in K as [K|K]; [now left|right; now apply LET|exact Hh]. }
  assert (K : match o with
              | OOptions => if is_option rest then match give_options [] T with Some t' => cluster pc fold word rest false ws t' | None => None end
                            else option_map (fun t' => (ws, t')) (give_options rest T)
              | _ => match give_flag o true T with Some t' => cluster pc fold word rest false ws t' | None => None end
              end = Some (ws', T') ->
              (exists pre, ws = pre ++ ws') /\ (helped T' = true -> helped T = true \/ In 104%N (c :: rest) \/ In 86%N (c :: rest))).
  { clear H APP. intro H. destruct o; [destruct (is_option rest)|..].
    - destruct (give_options [] T) as [T1|] eqn:E; [|discriminate]. apply helped_options in E. apply IH in H as (H1 & H2). split; [exact H1|].
      intro Hh. rewrite <- E. destruct (H2 Hh) as [K|[K|K]]; [now left|right; left; now right|right; right; now right].
    - destruct (give_options rest T) as [T1|] eqn:E; [|discriminate]. apply helped_options in E. injection H as <- <-. split; [now exists []|].
      intro Hh. left. congruence.
    - destruct (give_flag ODebug true T) as [T1|] eqn:E; [|discriminate]. apply IH in H as (H1 & H2). split; [exact H1|].
      intro Hh. destruct (H2 Hh) as [K|[K|K]]; [|right; left; now right|right; right; now right].
      eapply helped_flag in E as [E|[E|E]]; [now left|discriminate|discriminate|exact K].
    - destruct (give_flag OHelp true T) as [T1|] eqn:E; [|discriminate]. apply IH in H as (H1 & H2). split; [exact H1|]. intros _. right. apply LET. tauto.
    - destruct (give_flag OVersion true T) as [T1|] eqn:E; [|discriminate]. apply IH in H as (H1 & H2). split; [exact H1|]. intros _. right. apply LET. tauto. }
  destruct rest as [|x rest]; [split; [apply suffix_apply in H as (pre & H & _); now exists pre|now apply (APP _ _ H)]|].
  destruct (N.eq_dec x 61) as [->|Hx].
  - destruct rest as [|y rest].
    + split; [apply suffix_apply in H as (pre & H & _); now exists pre|now apply (APP _ _ H)].
    + split; [|now apply (APP _ _ H)]. apply suffix_apply in H as (pre & H & Hp). destruct pre as [|u pre]; [now destruct Hp|]. injection H as _ H. now exists pre.
  - apply K. rewrite <- H. clear - Hx. other x.
Qed.

Lemma helped_step s rest T rest' T' : step s rest T = Some (rest', T') ->
  (exists pre, rest = pre ++ rest') /\ (helped T' = true -> helped T = true \/ help_word s).
Proof.
  unfold step. intro H. destruct (find_option s) as [o|] eqn:F.
  { split; [apply suffix_apply in H as (pre & H & _); now exists pre|]. intro Hh. eapply helped_apply in H as [H|H]; [now left| |exact Hh]. right.
    apply find_option_spec in F. destruct H as [->| ->]; cbn in F; destruct F as [<-|[<-|[]]]; eexists; (split; [reflexivity|]).
    - right. right. left. now left.
    - left. now exists [].
    - right. right. right. now left.
    - right. left. now exists []. }
  destruct (attached s) as [[o v]|] eqn:A.
  { split; [apply suffix_apply in H as (pre & H & Hp); destruct pre as [|u pre]; [now destruct Hp|]; injection H as _ H; now exists pre|].
    intro Hh. eapply helped_apply in H as [H|H]; [now left| |exact Hh]. right. apply attached_spec in A as (n & G & ->).
    destruct H as [->| ->]; cbn in G; destruct G as [<-|[<-|[]]]; eexists; (split; [reflexivity|]).
    - right. right. left. now left.
    - left. now eexists.
    - right. right. right. now left.
    - right. left. now eexists. }
  assert (K : Some (rest, if resembles pc s then unmatched s T else positional s T) = Some (rest', T') ->
            (exists pre, rest = pre ++ rest') /\ (helped T' = true -> helped T = true \/ help_word s)).
  { intros [= <- <-]. split; [now exists []|]. intro Hh. left. destruct (resembles pc s); [exact Hh|now rewrite helped_positional in Hh]. }
  destruct s as [|a s]; [now apply K|]. destruct (N.eq_dec a 45) as [->|Ha].
  - destruct s as [|b [|c s]]; [now apply K..|]. apply helped_cluster in H as (H1 & H2). split; [exact H1|]. intro Hh. destruct (H2 Hh) as [H|H]; [now left|right].
    exists (b :: c :: s). split; [reflexivity|]. tauto.
  - apply K. rewrite <- H. clear - Ha. other a.
Qed.

Lemma helped_remainder ws : forall T, helped (remainder pc ws T) = helped T.
Proof. induction ws as [|s ws IH]; intro T; cbn [remainder]; [reflexivity|]. rewrite IH. destruct (is_option s && negb (pc_lenient pc)); [reflexivity|apply helped_positional]. Qed.

Lemma helped_process n : forall ws T T', process pc fold n ws T = Some T' -> helped T' = true -> helped T = true \/ exists s, In s ws /\ help_word s.
Proof.
  induction n as [|n IH]; intros ws T T' H Hh; [cbn in H; injection H as <-; now left|].
  destruct ws as [|s rest]; [injection H as <-; now left|]. rewrite process_S in H.
  destruct (jeqb s (js "--")); [injection H as <-; rewrite helped_remainder in Hh; now left|].
  destruct (step s rest T) as [[rest' T1]|] eqn:E; [|discriminate]. apply helped_step in E as ((pre & ->) & E2).
  destruct (IH _ _ _ H Hh) as [K|(u & Hu & K)].
  - destruct (E2 K) as [K'|K']; [now left|right]. exists s. split; [now left|exact K'].
  - right. exists u. split; [right; apply in_or_app; now right|exact K].
Qed.
End Steps.

(** ** The requests *)

Lemma at_other {A} (c : N) (x y : A) : c <> 64%N -> match c with 64%N => x | _ => y end = y.
Proof. intro H. other c. Qed.

Lemma expand_twice pc s rest : expand pc ((js "@@" ++ s) :: rest) = match expand pc rest with Some rest' => Some ((js "@" ++ s) :: rest') | None => None end.
Proof. reflexivity. Qed.

Lemma expand_one pc name rest : literal_word name ->
  expand pc ((js "@" ++ name) :: rest) =
  match expand pc rest with
  | Some rest' => match pc_at_file pc name with NoFile => Some ((js "@" ++ name) :: rest') | WordsOf ws => Some (ws ++ rest') | Unreadable => None end
  | None => None
  end.
Proof.
  intro H. cbn [expand js list_ascii_of_string map app]. destruct (expand pc rest); [|reflexivity]. destruct name as [|a name]; [reflexivity|].
  assert (Ha : a <> 64%N) by (intros ->; now apply (H name)).
  exact (at_other a _ _ Ha).
Qed.

Lemma expand_plain pc s rest : literal_word s -> expand pc (s :: rest) = match expand pc rest with Some rest' => Some (s :: rest') | None => None end.
Proof.
  intro H. cbn [expand]. destruct (expand pc rest); [|reflexivity]. destruct s as [|a s]; [reflexivity|].
  assert (Ha : a <> 64%N) by (intros ->; now apply (H s)). exact (at_other a _ _ Ha).
Qed.

Lemma spread_expand pc args words : spread pc args words -> expand pc args = Some words.
Proof.
  induction 1 as [|s rest rest' H _ IH|s rest rest' _ IH|name ws rest rest' H F _ IH|name rest rest' H F _ IH].
  - reflexivity.
  - now rewrite expand_plain, IH.
  - now rewrite expand_twice, IH.
  - now rewrite expand_one, IH, F.
  - now rewrite expand_one, IH, F.
Qed.

(** The ways a word can start. *)
Lemma word_cases s : literal_word s \/ (exists x, s = js "@@" ++ x) \/ exists name, s = js "@" ++ name /\ literal_word name.
Proof.
  destruct s as [|a s]; [left; discriminate|]. destruct (N.eq_dec a 64) as [->|H]; [|left; intros x E; injection E as E _; contradiction].
  right. destruct s as [|b s]; [right; exists []; split; [reflexivity|discriminate]|]. destruct (N.eq_dec b 64) as [->|H]; [left; now exists s|].
  right. exists (b :: s). split; [reflexivity|]. intros x E. injection E as E _. contradiction.
Qed.

Lemma expand_none pc args : expand pc args = None <-> exists name, In (js "@" ++ name) args /\ literal_word name /\ pc_at_file pc name = Unreadable.
Proof.
  induction args as [|s args IH]; [split; [discriminate|intros (n & [] & _)]|].
  destruct (word_cases s) as [H|[(x & ->)|(name & -> & H)]].
  - rewrite expand_plain by exact H. split.
    + intro E. destruct (expand pc args); [discriminate|]. destruct (proj1 IH eq_refl) as (n & Hn & K). exists n. split; [now right|exact K].
    + intros (n & [E|Hn] & K); [now destruct (H n)|]. rewrite (proj2 IH); [reflexivity|]. now exists n.
  - rewrite expand_twice. split.
    + intro E. destruct (expand pc args); [discriminate|]. destruct (proj1 IH eq_refl) as (n & Hn & K). exists n. split; [now right|exact K].
    + intros (n & [E|Hn] & L & K); [injection E as <-; now destruct (L x)|]. rewrite (proj2 IH); [reflexivity|]. now exists n.
  - rewrite expand_one by exact H. split.
    + intro E. destruct (expand pc args) as [rest|].
      * destruct (pc_at_file pc name) eqn:F; try discriminate. exists name. split; [now left|]. now split.
      * destruct (proj1 IH eq_refl) as (n & Hn & K). exists n. split; [now right|exact K].
    + intros (n & [E|Hn] & L & K).
      * injection E as <-. rewrite K. now destruct (expand pc args).
      * rewrite (proj2 IH); [reflexivity|]. now exists n.
Qed.

Lemma expand_spread pc args words : expand pc args = Some words -> spread pc args words.
Proof.
  revert words. induction args as [|s args IH]; intros words E; [injection E as <-; constructor|].
  destruct (word_cases s) as [H|[(x & ->)|(name & -> & H)]].
  - rewrite expand_plain in E by exact H. destruct (expand pc args) as [rest|]; [|discriminate]. injection E as <-. constructor; auto.
  - rewrite expand_twice in E. destruct (expand pc args) as [rest|]; [|discriminate]. injection E as <-. apply spread_twice; auto.
  - rewrite expand_one in E by exact H. destruct (expand pc args) as [rest|]; [|discriminate].
    destruct (pc_at_file pc name) eqn:F; try discriminate; injection E as <-; [apply spread_no_file|apply spread_file]; auto.
Qed.

Lemma literal_spread pc args : Forall literal_word args -> spread pc args args.
Proof. induction 1; constructor; assumption. Qed.

Lemma requested_spread pc fold args words : spread pc args words ->
  requested pc fold args = match run pc fold words nothing_taken with
                           | None => RRefused
                           | Some t => if t_help t then RHelp else if t_version t then RVersion
                                       else match t_unmatched t with [] => RRun (args_of (t_target t) (t_options t) (t_debug t)) | _ => RRefused end
                           end.
Proof. intro H. unfold requested. now rewrite (spread_expand pc args words H). Qed.

Lemma requested_literal pc fold args : Forall literal_word args ->
  requested pc fold args = match run pc fold args nothing_taken with
                           | None => RRefused
                           | Some t => if t_help t then RHelp else if t_version t then RVersion
                                       else match t_unmatched t with [] => RRun (args_of (t_target t) (t_options t) (t_debug t)) | _ => RRefused end
                           end.
Proof. intro H. now apply requested_spread, literal_spread. Qed.

Lemma requested_line pc fold t f d args words : spread pc args words -> line pc fold t f d words -> requested pc fold args = RRun (args_of t f d).
Proof.
  intros H L. rewrite (requested_spread pc fold args words) by exact H. rewrite (line_runs pc fold (length words) words t f d nothing_taken); [|apply le_n|exact L|repeat split].
  unfold add, nothing_taken, first_of. cbn. now destruct t, f, d.
Qed.

Lemma accepted_lemma : forall pc w s t f d args words, spread pc args words -> line pc (jv_fold (w_jvm (cw_world w))) t f d words ->
  execute pc args w s = run_cli (args_of t f d) w s.
Proof. intros pc w s t f d args words H L. unfold execute. now rewrite (requested_line pc _ t f d args words H L). Qed.

Lemma others_lemma : forall pc w s args words, spread pc args words -> (forall t f d, ~ line pc (jv_fold (w_jvm (cw_world w))) t f d words) ->
  exists code s', execute pc args w s = (code, s') /\ no_access s s' /\
    ((code = 2%Z /\ cs_out s' = cs_out s /\ cs_err s' = cs_err s ++ pc_refusal pc args) \/ exists u, In u words /\ help_word u).
Proof.
  intros pc w s args words H N. unfold execute. set (fold := jv_fold (w_jvm (cw_world w))) in *. rewrite (requested_spread pc fold args words) by exact H.
  destruct (run pc fold words nothing_taken) as [T|] eqn:R.
  2:{ exists 2%Z, (write_err (pc_refusal pc args) s). split; [reflexivity|]. split; [now split|]. left. now repeat split. }
  pose proof (helped_process pc fold _ _ _ _ R) as Hh. unfold helped in Hh.
  destruct (t_help T) eqn:E1.
  { exists 0%Z, (write_out (pc_usage pc) s). split; [reflexivity|]. split; [now split|]. right. destruct (Hh eq_refl) as [K|K]; [discriminate K|exact K]. }
  destruct (t_version T) eqn:E2.
  { assert (K : exists u, In u words /\ help_word u) by (destruct (Hh eq_refl) as [K|K]; [discriminate K|exact K]).
    destruct (get_version (pc_class_path pc)) as [lines|]; do 2 eexists; (split; [reflexivity|]); (split; [now split|]); now right. }
  destruct (t_unmatched T) eqn:E3.
  - exfalso. destruct (runs_line pc fold (length words) words nothing_taken T) as (t & f & d & L & _); [apply le_n|exact R|repeat split; assumption|]. now apply (N t f d).
  - exists 2%Z, (write_err (pc_refusal pc args) s). split; [reflexivity|]. split; [now split|]. left. now repeat split.
Qed.

Lemma unreadable_lemma : forall pc w s args,
  (exists words, spread pc args words) \/
  ((exists name, In (js "@" ++ name) args /\ literal_word name /\ pc_at_file pc name = Unreadable) /\
   exists s', execute pc args w s = (1%Z, s') /\ no_access s s' /\ cs_out s' = cs_out s).
Proof.
  intros pc w s args. destruct (expand pc args) as [words|] eqn:E; [left; exists words; now apply expand_spread|].
  right. split; [now apply expand_none|]. unfold execute, requested. rewrite E. eexists. split; [reflexivity|]. now repeat split.
Qed.

(** ** Parts in any order *)

Inductive effect := ETarget (t : jstring) | EOptions (f : jstring) | EFlag (o : opt).

Definition eff (e : effect) (T : taken) : option taken :=
  match e with ETarget t => Some (positional t T) | EOptions f => give_options f T | EFlag o => give_flag o true T end.

Definition kind (e : effect) : nat :=
  match e with ETarget _ => 0 | EOptions _ | EFlag OOptions => 1 | EFlag ODebug => 2 | EFlag OHelp => 3 | EFlag OVersion => 4 end%nat.

Fixpoint effs (l : list effect) (T : taken) : option taken :=
  match l with [] => Some T | e :: l' => match eff e T with Some T' => effs l' T' | None => None end end.

Lemma eff_commute a b T : kind a <> kind b ->
  match eff a T with Some T' => eff b T' | None => None end = match eff b T with Some T' => eff a T' | None => None end.
Proof.
  intro H. destruct T as [tt to td th tv tu].
  destruct a as [x|x|o], b as [y|y|p]; cbn in H; try congruence; try destruct o; try destruct p; cbn in H; try congruence;
    unfold eff, positional, give_options, give_flag; cbn;
    repeat match goal with |- context [match ?x with Some _ => _ | None => _ end] => is_var x; destruct x; cbn
                         | |- context [if ?x then _ else _] => is_var x; destruct x; cbn end; reflexivity.
Qed.

Lemma effs_permutation l l' : Permutation l l' -> NoDup (map kind l) -> forall T, effs l T = effs l' T.
Proof.
  induction 1 as [|e l l' H IH|a b l|l l' l'' H1 IH1 H2 IH2]; intros N T.
  - reflexivity.
  - cbn. destruct (eff e T); [|reflexivity]. apply IH. now inversion N.
  - cbn [effs]. assert (K : kind b <> kind a) by (inversion N as [|? ? K]; subst; intro E; apply K; left; congruence).
    assert (G : forall x y, match eff x T with Some T' => match eff y T' with Some T2 => effs l T2 | None => None end | None => None end =
                  match match eff x T with Some T' => eff y T' | None => None end with Some T2 => effs l T2 | None => None end)
      by (intros x y; now destruct (eff x T)).
    rewrite !G. now rewrite (eff_commute a b T) by congruence.
  - rewrite IH1 by exact N. apply IH2. apply (Permutation_NoDup (l := map kind l)); [now apply Permutation_map|exact N].
Qed.

Definition does (pc : pico) (fold : N -> N) (part : list jstring) (e : effect) : Prop :=
  Forall literal_word part /\
  forall rest T, run pc fold (part ++ rest) T = match eff e T with Some T' => run pc fold rest T' | None => None end.

Lemma run_parts pc fold parts l : Forall2 (does pc fold) parts l -> forall T, run pc fold (concat parts) T = effs l T.
Proof. induction 1 as [|p e parts l (_ & H) _ IH]; intro T; [reflexivity|]. cbn [concat effs]. rewrite H. destruct (eff e T); [apply IH|reflexivity]. Qed.

Lemma literal_parts pc fold parts l : Forall2 (does pc fold) parts l -> Forall literal_word (concat parts).
Proof. induction 1 as [|p e parts l (H & _) _ IH]; [constructor|]. cbn. apply Forall_app. now split. Qed.

Lemma run_written pc fold parts l args : Forall2 (does pc fold) parts l -> NoDup (map kind l) -> written parts args ->
  Forall literal_word args /\ forall T, run pc fold args T = effs l T.
Proof.
  intros H N (order & P & ->). destruct (Permutation_Forall2 P H) as (l' & P' & H'). split; [now apply (literal_parts pc fold order l')|].
  intro T. rewrite (run_parts pc fold order l' H'). symmetry. now apply effs_permutation.
Qed.

Lemma plain_not_like s : plain_word s -> ~ option_like s.
Proof. intros (H & _) L. apply option_like_dash in L as (c & x & ->). now apply (H (c :: x)). Qed.

Lemma dash_literal x : literal_word (js "-" ++ x).
Proof. discriminate. Qed.

Lemma does_target pc fold t : plain_word t -> does pc fold [t] (ETarget t).
Proof.
  intros H. split; [constructor; [apply H|constructor]|]. intros rest T. cbn [app]. rewrite run_cons.
  - rewrite step_target; [reflexivity|]. left. apply H.
  - intros ->. now apply (proj1 H (js "-")).
Qed.

Lemma does_options pc fold f parts : options_part (Some f) parts -> exists part, parts = [part] /\ does pc fold part (EOptions f).
Proof.
  intros (P & H). pose proof (plain_not_like f P) as L.
  assert (K : forall n, In n (kind_names OOptions) -> does pc fold [n; f] (EOptions f)).
  { intros n Hn. split.
    - constructor; [|constructor; [apply P|constructor]]. cbn in Hn. destruct Hn as [<-|[<-|[]]]; apply dash_literal.
    - intros rest T. cbn [app]. rewrite run_cons by (intros ->; cbn in Hn; intuition discriminate). unfold step. apply find_option_spec in Hn as ->. cbn [apply_option].
      apply not_option in L as ->. cbn [eff]. now destruct (give_options f T). }
  destruct H as [->|[->|(Hf & He & ->)]]; eexists; (split; [reflexivity|]).
  - apply K. now left.
  - apply K. right. now left.
  - split; [constructor; [apply (dash_literal (js "o" ++ f))|constructor]|]. intros rest T. cbn [app].
    assert (A : attachable f) by (repeat split; assumption).
    destruct (attach_word pc fold (js "-o") f rest T A) as (H1 & H2); [now left|]. rewrite run_cons by exact H1. rewrite H2.
    change (tl (js "-o" ++ f)) with (111%N :: f). rewrite cluster_options by exact A. cbn [eff]. now destruct (give_options f T).
Qed.

Lemma does_flag pc fold o n : o <> OOptions -> In (js n) (kind_names o) -> does pc fold [js n] (EFlag o).
Proof.
  intros Ho Hn. split.
  - constructor; [|constructor]. destruct o; cbn [kind_names map In] in Hn; destruct Hn as [<-|[<-|[]]]; apply dash_literal.
  - intros rest T. cbn [app]. rewrite run_cons.
    + unfold step. apply find_option_spec in Hn as ->. destruct o; [congruence|..]; cbn [apply_option eff]; now destruct (give_flag _ true T).
    + intros E. rewrite E in Hn. destruct o; cbn in Hn; intuition discriminate.
Qed.

Definition target_effects (t : option jstring) := match t with Some t => [ETarget t] | None => [] end.
Definition options_effects (f : option jstring) := match f with Some f => [EOptions f] | None => [] end.
Definition flag_effects (o : opt) (b : bool) := if b then [EFlag o] else [].

Lemma part_effects pc fold t f d h v tp fp dp hp vp :
  target_part t tp -> options_part f fp -> flag_part ["-d"; "--debug"]%string d dp -> flag_part ["-h"; "--help"]%string h hp -> flag_part ["-V"; "--version"]%string v vp ->
  Forall2 (does pc fold) (tp ++ fp ++ dp ++ hp ++ vp)
    (target_effects t ++ options_effects f ++ flag_effects ODebug d ++ flag_effects OHelp h ++ flag_effects OVersion v).
Proof.
  intros H1 H2 H3 H4 H5.
  assert (K : forall o names b parts, o <> OOptions -> kind_names o = map js names -> flag_part names b parts -> Forall2 (does pc fold) parts (flag_effects o b)).
  { intros o names b parts Ho En H. destruct b; cbn in H |- *; [|subst; constructor]. destruct H as (n & Hn & ->). constructor; [|constructor].
    apply does_flag; [exact Ho|]. rewrite En. now apply in_map. }
  repeat apply Forall2_app.
  - destruct t as [t|]; cbn in H1 |- *; [|subst; constructor]. destruct H1 as (H1 & ->). constructor; [now apply does_target|constructor].
  - destruct f as [f|]; [|cbn in H2 |- *; subst; constructor]. destruct (does_options pc fold f fp H2) as (part & -> & D). constructor; [exact D|constructor].
  - now apply K with (names := ["-d"; "--debug"]%string).
  - now apply K with (names := ["-h"; "--help"]%string).
  - now apply K with (names := ["-V"; "--version"]%string).
Qed.

Lemma effects_distinct t f d h v :
  NoDup (map kind (target_effects t ++ options_effects f ++ flag_effects ODebug d ++ flag_effects OHelp h ++ flag_effects OVersion v)).
Proof. destruct t, f, d, h, v; cbn; repeat constructor; cbn; intuition discriminate. Qed.

Lemma effects_result t f d h v :
  effs (target_effects t ++ options_effects f ++ flag_effects ODebug d ++ flag_effects OHelp h ++ flag_effects OVersion v) nothing_taken =
  Some (mkTaken t f (if d then Some true else None) h v []).
Proof. destruct t, f, d, h, v; reflexivity. Qed.

Lemma written_requested pc fold t f d h v tp fp dp hp vp args :
  target_part t tp -> options_part f fp -> flag_part ["-d"; "--debug"]%string d dp -> flag_part ["-h"; "--help"]%string h hp -> flag_part ["-V"; "--version"]%string v vp ->
  written (tp ++ fp ++ dp ++ hp ++ vp) args ->
  requested pc fold args = if h then RHelp else if v then RVersion else RRun (args_of t f (Some d)).
Proof.
  intros H1 H2 H3 H4 H5 W.
  destruct (run_written pc fold _ _ args (part_effects pc fold t f d h v _ _ _ _ _ H1 H2 H3 H4 H5) (effects_distinct t f d h v) W) as (L & R).
  rewrite requested_literal by exact L. rewrite R, effects_result. cbn. destruct h, v, d; reflexivity.
Qed.

Lemma order_lemma : forall pc w s t f d tp fp dp args,
  target_part t tp -> options_part f fp -> flag_part ["-d"; "--debug"]%string d dp -> written (tp ++ fp ++ dp) args ->
  execute pc args w s = run_cli (mkArgs (option_map path_of t) (option_map path_of f) d) w s.
Proof.
  intros pc w s t f d tp fp dp args H1 H2 H3 W. unfold execute.
  rewrite (written_requested pc _ t f d false false tp fp dp [] [] args H1 H2 H3); [reflexivity..|]. now rewrite !app_nil_r.
Qed.

Lemma help_lemma : forall pc w s t f d v tp fp dp hp vp args,
  target_part t tp -> options_part f fp -> flag_part ["-d"; "--debug"]%string d dp -> flag_part ["-h"; "--help"]%string true hp ->
  flag_part ["-V"; "--version"]%string v vp -> written (tp ++ fp ++ dp ++ hp ++ vp) args ->
  exists s', execute pc args w s = (0%Z, s') /\ no_access s s' /\ cs_out s' = cs_out s ++ pc_usage pc /\ cs_err s' = cs_err s.
Proof.
  intros pc w s t f d v tp fp dp hp vp args H1 H2 H3 H4 H5 W. unfold execute. rewrite (written_requested pc _ t f d true v tp fp dp hp vp args H1 H2 H3 H4 H5 W).
  eexists. split; [reflexivity|]. now repeat split.
Qed.

Lemma version_lemma : forall pc w s t f d tp fp dp vp args lines,
  target_part t tp -> options_part f fp -> flag_part ["-d"; "--debug"]%string d dp -> flag_part ["-V"; "--version"]%string true vp ->
  written (tp ++ fp ++ dp ++ vp) args -> get_version (pc_class_path pc) = Some lines ->
  exists s', execute pc args w s = (0%Z, s') /\ no_access s s' /\ cs_out s' = cs_out s ++ concat (map (fun l => l ++ cw_linesep w) lines) /\ cs_err s' = cs_err s.
Proof.
  intros pc w s t f d tp fp dp vp args lines H1 H2 H3 H4 W V. unfold execute.
  rewrite (written_requested pc _ t f d false true tp fp dp [] vp args H1 H2 H3 eq_refl H4 W), V. eexists. split; [reflexivity|]. now repeat split.
Qed.

(** ** Values after '=' *)

Lemma eaten_apply fold o e ws T ws' T' : apply_option fold o e ws T = Some (ws', T') ->
  (e = false /\ ws = ws') \/ exists v, ws = v :: ws' /\ (~ option_like v \/ to_boolean fold v <> None).
Proof.
  unfold apply_option. intro H.
  destruct o, e; try discriminate; (destruct ws as [|v ws]; [try discriminate|]);
    repeat match type of H with
    | context [if is_option ?b then _ else _] => destruct (is_option b) eqn:?
    | context [to_boolean ?a ?b] => destruct (to_boolean a b) eqn:?; [|discriminate]
    | option_map _ ?x = _ => destruct x; [injection H as <- <-|discriminate H]
    end; try (left; now split); right; exists v; (split; [reflexivity|]); [left; now apply not_option|..]; right; congruence.
Qed.

Lemma eaten_cluster pc fold word letters : forall first ws T ws' T', cluster pc fold word letters first ws T = Some (ws', T') ->
  ws = ws' \/ exists v, ws = v :: ws' /\ (~ option_like v \/ to_boolean fold v <> None).
Proof.
  induction letters as [|c rest IH]; intros first ws T ws' T' H; cbn [cluster] in H; [injection H as <- <-; now left|].
  destruct (short_option c) as [o|]; [|destruct first; injection H as <- _; now left].
  assert (K : match o with
              | OOptions => if is_option rest then match give_options [] T with Some t' => cluster pc fold word rest false ws t' | None => None end
                            else option_map (fun t' => (ws, t')) (give_options rest T)
              | _ => match give_flag o true T with Some t' => cluster pc fold word rest false ws t' | None => None end
              end = Some (ws', T') -> ws = ws' \/ exists v, ws = v :: ws' /\ (~ option_like v \/ to_boolean fold v <> None)).
  { clear H. intro H. destruct o; [destruct (is_option rest)|..];
      try (destruct (give_options _ T); [|discriminate]); try (destruct (give_flag _ _ T); [|discriminate]); try (now apply IH in H);
      cbn in H; injection H as <- _; now left. }
  destruct rest as [|x rest]; [apply eaten_apply in H as [(_ & H)|H]; [now left|now right]|].
  destruct (N.eq_dec x 61) as [->|Hx].
  - destruct rest as [|y rest]; [apply eaten_apply in H as [(H & _)|H]; [discriminate|now right]|].
    apply eaten_apply in H as [(H & _)|(v & H & _)]; [discriminate|]. injection H as _ H. now left.
  - apply K. rewrite <- H. clear - Hx. other x.
Qed.

Lemma eaten_step pc fold s rest T rest' T' : step pc fold s rest T = Some (rest', T') ->
  rest = rest' \/ exists v, rest = v :: rest' /\ (~ option_like v \/ to_boolean fold v <> None).
Proof.
  unfold step. intro H. destruct (find_option s) as [o|]; [apply eaten_apply in H as [(_ & H)|H]; [now left|now right]|].
  destruct (attached s) as [[o v]|]; [apply eaten_apply in H as [(H & _)|(u & H & _)]; [discriminate|injection H as _ H; now left]|].
  assert (K : Some (rest, if resembles pc s then unmatched s T else positional s T) = Some (rest', T') ->
            rest = rest' \/ exists v, rest = v :: rest' /\ (~ option_like v \/ to_boolean fold v <> None)) by (intros [= <- _]; now left).
  destruct s as [|a s]; [now apply K|]. destruct (N.eq_dec a 45) as [->|Ha].
  - destruct s as [|b [|c s]]; [now apply K..|]. now apply eaten_cluster in H.
  - apply K. rewrite <- H. clear - Ha. other a.
Qed.

Lemma not_boolean fold s : fold 45%N <> fold 116%N -> fold 45%N <> fold 102%N -> to_boolean fold (js "-" ++ s) = None.
Proof.
  intros H1 H2. destruct (to_boolean fold (js "-" ++ s)) as [b|] eqn:E; [|reflexivity]. exfalso. unfold to_boolean, jeqb_ci in E.
  assert (P : points (js "-" ++ s) = 45%N :: points s) by (apply points_whole; unfold whole_unit, high_half, low_half; lia). rewrite P in E.
  destruct (jeqb_spec (map fold (points (js "true"))) (map fold (45%N :: points s))) as [F|_].
  - apply H1. change (points (js "true")) with [116; 114; 117; 101]%N in F. cbn [map] in F. congruence.
  - destruct (jeqb_spec (map fold (points (js "false"))) (map fold (45%N :: points s))) as [F|_]; [|discriminate].
    apply H2. change (points (js "false")) with [102; 97; 108; 115; 101]%N in F. cbn [map] in F. congruence.
Qed.

Lemma equals_refused pc fold n x post : fold 45%N <> fold 116%N -> fold 45%N <> fold 102%N -> In n (kind_names OOptions) ->
  forall k pre T, (length pre <= k)%nat -> ~ In (js "--") pre -> run pc fold (pre ++ (n ++ js "=" ++ x) :: post) T = None.
Proof.
  intros F1 F2 Hn. set (u := n ++ js "=" ++ x).
  assert (Hu : u <> js "--") by (unfold u; cbn in Hn; destruct Hn as [<-|[<-|[]]]; discriminate).
  assert (A : attached u = Some (OOptions, x)) by (apply attached_spec; now exists n).
  assert (F : find_option u = None) by (apply find_none; intro H; apply names_no_equals in H; apply H; apply in_or_app; right; now left).
  assert (L : option_like u). { right. right. left. exists n, x. split; [|reflexivity]. apply names_kinds. exists OOptions. now apply find_option_spec. }
  assert (B : to_boolean fold u = None).
  { apply option_like_dash in L as (c & y & ->). now apply (not_boolean fold (c :: y)). }
  assert (Z : forall T, run pc fold (u :: post) T = None) by (intro T; rewrite run_cons by exact Hu; unfold step; now rewrite F, A).
  induction k as [|k IH]; intros pre T Hk Hp.
  - destruct pre; [apply Z|cbn in Hk; lia].
  - destruct pre as [|s pre]; [apply Z|]. cbn [app]. rewrite run_cons by (intros ->; apply Hp; now left).
    destruct (step pc fold s (pre ++ u :: post) T) as [[rest' T']|] eqn:E; [|reflexivity].
    apply eaten_step in E as [<-|(v & E & Hv)].
    + apply IH; [cbn in Hk; lia|]. intro K. apply Hp. now right.
    + destruct pre as [|s' pre].
      * injection E as <- <-. destruct Hv as [Hv|Hv]; [contradiction|congruence].
      * injection E as <- <-. apply IH; [cbn in Hk; lia|]. intro K. apply Hp. right. now right.
Qed.

Lemma equals_lemma : forall pc w s n x pre post,
  let fold := jv_fold (w_jvm (cw_world w)) in
  let args := pre ++ (n ++ js "=" ++ x) :: post in
  fold 45%N <> fold 116%N -> fold 45%N <> fold 102%N -> In n (map js ["-o"; "--options"]%string) -> ~ In (js "--") pre -> Forall literal_word args ->
  exists s', execute pc args w s = (2%Z, s') /\ no_access s s' /\ cs_out s' = cs_out s /\ cs_err s' = cs_err s ++ pc_refusal pc args.
Proof.
  intros pc w s n x pre post fold args F1 F2 Hn Hp L. unfold execute. fold fold. rewrite requested_literal by exact L. unfold args at 1.
  rewrite (equals_refused pc fold n x post F1 F2 Hn (length pre) pre nothing_taken (le_n _) Hp). eexists. split; [reflexivity|]. now repeat split.
Qed.

(** ** Writing any path *)

Definition seen_from (cwd : list jstring) (p q : option path) : Prop :=
  match p, q with Some p, Some q => normalize (to_absolute cwd p) = normalize (to_absolute cwd q) | None, None => True | _, _ => False end.

Lemma cbind_same {A B} (m m' : C A) (k k' : A -> C B) w s :
  m w s = m' w s -> (forall a s', k a w s' = k' a w s') -> cbind m k w s = cbind m' k' w s.
Proof. intros E K. unfold cbind. rewrite E. destruct (m' w s) as ([a|e] & s'); [apply K|reflexivity]. Qed.

Lemma run_same w s p q f g d : seen_from (jv_cwd (w_jvm (cw_world w))) p q -> seen_from (jv_cwd (w_jvm (cw_world w))) f g ->
  run_cli (mkArgs p f d) w s = run_cli (mkArgs q g d) w s.
Proof.
  intros Hp Hf. unfold run_cli. assert (E : command (mkArgs p f d) w s = command (mkArgs q g d) w s); [|now rewrite E].
  unfold command, detect_target. cbn [a_target a_options a_debug]. apply cbind_same.
  - destruct p as [p|], q as [q|]; cbn in Hp; try contradiction; [|reflexivity].
    unfold absolute. unfold cbind, get_world, cret. now rewrite Hp.
  - intros T s1. apply cbind_same; [reflexivity|]. intros x s2. destruct x; cbn [negb]; [|reflexivity].
    apply cbind_same; [|reflexivity]. destruct f as [f|], g as [g|]; cbn in Hf; try contradiction; [|reflexivity].
    unfold absolute. unfold cbind, get_world, cret. now rewrite Hf.
Qed.

Lemma protected_plain t u : protected t u -> plain_word u.
Proof.
  intros [(-> & x & ->)|(-> & _)]; split; intros y E; discriminate E.
Qed.

Lemma protected_seen cwd t u : protected t u -> normalize (to_absolute cwd (path_of u)) = normalize (to_absolute cwd (path_of t)).
Proof.
  intros [(-> & _)|(-> & H)]; [reflexivity|]. rewrite !normalize_to_absolute. f_equal.
  assert (A : p_abs (path_of t) = false).
  { destruct t as [|c t]; [reflexivity|]. cbn. destruct (N.eqb_spec c c_slash) as [->|]; [|reflexivity]. now destruct (H t). }
  unfold loc, to_absolute. rewrite A. cbn [path_of p_abs p_names app js].
  change (p_abs (path_of (js "./" ++ t))) with false. cbn [p_names]. rewrite !norm_names_stack. f_equal.
  change (p_names (path_of (js "./" ++ t))) with (n_dot :: parse_names t). change (p_names (path_of t)) with (parse_names t).
  apply nstack_dot.
Qed.

Lemma protected_lemma : forall pc w s t f u g d tp fp dp args,
  protected_option t u -> protected_option f g ->
  target_part u tp -> options_part g fp -> flag_part ["-d"; "--debug"]%string d dp -> written (tp ++ fp ++ dp) args ->
  execute pc args w s = run_cli (mkArgs (option_map path_of t) (option_map path_of f) d) w s.
Proof.
  intros pc w s t f u g d tp fp dp args P1 P2 H1 H2 H3 W. rewrite (order_lemma pc w s u g d tp fp dp args H1 H2 H3 W).
  apply run_same.
  - destruct t, u; cbn in P1 |- *; try contradiction; try exact I. now apply protected_seen.
  - destruct f, g; cbn in P2 |- *; try contradiction; try exact I. now apply protected_seen.
Qed.

(** ** An options name without a value *)

Lemma print_debug_off m l w s : print_debug false m l w s = (COk tt, s).
Proof. reflexivity. Qed.

Definition quiet (d : bool) (s s' : cstate) : Prop := cs_hist s' = cs_hist s /\ (d = false -> cs_out s' = cs_out s).

Lemma quiet_refl d s : quiet d s s.
Proof. now split. Qed.

Lemma quiet_trans d s1 s2 s3 : quiet d s1 s2 -> quiet d s2 s3 -> quiet d s1 s3.
Proof. intros (A1 & A2) (B1 & B2). split; [congruence|]. intro H. now rewrite B2, A2 by exact H. Qed.

Lemma quiet_debug d m l w s r s' : print_debug d m l w s = (r, s') -> quiet d s s'.
Proof.
  destruct d; cbn; [|intro H; injection H as _ <-; apply quiet_refl]. unfold printfln.
  destruct parse_format; [|intro H; injection H as _ <-; apply quiet_refl].
  destruct print_pieces as (t & ok). intro H. injection H as _ <-. split; [reflexivity|discriminate].
Qed.

Lemma quiet_error d m l w s r s' : print_error m l w s = (r, s') -> quiet d s s'.
Proof.
  unfold print_error, printfln. destruct parse_format; [|intro H; injection H as _ <-; apply quiet_refl].
  destruct print_pieces as (t & ok). intro H. injection H as _ <-. now split.
Qed.

Lemma handled e w s d : exists s', match handle_exception e w s with (COk c, s'') => (c, s'') | (CThrow e', s'') => (1%Z, write_err (cw_stack_trace w e') s'') end = (1%Z, s') /\ quiet d s s'.
Proof.
  unfold handle_exception, cbind, get_world, cret. destruct print_error as ([u|e'] & s') eqn:E; eexists; (split; [reflexivity|]);
    apply (quiet_error d) in E; destruct E as (E1 & E2); now split.
Qed.

Definition quiets {A} (d : bool) (w : cworld) (P : A -> Prop) (m : C A) : Prop :=
  forall s r s', m w s = (r, s') -> quiet d s s' /\ forall a, r = COk a -> P a.

Lemma quiets_bind {A B} d w P Q (m : C A) (k : A -> C B) : quiets d w P m -> (forall a, P a -> quiets d w Q (k a)) -> quiets d w Q (cbind m k).
Proof.
  intros Hm Hk s r s'. unfold cbind. destruct (m w s) as ([a|e] & s1) eqn:E; destruct (Hm _ _ _ E) as (Q1 & HP).
  - intro H. destruct (Hk a (HP a eq_refl) _ _ _ H) as (Q2 & HQ). split; [eapply quiet_trans; eassumption|exact HQ].
  - intro H. injection H as <- <-. split; [exact Q1|discriminate].
Qed.

Lemma quiets_ret {A} d w (P : A -> Prop) a : P a -> quiets d w P (cret a).
Proof. intros H s r s' E. injection E as <- <-. split; [apply quiet_refl|]. intros b E. now injection E as <-. Qed.

Lemma quiets_throw {A} d w (P : A -> Prop) e : quiets d w P (cthrow e).
Proof. intros s r s' E. injection E as <- <-. split; [apply quiet_refl|discriminate]. Qed.

Lemma quiets_absolute d w p : quiets d w (fun q => q = normalize (to_absolute (jv_cwd (w_jvm (cw_world w))) p)) (absolute p).
Proof. intros s r s' E. injection E as <- <-. split; [apply quiet_refl|]. intros b E. now injection E as <-. Qed.

Lemma quiets_debug d w m l : quiets d w (fun _ => True) (print_debug d m l).
Proof. intros s r s' E. split; [now apply quiet_debug in E|trivial]. Qed.

Lemma quiets_error d w m l : quiets d w (fun _ => True) (print_error m l).
Proof. intros s r s' E. split; [now apply (quiet_error d) in E|trivial]. Qed.

Lemma quiets_ask d w f e p (P : bool -> Prop) : (forall s, P (f w s p)) -> quiets d w P (ask f e p).
Proof. intros H s r s' E. injection E as <- <-. split; [now split|]. intros b E. now injection E as <-. Qed.

Lemma absolute_again cwd p : normalize (to_absolute cwd (normalize (to_absolute cwd p))) = normalize (to_absolute cwd p).
Proof. rewrite !normalize_to_absolute. f_equal. unfold loc at 1. cbn [to_absolute p_abs p_names]. apply norm_names_idem. Qed.

Lemma bare_lemma : forall pc w s t d args words here,
  spread pc args words -> line pc (jv_fold (w_jvm (cw_world w))) t (Some []) d words ->
  resolved (jv_cwd (w_jvm (cw_world w))) (mkPath false []) here -> (forall s', cw_is_file w s' here = false) ->
  exists s', execute pc args w s = (1%Z, s') /\ cs_hist s' = cs_hist s /\ (d <> Some true -> cs_out s' = cs_out s).
Proof.
  intros pc w s t d args words here L H R F. rewrite (accepted_lemma pc w s t (Some []) d args words L H).
  set (dd := match d with Some b => b | None => false end).
  assert (G : exists s', run_cli (args_of t (Some []) d) w s = (1%Z, s') /\ quiet dd s s').
  2:{ destruct G as (s' & -> & G1 & G2). exists s'. split; [reflexivity|]. split; [exact G1|]. intro N. apply G2. unfold dd. destruct d as [[]|]; congruence. }
  assert (G : quiets dd w (fun c => c = 1%Z) (command (args_of t (Some []) d))).
  2:{ unfold run_cli. destruct (command _ w s) as (r & s1) eqn:E. destruct (G _ _ _ E) as (Q & K). destruct r as [c|e].
      - rewrite (K c eq_refl). now exists s1.
      - destruct (handled e w s1 dd) as (s2 & -> & Q2). exists s2. split; [reflexivity|]. eapply quiet_trans; eassumption. }
  pose proof (resolved_absolute _ _ _ R) as E.
  unfold command, detect_target. cbn [args_of a_target a_options a_debug option_map]. fold dd.
  apply quiets_bind with (P := fun _ => True).
  { apply quiets_bind with (P := fun _ => True).
    - destruct t as [t|]; cbn [option_map]; [now apply quiets_ret|]. eapply quiets_bind; [apply quiets_debug|]. intros _ _. now apply quiets_ret.
    - intros p _. eapply quiets_bind; [apply quiets_absolute|]. intros q _. cbn beta. eapply quiets_bind; [apply quiets_debug|]. intros _ _. now apply quiets_ret. }
  intros T _. apply quiets_bind with (P := fun _ => True); [now apply quiets_ask|]. intros x _. destruct x; cbn [negb].
  2:{ eapply quiets_bind; [apply quiets_error|]. intros _ _. now apply quiets_ret. }
  apply quiets_bind with (P := fun x => x = Some here).
  { eapply quiets_bind; [apply quiets_absolute|]. cbn beta. intros q ->. apply quiets_ret. f_equal. exact E. }
  intros ? ->. apply quiets_bind with (P := fun _ => False); [|contradiction].
  unfold load_options. apply quiets_bind with (P := fun _ => False); [|contradiction].
  unfold read_options. apply quiets_bind with (P := fun x => x = None).
  2:{ intros ? ->. apply quiets_throw. }
  unfold read_simple. eapply quiets_bind; [apply quiets_absolute|]. cbn beta. intros q Eq.
  assert (q = here) as ->. { rewrite Eq, <- E. apply absolute_again. }
  apply quiets_bind with (P := fun _ => True); [now apply quiets_ask|]. intros x _. destruct x; cbn [negb]; [|now apply quiets_ret].
  apply quiets_bind with (P := fun x => x = false); [now apply quiets_ask|]. intros ? ->. cbn [negb]. apply quiets_throw.
Qed.

(** ** One meaning *)

Lemma one_meaning_lemma : forall pc fold t f d t' f' d' args, line pc fold t f d args -> line pc fold t' f' d' args -> t = t' /\ f = f' /\ d = d'.
Proof.
  intros pc fold t f d t' f' d' args L L'.
  assert (K : forall t f d, line pc fold t f d args -> run pc fold args nothing_taken = Some (mkTaken t f d false false [])).
  { intros u g e H. rewrite (line_runs pc fold (length args) args u g e nothing_taken); [|apply le_n|exact H|repeat split].
    unfold add, nothing_taken. cbn [t_target t_options t_debug t_help t_version t_unmatched]. now destruct u, g, e. }
  apply K in L. apply K in L'. rewrite L in L'. injection L' as A B D. now repeat split.
Qed.
