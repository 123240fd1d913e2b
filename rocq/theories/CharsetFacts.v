(** * Facts about what can be read on standard output *)

From Verif Require Import SpecCharset LayoutFacts RenderFacts EmojiFacts FormatFacts DocTreeFacts.
From Coq Require Import Lia ZifyN.

Ltac Zify.zify_post_hook ::= Z.div_mod_to_equations.

Lemma is_high_spec c : is_high c = true <-> high_half c.
Proof. unfold is_high, high_half. rewrite Bool.andb_true_iff, N.leb_le, N.ltb_lt. lia. Qed.

Lemma is_low_spec c : is_low c = true <-> low_half c.
Proof. unfold is_low, low_half. rewrite Bool.andb_true_iff, N.leb_le, N.ltb_lt. lia. Qed.

Lemma not_high c : is_high c = false <-> ~ high_half c.
Proof. rewrite <- is_high_spec. destruct (is_high c); intuition congruence. Qed.

Lemma not_low c : is_low c = false <-> ~ low_half c.
Proof. rewrite <- is_low_spec. destruct (is_low c); intuition congruence. Qed.

Lemma high_not_low c : is_high c = true -> is_low c = false.
Proof. rewrite is_high_spec, not_low. unfold high_half, low_half. lia. Qed.

(** ** Code points *)

Lemma string_ind (P : jstring -> Prop) : P [] -> (forall c s, P s -> (forall d s', s = d :: s' -> P s') -> P (c :: s)) -> forall s, P s.
Proof.
  intros H0 H1 s. remember (length s) as n eqn:En. assert (Hle : (length s <= n)%nat) by lia. clear En.
  revert s Hle. induction n as [|n IH]; intros s Hle.
  - destruct s; [exact H0|cbn in Hle; lia].
  - destruct s as [|c s]; [exact H0|]. apply H1; [apply IH; cbn in Hle; lia|]. intros d s' ->. apply IH. cbn in Hle. lia.
Qed.

Lemma code_points_plain c s : is_high c = false -> is_low c = false -> code_points (c :: s) = Some c :: code_points s.
Proof. intros H1 H2. cbn. now rewrite H1, H2. Qed.

(** The text may be cut unless that cuts a pair. *)
Lemma code_points_app a b : is_high (last a 0%N) = false \/ is_low (hd 0%N b) = false -> code_points (a ++ b) = code_points a ++ code_points b.
Proof.
  induction a as [|c a IH IH2] using string_ind; intro H; [reflexivity|]. destruct a as [|d a].
  - cbn in H. cbn. destruct (is_high c) eqn:Hc.
    + destruct H as [H|H]; [discriminate|]. destruct b as [|d b]; [reflexivity|]. cbn in H. now rewrite H.
    + now destruct (is_low c).
  - assert (HI : code_points ((d :: a) ++ b) = code_points (d :: a) ++ code_points b) by (apply IH; exact H).
    change ((c :: d :: a) ++ b) with (c :: (d :: a) ++ b). cbn [code_points app] in *. destruct (is_high c).
    + destruct (is_low d) eqn:Hd.
      * cbn. f_equal. apply (IH2 d a eq_refl). destruct H as [H|H]; [left|now right]. destruct a; [reflexivity|exact H].
      * now rewrite HI.
    + destruct (is_low c); now rewrite HI.
Qed.

Section Charset.
  Variable cs : charset.

  Definition shown_char (p : option N) : N :=
    match p with Some c => match cs c with Some _ => c | None => 63%N end | None => 63%N end.

  Definition viewed (s : jstring) : jstring := map shown_char (code_points s).

  Lemma viewed_app a b : is_high (last a 0%N) = false \/ is_low (hd 0%N b) = false -> viewed (a ++ b) = viewed a ++ viewed b.
  Proof. intro H. unfold viewed. now rewrite code_points_app, map_app. Qed.

  Lemma viewed_legible s : legible cs s (viewed s).
  Proof.
    induction s as [|c s IH IH2] using string_ind; [constructor|]. unfold viewed. cbn.
    destruct (is_high c) eqn:Hc.
    - destruct s as [|d s]; [apply lg_high; [now apply is_high_spec|discriminate|constructor]|].
      destruct (is_low d) eqn:Hd.
      + cbn. specialize (IH2 d s eq_refl). apply is_high_spec in Hc. apply is_low_spec in Hd.
        assert (Hk : to_code_point c d = ((c - 55296) * 1024 + (d - 56320) + 65536)%N) by (unfold to_code_point; lia). rewrite Hk. clear Hk.
        destruct (cs ((c - 55296) * 1024 + (d - 56320) + 65536)%N) eqn:E.
        * eapply lg_pair; try eassumption; [reflexivity|]. rewrite E. discriminate.
        * eapply lg_unknown_pair; try eassumption. reflexivity.
      + cbn [map]. apply lg_high; [now apply is_high_spec| |exact IH]. intros d' s' [= <- <-]. now apply not_low.
    - destruct (is_low c) eqn:Hl; cbn.
      + apply lg_low; [now apply is_low_spec|exact IH].
      + destruct (cs c) eqn:E; [apply lg_known|apply lg_unknown]; try (now apply not_high); try (now apply not_low); try exact IH; congruence.
  Qed.

  Hypothesis ascii : extends_ascii cs.

  Lemma viewed_ascii s : Forall (fun c => (c < 128)%N) s -> viewed s = s.
  Proof.
    induction 1 as [|c s Hc Hs IH]; [reflexivity|]. unfold viewed in *. rewrite code_points_plain.
    - cbn. rewrite (ascii c Hc). now rewrite IH.
    - unfold is_high. destruct (N.leb_spec 55296 c); [lia|reflexivity].
    - unfold is_low. destruct (N.leb_spec 56320 c); [lia|reflexivity].
  Qed.

  Lemma shown_char_known p : cs (shown_char p) <> None.
  Proof.
    assert (H63 : cs 63%N <> None) by (rewrite ascii by lia; discriminate).
    destruct p as [c|]; [|exact H63]. cbn. destruct (cs c) eqn:E; [rewrite E; discriminate|exact H63].
  Qed.

  Lemma viewed_known s : Forall (fun c => cs c <> None) (viewed s).
  Proof. unfold viewed. apply Forall_map, Forall_forall. intros. apply shown_char_known. Qed.

  Lemma encode_point_shown p : encode_point cs p = bytes_of cs (shown_char p).
  Proof.
    assert (H63 : bytes_of cs 63%N = [63%N]) by (unfold bytes_of; now rewrite ascii by lia).
    destruct p as [c|]; [|symmetry; exact H63]. cbn. destruct (cs c) eqn:E; [unfold bytes_of; now rewrite E|now rewrite H63].
  Qed.

  Lemma encode_viewed s : is_high (last s 0%N) = false -> encode cs s = flat_map (bytes_of cs) (viewed s).
  Proof.
    intro H. unfold encode, viewed. rewrite H. rewrite flat_map_concat_map, (flat_map_concat_map (bytes_of cs)), map_map. f_equal.
    apply map_ext. exact encode_point_shown.
  Qed.

  (** ** Texts of trees *)

  Definition viewed_format (tf : tree_format) : tree_format :=
    mkTreeFormat (viewed (tf_non_last tf)) (viewed (tf_last tf)) (viewed (tf_continuation tf)) (viewed (tf_empty tf)).

  Fixpoint viewed_tree (t : dtree) : dtree := match t with DT l ks => DT (viewed l) (map viewed_tree ks) end.

  Definition viewed_row (r : row) : row := (fst r, viewed (snd r)).

  Lemma viewed_rows t : rows (viewed_tree t) = map viewed_row (rows t).
  Proof.
    induction t as [l ks IH] using dtree_ind'. cbn [viewed_tree rows map]. f_equal.
    induction IH as [|k ks Hk Hks IHks]; [reflexivity|]. cbn [map]. destruct ks as [|k2 ks].
    - cbn [map]. rewrite Hk, !map_map. apply map_ext. reflexivity.
    - cbn [map] in *. rewrite map_app, IHks, Hk, !map_map. f_equal.
  Qed.

  Lemma space_viewed : viewed [c_space] = [c_space].
  Proof. apply viewed_ascii. repeat constructor. Qed.

  Lemma viewed_prefix tf flags : viewed (row_prefix tf flags) = row_prefix (viewed_format tf) flags.
  Proof.
    induction flags as [|b flags IH]; [reflexivity|]. destruct flags as [|b2 flags].
    - cbn [row_prefix]. rewrite viewed_app by now right. rewrite space_viewed. now destruct b.
    - change (row_prefix tf (b :: b2 :: flags)) with ((if b then tf_empty tf else tf_continuation tf) ++ [c_space] ++ row_prefix tf (b2 :: flags)).
      change (row_prefix (viewed_format tf) (b :: b2 :: flags)) with
        ((if b then tf_empty (viewed_format tf) else tf_continuation (viewed_format tf)) ++ [c_space] ++ row_prefix (viewed_format tf) (b2 :: flags)).
      rewrite viewed_app by now right. rewrite (viewed_app [c_space]) by now left. rewrite space_viewed, IH. now destruct b.
  Qed.

  Lemma prefix_end tf flags : is_high (last (row_prefix tf flags) 0%N) = false.
  Proof.
    induction flags as [|b flags IH]; [reflexivity|]. destruct flags as [|b2 flags].
    - cbn [row_prefix]. rewrite last_last. reflexivity.
    - change (row_prefix tf (b :: b2 :: flags)) with ((if b then tf_empty tf else tf_continuation tf) ++ [c_space] ++ row_prefix tf (b2 :: flags)).
      rewrite app_assoc. destruct (row_prefix tf (b2 :: flags)) as [|y l] eqn:E.
      + rewrite app_nil_r, last_last. reflexivity.
      + rewrite last_app_nonempty by discriminate. exact IH.
  Qed.

  Lemma viewed_row_text tf r : viewed (row_text tf r) = row_text (viewed_format tf) (viewed_row r).
  Proof. unfold row_text. rewrite viewed_app by (left; apply prefix_end). now rewrite viewed_prefix. Qed.

  Lemma viewed_join l : viewed (join [c_nl] l) = join [c_nl] (map viewed l).
  Proof.
    induction l as [|a l IH]; [reflexivity|]. destruct l as [|b l]; [reflexivity|].
    change (join [c_nl] (a :: b :: l)) with (a ++ [c_nl] ++ join [c_nl] (b :: l)).
    change (join [c_nl] (map viewed (a :: b :: l))) with (viewed a ++ [c_nl] ++ join [c_nl] (map viewed (b :: l))).
    rewrite viewed_app by now right. rewrite (viewed_app [c_nl]) by now left. rewrite IH. f_equal. f_equal. apply viewed_ascii. repeat constructor.
  Qed.

  Lemma viewed_text tf t : viewed (text tf t) = text (viewed_format tf) (viewed_tree t).
  Proof.
    unfold text. rewrite viewed_join, viewed_rows, !map_map. f_equal. apply map_ext. intro r. apply viewed_row_text.
  Qed.

  Lemma viewed_tree_legible t : legible_tree cs t (viewed_tree t).
  Proof.
    induction t as [l ks IH] using dtree_ind'. cbn. constructor; [apply viewed_legible|]. induction IH; constructor; auto.
  Qed.

  Lemma viewed_nl s : In c_nl (viewed s) -> In c_nl s.
  Proof.
    unfold viewed. induction s as [|c s IH IH2] using string_ind; [auto|]. cbn. destruct (is_high c) eqn:Hc.
    - destruct s as [|d s]; [intros [H|[]]; discriminate|]. destruct (is_low d) eqn:Hd; cbn [map].
      + intros [H|H].
        * exfalso. apply is_high_spec in Hc. apply is_low_spec in Hd. unfold high_half, low_half, c_nl in *. unfold shown_char in H.
          assert (65536 <= to_code_point c d)%N by (unfold to_code_point; lia). destruct (cs _) in H; lia.
        * right. right. exact (IH2 d s eq_refl H).
      + intros [H|H]; [discriminate|]. right. exact (IH H).
    - destruct (is_low c); cbn [map].
      + intros [H|H]; [discriminate|]. right. auto.
      + intros [H|H]; [left|right; auto]. cbn in H. destruct (cs c); [exact H|discriminate].
  Qed.

  Lemma viewed_one_line t : labels_on_one_line t -> labels_on_one_line (viewed_tree t).
  Proof.
    intros H r Hr. rewrite viewed_rows in Hr. apply in_map_iff in Hr as (r0 & <- & Hr). cbn. intro Hn. apply (H r0 Hr). now apply viewed_nl.
  Qed.

  Lemma viewed_distinguishable : distinguishable (viewed_format UNICODE_BOX_DRAWING).
  Proof.
    assert (D : forall c, (c < 55296)%N -> (128 <= c)%N -> let d := match cs c with Some _ => c | None => 63%N end in d <> 32%N /\ d <> 10%N).
    { intros c H1 H2 d. unfold d. destruct (cs c); lia. }
    assert (S : cs 32%N = Some [32%N]) by (apply ascii; lia).
    unfold viewed_format, UNICODE_BOX_DRAWING. cbn. rewrite S. cbn.
    destruct (D 9500%N) as [A1 A2]; [lia..|]. destruct (D 9472%N) as [B1 B2]; [lia..|]. destruct (D 9492%N) as [C1 C2]; [lia..|].
    destruct (D 9474%N) as [E1 E2]; [lia..|]. split; [exists 2%nat; repeat split|]. split.
    - intros b i [<-|[<-|[]]] [<-|[<-|[]]] [=]; auto.
    - unfold c_nl. intros s [<-|[<-|[<-|[<-|[]]]]] [H|[H|[]]]; auto; discriminate.
  Qed.
End Charset.

(** ** Standard charsets *)

Lemma ascii_extends : extends_ascii US_ASCII.
Proof. intros c H. unfold US_ASCII. apply N.ltb_lt in H. now rewrite H. Qed.

Lemma latin_extends : extends_ascii ISO_8859_1.
Proof. intros c H. unfold ISO_8859_1. destruct (N.ltb_spec c 256); [reflexivity|lia]. Qed.

Lemma utf8_extends : extends_ascii UTF_8.
Proof. intros c H. unfold UTF_8. apply N.ltb_lt in H. now rewrite H. Qed.

(** A charset whose codes are recognised from the left. *)
Lemma prefix_decodable cs :
  (forall c b, cs c = Some b -> b <> []) ->
  (forall c1 c2 b1 b2 r1 r2, cs c1 = Some b1 -> cs c2 = Some b2 -> b1 ++ r1 = b2 ++ r2 -> c1 = c2) -> decodable cs.
Proof.
  intros Hne H s1. induction s1 as [|c1 s1 IH]; intros [|c2 s2] H1 H2 E; [reflexivity| | |].
  - exfalso. inversion H2 as [|? ? Hc]; subst. unfold bytes_of in E. cbn in E. destruct (cs c2) as [b|] eqn:Eb; [|congruence].
    apply Hne in Eb. destruct b; [congruence|discriminate].
  - exfalso. inversion H1 as [|? ? Hc]; subst. unfold bytes_of in E. cbn in E. destruct (cs c1) as [b|] eqn:Eb; [|congruence].
    apply Hne in Eb. destruct b; [congruence|discriminate].
  - inversion H1 as [|? ? Hc1 Hs1]; inversion H2 as [|? ? Hc2 Hs2]; subst. cbn in E.
    assert (c1 = c2).
    { unfold bytes_of in E. destruct (cs c1) as [b1|] eqn:E1; [|congruence]. destruct (cs c2) as [b2|] eqn:E2; [|congruence]. exact (H _ _ _ _ _ _ E1 E2 E). }
    subst c2. f_equal. apply IH; try assumption. now apply app_inv_head in E.
Qed.

Lemma ascii_decodable : decodable US_ASCII.
Proof.
  apply prefix_decodable; unfold US_ASCII.
  - intros c b. destruct (c <? 128)%N; [intros [= <-]|]; discriminate.
  - intros c1 c2 b1 b2 r1 r2. destruct (c1 <? 128)%N, (c2 <? 128)%N; try discriminate. now intros [= <-] [= <-] [=].
Qed.

Lemma latin_decodable : decodable ISO_8859_1.
Proof.
  apply prefix_decodable; unfold ISO_8859_1.
  - intros c b. destruct (c <? 256)%N; [intros [= <-]|]; discriminate.
  - intros c1 c2 b1 b2 r1 r2. destruct (c1 <? 256)%N, (c2 <? 256)%N; try discriminate. now intros [= <-] [= <-] [=].
Qed.

Lemma utf8_cases c b : UTF_8 c = Some b ->
  ((c < 128)%N /\ b = [c]) \/
  ((128 <= c < 2048)%N /\ b = [192 + c / 64; 128 + c mod 64]%N) \/
  ((2048 <= c < 65536)%N /\ b = [224 + c / 4096; 128 + c / 64 mod 64; 128 + c mod 64]%N) \/
  ((65536 <= c < 1114112)%N /\ b = [240 + c / 262144; 128 + c / 4096 mod 64; 128 + c / 64 mod 64; 128 + c mod 64]%N).
Proof.
  unfold UTF_8. destruct (N.ltb_spec c 128); [intros [= <-]; auto|]. destruct (N.ltb_spec c 2048); [intros [= <-]; auto|].
  destruct (N.ltb_spec c 65536).
  - destruct (is_high c || is_low c); [discriminate|]. intros [= <-]. auto 6.
  - destruct (N.ltb_spec c 1114112); [intros [= <-]; auto 6|discriminate].
Qed.

Lemma cons_eq {A} (a b : A) l m : a :: l = b :: m -> a = b /\ l = m.
Proof. now intros [= -> ->]. Qed.

Lemma utf8_decodable : decodable UTF_8.
Proof.
  apply prefix_decodable.
  - intros c b H. apply utf8_cases in H as [[_ ->]|[[_ ->]|[[_ ->]|[_ ->]]]]; discriminate.
  - intros c1 c2 b1 b2 r1 r2 H1 H2 E.
    apply utf8_cases in H1 as [[L1 ->]|[[L1 ->]|[[L1 ->]|[L1 ->]]]]; apply utf8_cases in H2 as [[L2 ->]|[[L2 ->]|[[L2 ->]|[L2 ->]]]];
      cbn [app] in E;
      repeat match goal with H : _ :: _ = _ :: _ |- _ => apply cons_eq in H; destruct H end; try lia.
Qed.

Lemma utf8_has c : (c < 65536)%N -> ~ high_half c -> ~ low_half c -> UTF_8 c <> None.
Proof.
  intros H H1 H2. unfold UTF_8. apply not_high in H1. apply not_low in H2. rewrite H1, H2. cbn.
  destruct (c <? 128)%N; [discriminate|]. destruct (c <? 2048)%N; [discriminate|]. destruct (N.ltb_spec c 65536); [discriminate|lia].
Qed.

Lemma utf8_has_pair c d : high_half c -> low_half d -> UTF_8 (to_code_point c d) <> None.
Proof.
  unfold high_half, low_half. intros H1 H2. assert (H : (65536 <= to_code_point c d < 1114112)%N) by (unfold to_code_point; lia). unfold UTF_8.
  destruct (N.ltb_spec (to_code_point c d) 128); [lia|]. destruct (N.ltb_spec (to_code_point c d) 2048); [lia|].
  destruct (N.ltb_spec (to_code_point c d) 65536); [lia|]. destruct (N.ltb_spec (to_code_point c d) 1114112); [discriminate|lia].
Qed.

Lemma viewed_unit c s : (c < 65536)%N -> ~ high_half c -> ~ low_half c -> viewed UTF_8 (c :: s) = c :: viewed UTF_8 s.
Proof.
  intros H H1 H2. unfold viewed. rewrite code_points_plain by (now apply not_high || now apply not_low). cbn [map]. f_equal. unfold shown_char.
  destruct (UTF_8 c) eqn:E; [reflexivity|]. now apply utf8_has in E.
Qed.

Lemma viewed_pair c d s : high_half c -> low_half d -> viewed UTF_8 (c :: d :: s) = to_code_point c d :: viewed UTF_8 s.
Proof.
  intros H1 H2. unfold viewed. cbn [code_points]. rewrite (proj2 (is_high_spec c) H1), (proj2 (is_low_spec d) H2). cbn [map]. f_equal. unfold shown_char.
  destruct (UTF_8 (to_code_point c d)) eqn:E; [reflexivity|]. now apply utf8_has_pair in E.
Qed.

Lemma viewed_inj s1 : paired s1 -> forall s2, paired s2 -> viewed UTF_8 s1 = viewed UTF_8 s2 -> s1 = s2.
Proof.
  assert (P : forall c d, high_half c -> low_half d -> (65536 <= to_code_point c d)%N) by (intros c d H1 H2; unfold to_code_point; lia).
  induction 1 as [|c s Hc H1 H2 Hs IH|c d s H1 H2 Hs IH]; intros s2 P2; destruct P2 as [|c' s' Hc' H1' H2' Hs'|c' d' s' H1' H2' Hs']; intro E.
  - reflexivity.
  - rewrite viewed_unit in E by assumption. discriminate.
  - rewrite viewed_pair in E by assumption. discriminate.
  - rewrite viewed_unit in E by assumption. discriminate.
  - rewrite !viewed_unit in E by assumption. apply cons_eq in E. destruct E as [E E']. subst. f_equal. now apply IH.
  - rewrite viewed_unit, viewed_pair in E by assumption. apply cons_eq in E. destruct E as [E E']. specialize (P _ _ H1' H2'). lia.
  - rewrite viewed_pair in E by assumption. discriminate.
  - rewrite viewed_pair, viewed_unit in E by assumption. apply cons_eq in E. destruct E as [E E']. specialize (P _ _ H1 H2). lia.
  - rewrite !viewed_pair in E by assumption. apply cons_eq in E. destruct E as [E E'].
    assert (c = c' /\ d = d') as [-> ->] by (unfold to_code_point, high_half, low_half in *; lia). do 2 f_equal. now apply IH.
Qed.

Lemma viewed_rows_inj l1 : Forall (fun r => paired (snd r)) l1 -> forall l2, Forall (fun r => paired (snd r)) l2 ->
  map (viewed_row UTF_8) l1 = map (viewed_row UTF_8) l2 -> l1 = l2.
Proof.
  induction 1 as [|[f1 x1] l1 H1 Hs IH]; intros [|[f2 x2] l2] H E; try discriminate; [reflexivity|].
  inversion H as [|? ? H2 Hs2]; subst. cbn [map] in E. apply cons_eq in E. destruct E as [E E']. f_equal; [|now apply IH].
  unfold viewed_row in E. cbn [fst snd] in E. injection E as -> E. f_equal. now apply viewed_inj.
Qed.

Lemma viewed_tree_inj t1 t2 : labels_paired t1 -> labels_paired t2 -> viewed_tree UTF_8 t1 = viewed_tree UTF_8 t2 -> t1 = t2.
Proof.
  intros H1 H2 E. apply drows_inj. f_equal. apply (f_equal rows) in E. rewrite !viewed_rows in E.
  apply viewed_rows_inj; [now apply Forall_forall|now apply Forall_forall|exact E].
Qed.

(** ** The command *)

Lemma plain_written ls s : ~ In c_percent s -> written_as ls s s.
Proof.
  induction s as [|c s IH]; intro H; [constructor|]. constructor; [intros ->; apply H; now left|]. apply IH. intro Hi. apply H. now right.
Qed.

Lemma prefix_percent tf flags : (forall s, In s [tf_non_last tf; tf_last tf; tf_continuation tf; tf_empty tf] -> ~ In c_percent s) -> ~ In c_percent (row_prefix tf flags).
Proof.
  intro H. assert (S : ~ In c_percent [c_space]) by (intros [E|[]]; discriminate).
  induction flags as [|b flags IH]; [auto|]. destruct flags as [|b2 flags].
  - cbn [row_prefix]. rewrite in_app_iff. intros [Hi|Hi]; [|auto]. revert Hi. apply H. destruct b; cbn; auto.
  - change (row_prefix tf (b :: b2 :: flags)) with ((if b then tf_empty tf else tf_continuation tf) ++ [c_space] ++ row_prefix tf (b2 :: flags)).
    rewrite !in_app_iff. intros [Hi|[Hi|Hi]]; [|auto|auto]. revert Hi. apply H. destruct b; cbn; auto.
Qed.

Lemma join_percent l : (forall s, In s l -> ~ In c_percent s) -> ~ In c_percent (join [c_nl] l).
Proof.
  induction l as [|a l IH]; intro H; [auto|]. destruct l as [|b l]; [apply H; now left|].
  change (join [c_nl] (a :: b :: l)) with (a ++ [c_nl] ++ join [c_nl] (b :: l)). rewrite !in_app_iff.
  intros [Hi|[[Hi|[]]|Hi]]; [revert Hi; apply H; now left|discriminate|]. revert Hi. apply IH. intros s Hs. apply H. now right.
Qed.

Lemma text_percent t : (forall r, In r (rows t) -> ~ In c_percent (snd r)) -> ~ In c_percent (text UNICODE_BOX_DRAWING t).
Proof.
  intro H. apply join_percent. intros s Hs. apply in_map_iff in Hs as (r & <- & Hr). unfold row_text. rewrite in_app_iff. intros [Hi|Hi].
  - revert Hi. apply prefix_percent. cbn. intros x [<-|[<-|[<-|[<-|[]]]]] Hi; cbn in Hi; intuition discriminate.
  - exact (H r Hr Hi).
Qed.

Lemma asked_written w a t : asks_for w a t ->
  fst (run_cli a w cli_start) = 0%Z /\ cs_out (snd (run_cli a w cli_start)) = text UNICODE_BOX_DRAWING t ++ cw_linesep w /\ usual_linesep (cw_linesep w).
Proof.
  intros [fs T ex sel x dk st v e s H1 H2 H3 H4 H5 H6 H7 H8 H9 H10 H11 H12 H13 H14 H15 H16 H17 -> H18].
  destruct (command_document w fs a T ex sel x dk cli_start H1 H2 H3 H4 H5 H6 H7 H8 H9 H10 H11 H12 H13) as [C _].
  destruct (C (text UNICODE_BOX_DRAWING (labelled v s)) H14) as [C' _]; [now exists st, v, e, s|].
  destruct (C' (text UNICODE_BOX_DRAWING (labelled v s))) as (R1 & R2 & _); [apply plain_written, text_percent, H18|]. auto.
Qed.

Lemma usual_viewed cs ls : extends_ascii cs -> usual_linesep ls -> viewed cs ls = ls.
Proof. intros H [-> | ->]; apply viewed_ascii; try assumption; repeat constructor. Qed.

Lemma usual_end s ls : usual_linesep ls -> is_high (last (s ++ ls) 0%N) = false.
Proof. intros [-> | ->]; [now rewrite last_last|]. now rewrite (app_assoc s [13%N] [10%N] : s ++ [13%N; 10%N] = _), last_last. Qed.

Lemma usual_start ls : usual_linesep ls -> is_low (hd 0%N ls) = false.
Proof. now intros [-> | ->]. Qed.

Lemma asked_bytes cs w a t : extends_ascii cs -> asks_for w a t ->
  encode cs (cs_out (snd (run_cli a w cli_start))) = flat_map (bytes_of cs) (text (viewed_format cs UNICODE_BOX_DRAWING) (viewed_tree cs t) ++ cw_linesep w).
Proof.
  intros Hcs H. destruct (asked_written _ _ _ H) as (_ & -> & Hl). rewrite encode_viewed by (assumption || now apply usual_end).
  rewrite viewed_app by (right; now apply usual_start). now rewrite viewed_text, usual_viewed.
Qed.

Theorem what_arrives cs w a t : extends_ascii cs -> asks_for w a t ->
  fst (run_cli a w cli_start) = 0%Z /\
  exists tf r, legible_format cs UNICODE_BOX_DRAWING tf /\ legible_tree cs t r /\
    encode cs (cs_out (snd (run_cli a w cli_start))) = flat_map (bytes_of cs) (text tf r ++ cw_linesep w) /\
    Forall (fun c => cs c <> None) (text tf r ++ cw_linesep w).
Proof.
  intros Hcs H. destruct (asked_written _ _ _ H) as (R & _ & Hl). split; [exact R|]. exists (viewed_format cs UNICODE_BOX_DRAWING), (viewed_tree cs t).
  split; [repeat split; apply viewed_legible|]. split; [apply viewed_tree_legible|]. split; [now apply asked_bytes|].
  rewrite <- viewed_text by assumption. apply Forall_app. split; [now apply viewed_known|]. rewrite <- (usual_viewed cs) by assumption. now apply viewed_known.
Qed.

Lemma same_viewed cs w1 w2 a1 a2 t1 t2 : extends_ascii cs -> decodable cs -> cw_linesep w1 = cw_linesep w2 ->
  asks_for w1 a1 t1 -> asks_for w2 a2 t2 -> labels_on_one_line t1 -> labels_on_one_line t2 ->
  encode cs (cs_out (snd (run_cli a1 w1 cli_start))) = encode cs (cs_out (snd (run_cli a2 w2 cli_start))) ->
  viewed_tree cs t1 = viewed_tree cs t2.
Proof.
  intros Hcs Hd Hl A1 A2 L1 L2 E. rewrite (asked_bytes cs w1 a1 t1), (asked_bytes cs w2 a2 t2), <- Hl in E by assumption.
  assert (K : forall t, Forall (fun c => cs c <> None) (text (viewed_format cs UNICODE_BOX_DRAWING) (viewed_tree cs t) ++ cw_linesep w1)).
  { intro t. rewrite <- viewed_text by assumption. apply Forall_app. split; [now apply viewed_known|].
    rewrite <- (usual_viewed cs) by (assumption || apply (asked_written _ _ _ A1)). now apply viewed_known. }
  apply Hd in E; [|apply K..]. apply app_inv_tail in E. revert E. apply text_inj; [now apply viewed_distinguishable|now apply viewed_one_line..].
Qed.

Theorem bytes_tell cs w1 w2 a1 a2 t1 t2 : extends_ascii cs -> decodable cs -> cw_linesep w1 = cw_linesep w2 ->
  asks_for w1 a1 t1 -> asks_for w2 a2 t2 -> labels_on_one_line t1 -> labels_on_one_line t2 ->
  encode cs (cs_out (snd (run_cli a1 w1 cli_start))) = encode cs (cs_out (snd (run_cli a2 w2 cli_start))) ->
  exists r, legible_tree cs t1 r /\ legible_tree cs t2 r.
Proof.
  intros Hcs Hd Hl A1 A2 L1 L2 E. exists (viewed_tree cs t1). split; [apply viewed_tree_legible|].
  rewrite (same_viewed cs w1 w2 a1 a2 t1 t2) by assumption. apply viewed_tree_legible.
Qed.

Theorem utf8_tells w1 w2 a1 a2 t1 t2 : cw_linesep w1 = cw_linesep w2 ->
  asks_for w1 a1 t1 -> asks_for w2 a2 t2 -> labels_on_one_line t1 -> labels_on_one_line t2 -> labels_paired t1 -> labels_paired t2 ->
  encode UTF_8 (cs_out (snd (run_cli a1 w1 cli_start))) = encode UTF_8 (cs_out (snd (run_cli a2 w2 cli_start))) -> t1 = t2.
Proof.
  intros Hl A1 A2 L1 L2 P1 P2 E. apply viewed_tree_inj; [assumption..|].
  exact (same_viewed _ _ _ _ _ _ _ utf8_extends utf8_decodable Hl A1 A2 L1 L2 E).
Qed.

Theorem standard_charsets : (extends_ascii US_ASCII /\ decodable US_ASCII) /\ (extends_ascii ISO_8859_1 /\ decodable ISO_8859_1) /\ (extends_ascii UTF_8 /\ decodable UTF_8).
Proof.
  split; [|split]; (split; [|]).
  - exact ascii_extends.
  - exact ascii_decodable.
  - exact latin_extends.
  - exact latin_decodable.
  - exact utf8_extends.
  - exact utf8_decodable.
Qed.
