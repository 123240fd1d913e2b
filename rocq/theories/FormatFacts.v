From Verif Require Import SpecFormat CliFacts.
Close Scope Z_scope.

Lemma decimal_app s c : decimal (s ++ [c]) = (10 * decimal s + (c - 48))%N.
Proof. unfold decimal. now rewrite fold_left_app. Qed.

Lemma is_digit_iff c : is_digit c = true <-> exists k, (k < 10)%N /\ c = (48 + k)%N.
Proof.
  unfold is_digit. split.
  - intro H. apply andb_prop in H as [H1 H2]. apply N.leb_le in H1, H2. exists (c - 48)%N. lia.
  - intros (k & Hk & ->). apply andb_true_intro. split; apply N.leb_le; lia.
Qed.

Lemma denotes_iff s n : denotes s n <-> s <> [] /\ forallb is_digit s = true /\ decimal s = n.
Proof.
  split.
  - induction 1 as [k Hk|s n k H (IH1 & IH2 & IH3) Hk].
    + split; [discriminate|]. assert (is_digit (48 + k) = true) as E by (apply is_digit_iff; now exists k). cbn [forallb]. rewrite E. split; [reflexivity|].
      unfold decimal. cbn [fold_left]. lia.
    + split; [now destruct s|]. rewrite forallb_app, IH2. assert (is_digit (48 + k) = true) as E by (apply is_digit_iff; now exists k).
      cbn [forallb]. rewrite E. split; [reflexivity|]. rewrite decimal_app, IH3. lia.
  - revert n. induction s as [|c s IH] using rev_ind; intros n (H1 & H2 & H3); [congruence|]. rewrite forallb_app in H2. apply andb_prop in H2 as [H2 H4].
    cbn in H4. rewrite andb_true_r in H4. apply is_digit_iff in H4 as (k & Hk & ->). rewrite decimal_app in H3.
    replace (48 + k - 48)%N with k in H3 by lia. subst n. destruct s as [|c0 s0].
    + change (decimal []) with 0%N. replace (10 * 0 + k)%N with k by lia. now apply dg_one.
    + apply dg_more; [|exact Hk]. apply IH. split; [discriminate|now split].
Qed.

Lemma span_stop f s a c b : s = a ++ c :: b -> forallb f a = true -> f c = false -> span f s = (a, c :: b).
Proof.
  intros -> H Hc. induction a as [|x a IH]; cbn [app span]; [now rewrite Hc|]. cbn in H. apply andb_prop in H as [-> H]. now rewrite IH.
Qed.

Lemma span_spec f s a b : span f s = (a, b) -> forallb f a = true /\ match b with c :: _ => f c = false | [] => True end.
Proof.
  revert a b. induction s as [|c s IH]; intros a b; cbn [span]; [now intros [= <- <-]|].
  destruct (f c) eqn:E; [|now intros [= <- <-]; cbn]. destruct (span f s) as [x y]. intros [= <- <-]. destruct (IH x y eq_refl) as [H1 H2].
  cbn. now rewrite E.
Qed.

(** ** Specifiers *)
Lemma not_flag c : is_digit c = true -> c <> 48%N -> is_flag c = false.
Proof.
  intros H H0. apply is_digit_iff in H as (k & Hk & ->). unfold is_flag. cbn [existsb].
  repeat match goal with |- context [N.eqb ?a ?b] => destruct (N.eqb_spec a b) as [?E|_]; [exfalso; lia|] end. reflexivity.
Qed.

Definition index_syntax (i : jstring) : Prop := i = [] \/ exists d, d <> [] /\ forallb is_digit d = true /\ i = d ++ [36%N].

Lemma parse_spec_parts s sp : parse_spec s = Some sp ->
  index_syntax (sp_index sp) /\ forallb is_flag (sp_flags sp) = true /\ forallb is_digit (sp_width sp) = true /\
  match sp_width sp with c :: _ => is_flag c = false | [] => True end.
Proof.
  unfold parse_spec. destruct (span is_digit s) as [d r] eqn:E1. apply span_spec in E1 as [E1 _].
  set (ix := match d, r with _ :: _, 36%N :: r' => (d ++ [36%N], r') | _, _ => ([], s) end).
  assert (Hix : index_syntax (fst ix)).
  { subst ix. destruct d as [|d0 d]; [now left|]. destruct r as [|r0 r]; [now left|].
    destruct r0 as [|q]; [now left|]. repeat (destruct q as [q|q|]; try (now left)). right. exists (d0 :: d). split; [discriminate|]. now split. }
  destruct ix as [index s1]. cbn [fst] in Hix.
  destruct (span is_flag s1) as [flags s2] eqn:E2. apply span_spec in E2 as [E2 E2'].
  destruct (span is_digit s2) as [width s3] eqn:E3. pose proof (span_app _ _ _ _ E3) as E4. apply span_spec in E3 as [E3 _].
  assert (Hw : match width with c :: _ => is_flag c = false | [] => True end).
  { destruct width; [exact I|]. rewrite E4 in E2'. exact E2'. }
  clear E4 E2'.
  set (pr := match s3 with 46%N :: r' => match span is_digit r' with ([], _) => None | (p, s4) => Some (46%N :: p, s4) end
             | _ => Some ([], s3) end).
  destruct pr as [[prec s4]|]; [|discriminate]. intro H.
  assert (K : forall t c, Some (mkSpec index flags width prec t c) = Some sp ->
    index_syntax (sp_index sp) /\ forallb is_flag (sp_flags sp) = true /\ forallb is_digit (sp_width sp) = true /\
    match sp_width sp with c :: _ => is_flag c = false | [] => True end).
  { intros t c [= <-]. cbn [sp_index sp_flags sp_width]. now repeat split. }
  destruct s4 as [|t [|c rest]]; [discriminate| |].
  - destruct (is_letter t || (t =? 37)%N); [|discriminate]. now apply (K [] t).
  - destruct (((t =? 116) || (t =? 84))%N && (is_letter c || (c =? 37)%N)); [now apply (K [t] c)|].
    destruct (is_letter t || (t =? 37)%N); [|discriminate]. now apply (K [] t).
Qed.

Lemma parse_spec_some i fl w cv rest : index_syntax i -> fl = [] \/ fl = [45%N] -> forallb is_digit w = true ->
  match w with c :: _ => c <> 48%N | [] => True end -> cv = 37%N \/ cv = 110%N ->
  parse_spec (i ++ fl ++ w ++ cv :: rest) = Some (mkSpec i fl w [] [] cv).
Proof.
  intros Hi Hfl Hw H0 Hcv.
  assert (Hd : is_digit cv = false) by (destruct Hcv as [-> | ->]; reflexivity).
  assert (Hf : is_flag cv = false) by (destruct Hcv as [-> | ->]; reflexivity).
  set (s := i ++ fl ++ w ++ cv :: rest).
  assert (Hix : (let (d, r) := span is_digit s in match d, r with _ :: _, 36%N :: r' => (d ++ [36%N], r') | _, _ => ([], s) end) = (i, fl ++ w ++ cv :: rest)).
  { destruct Hi as [->|(d & Hd0 & Hd1 & ->)].
    - cbn [app] in s. destruct Hfl as [-> | ->].
      + cbn [app] in *. rewrite (span_stop is_digit s w cv rest eq_refl Hw Hd). destruct w; [reflexivity|]. destruct Hcv as [-> | ->]; reflexivity.
      + reflexivity.
    - rewrite (span_stop is_digit s d 36%N (fl ++ w ++ cv :: rest)); [|subst s; now rewrite <- app_assoc|exact Hd1|reflexivity].
      destruct d; [congruence|reflexivity]. }
  unfold parse_spec. fold s. destruct (span is_digit s) as [d r]. rewrite Hix.
  assert (Hs2 : span is_flag (fl ++ w ++ cv :: rest) = (fl, w ++ cv :: rest)).
  { assert (Hff : forallb is_flag fl = true) by (destruct Hfl as [-> | ->]; reflexivity).
    destruct w as [|c w].
    - now apply span_stop.
    - apply span_stop; [reflexivity|exact Hff|]. cbn in Hw. apply andb_prop in Hw as [Hw _]. now apply not_flag. }
  rewrite Hs2, (span_stop is_digit _ w cv rest eq_refl Hw Hd). destruct Hcv as [-> | ->]; destruct rest as [|? ?]; reflexivity.
Qed.

Lemma numbered_iff i : numbered i <-> index_syntax i /\ good_index i = true.
Proof.
  split.
  - intros [->|(d & n & -> & Hd & H1 & H2)]; [split; [now left|reflexivity]|]. apply denotes_iff in Hd as (Hd & Hf & <-). split.
    + right. exists d. now split.
    + unfold good_index. destruct (d ++ js "$") as [|c x] eqn:E; [now destruct d|]. rewrite <- E. change (js "$") with [36%N]. rewrite removelast_last.
      apply andb_true_intro. split; now apply N.leb_le.
  - intros [[->|(d & Hd & Hf & ->)] H]; [now left|]. right. exists d, (decimal d). split; [reflexivity|]. split; [now apply denotes_iff|].
    unfold good_index in H. destruct (d ++ [36%N]) as [|c x] eqn:E; [now destruct d|]. rewrite <- E, removelast_last in H.
    apply andb_prop in H as [H1 H2]. now apply N.leb_le in H1, H2.
Qed.

Lemma pad_spaces n : spaces n = repeat c_space (N.to_nat n - 1).
Proof. unfold spaces. now rewrite N2Nat.inj_sub. Qed.

(** What the parser makes of a specifier. *)
Lemma specifier_parsed ls bad f t : specifier ls f t -> forall rest,
  exists sp, f = c_percent :: sp_index sp ++ sp_flags sp ++ sp_width sp ++ sp_precision sp ++ sp_time sp ++ [sp_conv sp] /\
    parse_spec (tl f ++ rest) = Some sp /\ spec_piece ls bad sp = Some (PText t).
Proof.
  assert (W : forall w n, wide w n -> w <> [] /\ forallb is_digit w = true /\ match w with c :: _ => c <> 48%N | [] => True end /\
                                      (2147483647 <? n)%N = false /\ decimal w = n).
  { intros w n (Hd & Hn & H0). apply denotes_iff in Hd as (Hd & Hf & <-). split; [exact Hd|]. split; [exact Hf|]. split.
    - destruct w as [|c w]; [exact I|]. intros ->. apply H0. now exists w.
    - split; [now apply N.ltb_ge|reflexivity]. }
  intros [i Hi|i w n Hi Hw|i w n Hi Hw|i Hi] rest; apply numbered_iff in Hi as [Hi Hg]; try (apply W in Hw as (W1 & W2 & W3 & W4 & <-)).
  - exists (mkSpec i [] [] [] [] 37%N). split; [reflexivity|]. split.
    + cbn [tl app js]. change (js "%" ++ i ++ js "%") with (c_percent :: i ++ [37%N]). cbn [tl]. rewrite <- app_assoc.
      now apply (parse_spec_some i [] [] 37%N rest); try (now left).
    + unfold spec_piece. cbn [sp_time sp_precision sp_conv sp_index sp_flags sp_width]. rewrite Hg. reflexivity.
  - exists (mkSpec i [] w [] [] 37%N). split; [reflexivity|]. split.
    + change (js "%" ++ i ++ w ++ js "%") with (c_percent :: i ++ w ++ [37%N]). cbn [tl]. rewrite <- !app_assoc.
      now apply (parse_spec_some i [] w 37%N rest); try (now left).
    + unfold spec_piece. cbn [sp_time sp_precision sp_conv sp_index sp_flags sp_width]. rewrite Hg. unfold percent_text. rewrite W4, pad_spaces. reflexivity.
  - exists (mkSpec i [45%N] w [] [] 37%N). split; [reflexivity|]. split.
    + change (js "%" ++ i ++ js "-" ++ w ++ js "%") with (c_percent :: i ++ [45%N] ++ w ++ [37%N]). cbn [tl]. rewrite <- !app_assoc.
      now apply (parse_spec_some i [45%N] w 37%N rest); try (now left); try (now right).
    + unfold spec_piece. cbn [sp_time sp_precision sp_conv sp_index sp_flags sp_width]. rewrite Hg. unfold percent_text. rewrite W4, pad_spaces.
      destruct w; [congruence|reflexivity].
  - exists (mkSpec i [] [] [] [] 110%N). split; [reflexivity|]. split.
    + change (js "%" ++ i ++ js "n") with (c_percent :: i ++ [110%N]). cbn [tl]. rewrite <- app_assoc.
      now apply (parse_spec_some i [] [] 110%N rest); try (now left); try (now right).
    + unfold spec_piece. cbn [sp_time sp_precision sp_conv sp_index sp_flags sp_width]. rewrite Hg. reflexivity.
Qed.

Lemma parsed_specifier ls bad s sp t : parse_spec s = Some sp -> spec_piece ls bad sp = Some (PText t) ->
  specifier ls (c_percent :: sp_index sp ++ sp_flags sp ++ sp_width sp ++ sp_precision sp ++ sp_time sp ++ [sp_conv sp]) t.
Proof.
  intros Hp Hs. apply parse_spec_parts in Hp as (Hi & Hf & Hw & H0). destruct sp as [ix fl wd pr tm cv].
  cbn [sp_index sp_flags sp_width sp_precision sp_time sp_conv] in *. unfold spec_piece in Hs.
  cbn [sp_index sp_flags sp_width sp_precision sp_time sp_conv] in Hs.
  destruct tm; [|destruct (_ || _) in Hs; discriminate]. destruct pr; [|destruct (_ || _) in Hs; discriminate]. cbn [app].
  destruct (N.eqb_spec cv 37) as [->|_].
  - destruct (good_index ix) eqn:Hg; [|discriminate]. assert (Hn : numbered ix) by (now apply numbered_iff).
    unfold percent_text in Hs. destruct (2147483647 <? decimal wd)%N eqn:Hb; [discriminate|]. apply N.ltb_ge in Hb.
    assert (Hwide : wd <> [] -> wide wd (decimal wd)).
    { intro Hne. split; [now apply denotes_iff|]. split; [exact Hb|]. intros (s' & ->). discriminate. }
    destruct fl as [|f0 fl].
    + injection Hs as <-. cbn [app]. destruct wd as [|c wd]; [exact (sf_percent ls ix Hn)|].
      rewrite <- pad_spaces. exact (sf_right ls ix (c :: wd) _ Hn (Hwide ltac:(discriminate))).
    + assert (E : f0 = 45%N /\ fl = [] /\ wd <> [] /\ t = [c_percent] ++ repeat c_space (N.to_nat (decimal wd) - 1)).
      { destruct f0 as [|q]; [discriminate|]. repeat (destruct q as [q|q|]; try discriminate). destruct fl; [|discriminate].
        destruct wd; [discriminate|]. injection Hs as <-. now repeat split. }
      destruct E as (-> & -> & Hne & ->). rewrite <- pad_spaces. exact (sf_left ls ix wd _ Hn (Hwide Hne)).
  - destruct (N.eqb_spec cv 110) as [->|_].
    + destruct (good_index ix) eqn:Hg; [|discriminate]. assert (Hn : numbered ix) by (now apply numbered_iff).
      destruct fl; [|discriminate]. destruct wd; [|discriminate]. injection Hs as <-. exact (sf_newline ls ix Hn).
    + exfalso. destruct ix, fl, wd; try (destruct (bad _); discriminate). destruct (cv =? 115)%N; [discriminate|]. destruct (bad _); discriminate.
Qed.

(** ** Texts *)
Lemma parse_after ls bad s sp rest : s = (sp_index sp ++ sp_flags sp ++ sp_width sp ++ sp_precision sp ++ sp_time sp ++ [sp_conv sp]) ++ rest ->
  parse_format ls bad (spec_length sp) s = parse_format ls bad 0 rest.
Proof.
  set (text := sp_index sp ++ _). intro Er. assert (El : length text = spec_length sp).
  { subst text. unfold spec_length. rewrite !app_length. cbn. lia. }
  rewrite parse_skip by (rewrite Er, app_length, El; lia). rewrite Er, skipn_app, <- El, skipn_all, Nat.sub_diag. reflexivity.
Qed.

Lemma written_parsed ls bad s o : written_as ls s o -> exists l, parse_format ls bad 0 s = Some l /\ print_pieces [] l = (o, true).
Proof.
  induction 1 as [|c s o Hc H (l & El & Ep)|f t s o Hf H (l & El & Ep)].
  - now exists [].
  - exists (PChar c :: l). cbn [parse_format print_pieces]. destruct (N.eqb_spec c c_percent); [congruence|]. now rewrite El, Ep.
  - destruct (specifier_parsed ls bad f t Hf s) as (sp & -> & Hp & Hs). cbn [tl] in Hp. exists (PText t :: l). split.
    + cbn [app parse_format]. rewrite N.eqb_refl, Hp, Hs. rewrite (parse_after ls bad _ sp s eq_refl), El. reflexivity.
    + cbn [print_pieces]. now rewrite Ep.
Qed.

Lemma parsed_written ls bad : forall n s l o (ok : bool), length s <= n -> parse_format ls bad 0 s = Some l -> print_pieces [] l = (o, ok) ->
  if ok then written_as ls s o else exists a b, s = a ++ c_percent :: b /\ written_as ls a o.
Proof.
  induction n as [|n IH]; intros s l o ok Hn Hp Ht.
  - destruct s; [|cbn in Hn; lia]. injection Hp as <-. injection Ht as <- <-. constructor.
  - destruct s as [|c s]; [injection Hp as <-; injection Ht as <- <-; constructor|].
    cbn in Hn. cbn [parse_format] in Hp. destruct (N.eqb_spec c c_percent) as [->|Hc].
    + destruct (parse_spec s) as [sp|] eqn:Esp; [|discriminate]. destruct (spec_piece ls bad sp) as [p|] eqn:Ep; [|discriminate].
      destruct (parse_spec_text _ _ Esp) as [rest Er]. rewrite (parse_after ls bad s sp rest Er) in Hp.
      destruct (parse_format ls bad 0 rest) as [l'|] eqn:El'; [|discriminate]. injection Hp as <-.
      assert (Hr : length rest <= n) by (rewrite Er, app_length in Hn; lia).
      destruct p as [c|x|pl]; cbn [print_pieces] in Ht.
      * exfalso. unfold spec_piece in Ep. repeat match type of Ep with context [match ?x with _ => _ end] => destruct x end; discriminate.
      * destruct (print_pieces [] l') as [t' ok'] eqn:Et'. injection Ht as <- <-. specialize (IH rest l' t' ok' Hr El' Et').
        pose proof (parsed_specifier _ _ _ _ _ Esp Ep) as Hf. rewrite Er.
        set (f := c_percent :: _) in Hf. destruct ok'.
        -- exact (wr_spec ls f x rest t' Hf IH).
        -- destruct IH as (a & b & -> & Ha). exists (f ++ a), b. split; [subst f; cbn [app]; now rewrite <- !app_assoc|]. exact (wr_spec ls f x a t' Hf Ha).
      * injection Ht as <- <-. exists [], s. split; [reflexivity|constructor].
    + destruct (parse_format ls bad 0 s) as [l'|] eqn:El'; [|discriminate]. injection Hp as <-. cbn [print_pieces] in Ht.
      destruct (print_pieces [] l') as [t' ok'] eqn:Et'. injection Ht as <- <-. specialize (IH s l' t' ok' ltac:(lia) El' Et'). destruct ok'.
      * now constructor.
      * destruct IH as (a & b & -> & Ha). exists (c :: a), b. split; [reflexivity|]. now constructor.
Qed.

Lemma written_app ls a b o o' : written_as ls a o -> written_as ls b o' -> written_as ls (a ++ b) (o ++ o').
Proof.
  intros Ha Hb. induction Ha as [|c s t Hc H IH|f t s t' Hf H IH]; [exact Hb|now constructor|]. rewrite <- !app_assoc. now constructor.
Qed.

Lemma written_plain ls s : no_percent s -> written_as ls s s.
Proof.
  induction s as [|c s IH]; intro H; [constructor|]. constructor; [intros ->; apply H; now left|]. apply IH. intro Hin. apply H. now right.
Qed.

(** A specifier does not reach into the line separator. *)
Lemma denotes_chars s n : denotes s n -> forall c, In c s -> (48 <= c)%N.
Proof. induction 1 as [k|s n k H IH]; intros c; [intros [<-|[]]; lia|]. rewrite in_app_iff. intros [Hc|[<-|[]]]; [now apply IH|lia]. Qed.
Lemma numbered_chars i : numbered i -> forall c, In c i -> (36 <= c)%N.
Proof.
  intros [->|(d & n & -> & Hd & _)] c; [intros []|]. rewrite in_app_iff. intros [Hc|[<-|[]]]; [|reflexivity].
  apply (denotes_chars d n Hd) in Hc. lia.
Qed.
Lemma specifier_chars ls f t : specifier ls f t -> f <> [] /\ forall c, In c f -> (36 <= c)%N.
Proof.
  intros [i Hi|i w n Hi [Hw _]|i w n Hi [Hw _]|i Hi]; (split; [discriminate|]); intros c; rewrite ?in_app_iff;
    pose proof (numbered_chars i Hi c) as H1; try (pose proof (denotes_chars w n Hw c) as H2); cbn [In js];
    repeat match goal with |- context [In c (js ?x)] => change (js x) with (js x) end; unfold js; cbn; intuition (subst; try lia; try (vm_compute; discriminate)).
Qed.

Lemma linesep_plain ls : usual_linesep ls -> no_percent ls.
Proof. intros [->| ->]; unfold no_percent; cbn; intuition discriminate. Qed.

Lemma prefix_or (A : Type) (f s : list A) : forall r t, f ++ r = s ++ t -> (exists s', s = f ++ s' /\ r = s' ++ t) \/ exists x t', f = s ++ x :: t' /\ t = x :: t' ++ r.
Proof.
  revert s. induction f as [|a f IH]; intros s r t E; [left; exists s; now split|]. destruct s as [|b s].
  - right. exists a, f. cbn in *. now split.
  - injection E as -> E. destruct (IH s r t E) as [(s' & -> & ->)|(x & t' & -> & ->)]; [left; now exists s'|right; now exists x, t'].
Qed.

Theorem written_function : forall ls s o o', written_as ls s o -> written_as ls s o' -> o = o'.
Proof.
  intros ls s o o' H H'. destruct (written_parsed ls (fun _ => false) s o H) as (l & E & P).
  destruct (written_parsed ls (fun _ => false) s o' H') as (l' & E' & P'). congruence.
Qed.

Lemma written_tail ls t : usual_linesep ls -> forall x, written_as ls x t -> forall s, x = s ++ ls -> exists o, t = o ++ ls /\ written_as ls s o.
Proof.
  intros Hl x H. induction H as [|c x t Hc H IH|f u x t Hf H IH]; intros s E.
  - exfalso. destruct Hl as [->| ->]; now destruct s.
  - destruct s as [|c' s].
    + exists []. split; [|constructor]. cbn [app] in *. apply (written_function ls (c :: x)); [now constructor|]. rewrite E.
      now apply written_plain, linesep_plain.
    + injection E as -> ->. destruct (IH s eq_refl) as (o & -> & Ho). exists (c' :: o). split; [reflexivity|]. now constructor.
  - destruct (specifier_chars ls f u Hf) as [F1 F2]. apply prefix_or in E as [(s' & -> & E)|(y & t' & -> & E)].
    + destruct (IH s' E) as (o & -> & Ho). exists (u ++ o). split; [apply app_assoc|]. now constructor.
    + exfalso. assert (Hy : (36 <= y)%N) by (apply F2, in_or_app; right; now left). destruct Hl as [->| ->]; injection E as <- _; lia.
Qed.

Lemma written_text ls s o : usual_linesep ls -> written_as ls (s ++ ls) (o ++ ls) <-> written_as ls s o.
Proof.
  intro Hl. split.
  - intro H. destruct (written_tail ls _ Hl _ H s eq_refl) as (o' & E & H'). apply app_inv_tail in E as ->. exact H'.
  - intro H. apply written_app; [exact H|]. now apply written_plain, linesep_plain.
Qed.

Lemma written_cut ls p s o : no_percent p -> written_as ls (p ++ s) o -> exists o', o = p ++ o' /\ written_as ls s o'.
Proof.
  intro Hp. revert o. induction p as [|c p IH]; intros o H; [now exists o|]. cbn in H. inversion H as [|? ? ? Hc H'|f t x u Hf H' E]; subst.
  - destruct (IH (fun K => Hp (or_intror K)) o0 H') as (o' & -> & Ho). now exists o'.
  - exfalso. destruct (specifier_parsed ls (fun _ => false) f t Hf x) as (sp & -> & _). injection E as <- _. apply Hp. now left.
Qed.

(** ** Printing *)
Section Printing.
  Context (w : cworld) (Hl : usual_linesep (cw_linesep w)).

  Lemma put_out dest msg s : (exists o, written_as (cw_linesep w) msg o /\
      printfln dest msg [] w s = (COk tt, match dest with StdOut => write_out (o ++ cw_linesep w) s | StdErr => write_err (o ++ cw_linesep w) s end)) \/
    ((forall o, ~ written_as (cw_linesep w) msg o) /\ exists b, begun (cw_linesep w) msg b /\
      printfln dest msg [] w s = (CThrow (XFormat (msg ++ cw_linesep w)), match dest with StdOut => write_out b s | StdErr => write_err b s end)).
  Proof.
    unfold printfln. destruct (parse_format _ _ 0 (msg ++ cw_linesep w)) as [l|] eqn:E.
    - destruct (print_pieces [] l) as [t ok] eqn:P. pose proof (parsed_written _ _ _ _ _ _ _ (le_n _) E P) as H. destruct ok.
      + left. destruct (written_tail _ _ Hl _ H msg eq_refl) as (o & -> & Ho). exists o. now split.
      + right. split.
        * intros o Ho. apply (written_text _ _ _ Hl) in Ho. destruct (written_parsed _ (cw_bad_spec w) _ _ Ho) as (l' & E' & P'). congruence.
        * exists t. split; [|reflexivity]. right. destruct H as (a & b & Eab & Ha). symmetry in Eab.
          apply (prefix_or _ a msg) in Eab as [(s' & E1 & E2)|(x & t' & -> & E2)].
          -- destruct s' as [|c s'].
             ++ exfalso. cbn in E2. destruct Hl as [Hls|Hls]; rewrite Hls in E2; discriminate.
             ++ injection E2 as <- E2. exists a, s'. now split.
          -- exfalso. apply (linesep_plain _ Hl). rewrite E2. right. apply in_or_app. right. now left.
    - right. split.
      + intros o Ho. apply (written_text _ _ _ Hl) in Ho. destruct (written_parsed _ (cw_bad_spec w) _ _ Ho) as (l' & E' & P'). congruence.
      + exists []. split; [now left|]. f_equal. unfold write_out, write_err. destruct dest; rewrite app_nil_r; now destruct s.
  Qed.

  Lemma reported e s : exists err, error_output w (exn_message w e) err /\
    match handle_exception e w s with (COk c, s'') => (c, s'') | (CThrow e', s'') => (1%Z, write_err (cw_stack_trace w e') s'') end
    = (1%Z, write_err err s).
  Proof.
    rewrite handle_message. unfold print_error, cbind. set (msg := exn_message w e).
    assert (Hp : no_percent (js "[ERROR] ")) by (clear; unfold no_percent; vm_compute; intuition discriminate).
    destruct (put_out StdErr (js "[ERROR] " ++ msg) s) as [(o & Ho & ->)|(Hno & b & Hb & ->)].
    - apply written_cut in Ho as (o' & -> & Ho'); [|exact Hp]. exists (js "[ERROR] " ++ o' ++ cw_linesep w). split; [now constructor|].
      cbn [cret]. now rewrite <- app_assoc.
    - exists (b ++ cw_stack_trace w (XFormat (js "[ERROR] " ++ msg ++ cw_linesep w))). split.
      + apply eo_trace; [|exact Hb]. intros o Ho. apply (Hno (js "[ERROR] " ++ o)). apply written_app; [now apply written_plain|exact Ho].
      + cbn. unfold write_err. cbn. now rewrite <- !app_assoc.
  Qed.

  Context (fs : files) (a : cli_args) (T : path) (ex : list path) (sel : selection) (s : cstate).
  Context (Hw : steady_files w fs) (Hd : a_debug a = false) (HT : resolved (jv_cwd (w_jvm (cw_world w))) (asked_target a) T).
  Context (Hex : f_exists fs T = true) (Hsel : chooses w fs a T ex sel).

  Lemma reaches_printer o h' : effective w T (cs_hist s) sel o h' ->
    exists s2, cs_hist s2 = h' /\ cs_out s2 = cs_out s /\ cs_err s2 = cs_err s /\
      command a w s = (result <~ call_printer o T; print result [] ~; cret 0%Z) w s2.
  Proof.
    intro Heff. destruct (after_lookup w a Hd T HT fs Hw Hex ex sel s Hsel) as (s1 & (Lh & Lo & Le & _) & r & R & E).
    destruct Heff as [|x o h' Em]; cbn in R; subst r.
    - exists s1. repeat split; [exact Lh|exact Lo|exact Le|]. rewrite E. reflexivity.
    - exists (mkCState (cs_events s1) h' (cs_out s1) (cs_err s1)). repeat split; [exact Lo|exact Le|]. rewrite E. unfold cbind at 1. unfold library at 1.
      rewrite Lh, Em. reflexivity.
  Qed.

  Theorem text_written : forall o h' text h'', effective w T (cs_hist s) sel o h' -> pretty_print o T (cw_world w) h' = (Ok text, h'') ->
    let code := fst (run_cli a w s) in
    let s' := snd (run_cli a w s) in
    (forall out, written_as (cw_linesep w) text out -> code = 0%Z /\ cs_out s' = cs_out s ++ out ++ cw_linesep w /\ cs_err s' = cs_err s) /\
    ((forall out, ~ written_as (cw_linesep w) text out) ->
       code = 1%Z /\ (exists b, begun (cw_linesep w) text b /\ cs_out s' = cs_out s ++ b) /\
       exists err, error_output w (js "Error while pretty printing: " ++ cw_message w (XFormat (text ++ cw_linesep w))) err /\ cs_err s' = cs_err s ++ err).
  Proof.
    intros o h' text h'' Heff Ep code s'. destruct (reaches_printer o h' Heff) as (s2 & H1 & H2 & H3 & E).
    set (s3 := mkCState (CPrint T :: cs_events s2) h'' (cs_out s2) (cs_err s2)).
    assert (Ec : command a w s = (print text [] ~; cret 0%Z) w s3).
    { rewrite E. unfold cbind at 1. unfold call_printer, library. cbn [log cs_hist]. rewrite H1, Ep. reflexivity. }
    unfold cbind, print in Ec. unfold code, s', run_cli. rewrite Ec.
    destruct (put_out StdOut text s3) as [(out & Ho & ->)|(Hno & b & Hb & ->)].
    - split; [|intro Hno; now destruct (Hno out)]. intros out' Ho'. rewrite (written_function _ _ _ _ Ho' Ho). cbn. now rewrite H2, H3.
    - split; [intros out Ho; now destruct (Hno out)|]. intros _.
      destruct (reported (XFormat (text ++ cw_linesep w)) (write_out b s3)) as (err & He & ->).
      cbn [fst snd]. split; [reflexivity|]. split; [exists b; split; [exact Hb|]; cbn; now rewrite H2|]. exists err. split; [exact He|]. cbn. now rewrite H3.
  Qed.

  Theorem error_written : forall msg, fails w T (cs_hist s) sel msg ->
    let s' := snd (run_cli a w s) in
    fst (run_cli a w s) = 1%Z /\ cs_out s' = cs_out s /\ exists err, error_output w msg err /\ cs_err s' = cs_err s ++ err.
  Proof.
    intros msg Hf s'. assert (K : exists e s2, command a w s = (CThrow e, s2) /\ exn_message w e = msg /\ cs_out s2 = cs_out s /\ cs_err s2 = cs_err s).
    { inversion Hf as [m Es Em0|x e h' m Em Hm Es Em0|sel' o h' e h'' m Heff Ep Hm Es Em0].
      - destruct (after_lookup w a Hd T HT fs Hw Hex ex sel s Hsel) as (s1 & (Lh & Lo & Le & _) & r & R & E).
        rewrite <- Es in R. destruct R as (e & -> & Hmsg). exists e, s1. now rewrite <- Em0.
      - destruct (after_lookup w a Hd T HT fs Hw Hex ex sel s Hsel) as (s1 & (Lh & Lo & Le & _) & r & R & E).
        rewrite <- Es in R. cbn in R. subst r. exists (XLibrary e), (mkCState (cs_events s1) h' (cs_out s1) (cs_err s1)). split; [|now rewrite <- (explains_message _ _ _ Hm)].
        rewrite E. unfold cbind at 1. unfold library. rewrite Lh, Em. reflexivity.
      - destruct (reaches_printer o h' Heff) as (s2 & H1 & H2 & H3 & E).
        exists (XLibrary e), (mkCState (CPrint T :: cs_events s2) h'' (cs_out s2) (cs_err s2)). split; [|now rewrite <- (explains_message _ _ _ Hm)].
        rewrite E. unfold cbind at 1. unfold call_printer, library. cbn [log cs_hist]. rewrite H1, Ep. reflexivity. }
    destruct K as (e & s2 & Ec & Em & Eo & Ee). unfold s', run_cli. rewrite Ec. destruct (reported e s2) as (err & He & ->). rewrite Em in He.
    cbn [fst snd]. split; [reflexivity|]. split; [exact Eo|]. exists err. split; [exact He|]. cbn. now rewrite Ee.
  Qed.
End Printing.

Lemma chosen_used w fs a T ex x : usual_linesep (cw_linesep w) -> steady_files w fs -> a_debug a = false ->
  resolved (jv_cwd (w_jvm (cw_world w))) (asked_target a) T -> f_exists fs T = true -> chooses w fs a T ex (UseDocument x) -> command_uses w a T x.
Proof.
  intros Hls Hf Hd HT Hex Hch s code s'. split; [|split].
  - intros o h1 text h2 E P.
    destruct (text_written w Hls fs a T ex (UseDocument x) s Hf Hd HT Hex Hch o h1 text h2 (eff_document w T _ x o h1 E) P) as (H1 & H2).
    split; [exact H1|]. intro Hn. apply (H2 Hn).
  - intros e h1 E. destruct (explains_something w e) as (m & Hm). destruct (error_written w Hls fs a T ex (UseDocument x) s Hf Hd HT Hex Hch _ (fl_mapping w T _ x e h1 m E Hm)) as (H1 & H2 & _). now split.
  - intros o h1 e h2 E P. destruct (explains_something w e) as (m & Hm).
    destruct (error_written w Hls fs a T ex (UseDocument x) s Hf Hd HT Hex Hch _ (fl_printing w T _ _ o h1 e h2 m (eff_document w T _ x o h1 E) P Hm)) as (H1 & H2 & _).
    now split.
Qed.
