(** * The same entries displayed in two ways: lemmas for C180 *)

From Verif Require Import SpecLook RenderFacts ScanFacts PathFacts SortFacts TreeFacts PrintFacts ShownFacts ScanPrintFacts MetaFacts LinesFacts.

Fixpoint dir_paths (e : entry) : list path :=
  match e with EDir q es => q :: flat_map dir_paths es | _ => [] end.

Lemma tree_dirs st dk : forall e z p, tree_at st dk z p e -> Forall (is_dir dk) (dir_paths e).
Proof.
  induction e as [r es IH|f k|r|x] using entry_ind'; intros z p H; try (constructor; fail).
  inversion H as [| ? ? Hd Hm|? ? names order es0 Hd Hm Hli Hord HF]; subst; cbn [dir_paths].
  - repeat constructor. exact Hd.
  - constructor; [exact Hd|]. rewrite flat_map_app. apply Forall_app. split; [|unfold marker; destruct (_ && _); constructor].
    apply Forall_app in IH. destruct IH as [IH _]. clear -HF IH. induction HF as [|c e cs es Hce HF IHF]; [constructor|]. inversion IH; subst.
    cbn [flat_map]. apply Forall_app. split; eauto.
Qed.

Section Look.
  Context (dk : disk) (v v' : view).
  Hypothesis Hc : v_compact v' = v_compact v.
  Hypothesis Hn : v_compact v = false \/ null_alike dk v v'.

  Lemma look_chain e ds es : null_alike dk v v' -> Forall (is_dir dk) (dir_paths e) -> chain_of v e ds es -> chain_of v' e ds es /\ Forall (is_dir dk) (flat_map dir_paths es).
  Proof.
    intros Ha Hd H. induction H as [q es Hm|q c ds es Hm Hch IH]; cbn [dir_paths] in Hd; inversion Hd as [|? ? Hq Hr]; subst.
    - split; [|exact Hr]. constructor. intros (Hx & r). apply Hm. split; [now apply Ha|exact r].
    - cbn [flat_map] in Hr. rewrite app_nil_r in Hr. destruct (IH Hr) as [H1 H2]. split; [|exact H2]. constructor; [|exact H1].
      destruct Hm as (Hx & r). split; [now apply Ha|exact r].
  Qed.

  Lemma look_shows e : Forall (is_dir dk) (dir_paths e) -> forall top s, shows v top e s -> shows v' top e s.
  Proof.
    induction e as [e IH] using entry_inside_ind. intros Hd top s H.
    assert (Hkids : forall es ks, (forall x, In x es -> inside e x) -> Forall (is_dir dk) (flat_map dir_paths es) -> Forall2 (shows v false) es ks -> Forall2 (shows v' false) es ks).
    { intros es ks Hin Hds HF. induction HF as [|x k es ks Hxk HF IHF]; [constructor|]. cbn [flat_map] in Hds. apply Forall_app in Hds. destruct Hds as [Hd1 Hd2].
      constructor; [apply IH; auto; apply Hin; now left|apply IHF; auto; intros; apply Hin; now right]. }
    inversion H as [? g k| | |t q es ks Ht HF|e' ds es ks Hcm Hch HF]; subst; try constructor.
    - rewrite Hc. exact Ht.
    - apply Hkids; auto; [intros; now apply inside_child|]. now inversion Hd.
    - destruct Hn as [Hf|Ha]; [congruence|]. destruct (look_chain _ _ _ Ha Hd Hch) as [H1 H2].
      eapply shows_compact; [congruence|exact H1|]. apply Hkids; auto. intros; eapply chain_smaller; eauto.
  Qed.

  Lemma same_entry_more l l' : incl l l' -> forall a b, Forall2 (same_entry v v' l) a b -> Forall2 (same_entry v v' l') a b.
  Proof.
    intros Hi a b H. induction H as [|x y a b Hxy H IH]; constructor; [|exact IH]. destruct Hxy as (E & [Hd|(q & name & Hq & Hr)]); split; auto.
    right. exists q, name. split; [now apply Hi|exact Hr].
  Qed.

  Lemma same_entry_under l b : forall a c, Forall2 (same_entry v v' l) a c -> Forall2 (same_entry v v' l) (map (under b) a) (map (under b) c).
  Proof.
    intros a c H. induction H as [|[f1 t1] [f2 t2] a c (E & Hxy) H IH]; cbn [map]; constructor; [|exact IH]. cbn [fst] in E. subst f2. split; [reflexivity|exact Hxy].
  Qed.

  Lemma same_entry_kids l : forall ks ks', Forall2 (fun t t' => Forall2 (same_entry v v' l) (rows t) (rows t')) ks ks' -> Forall2 (same_entry v v' l) (kid_rows ks) (kid_rows ks').
  Proof.
    induction 1 as [|t t' ks ks' Ht HF IH]; [constructor|].
    destruct HF as [|t2 t2' ks ks' Ht2 HF].
    - cbn [kid_rows]. now apply same_entry_under.
    - rewrite !kid_rows_cons by discriminate. apply Forall2_app; [now apply same_entry_under|exact IH].
  Qed.


  Lemma look_lines e : forall top s, shows v top e s -> Forall2 (same_entry v v' (entry_paths e)) (rows (labelled v s)) (rows (labelled v' s)).
  Proof.
    induction e as [e IH] using entry_inside_ind. intros top s H.
    assert (Hlab : forall ds es ks, ds <> [] -> incl ds (entry_paths e) -> (forall x, In x es -> inside e x) -> incl (flat_map entry_paths es) (entry_paths e) ->
              Forall2 (shows v false) es ks -> Forall2 (same_entry v v' (entry_paths e)) (rows (labelled v (SDir ds ks))) (rows (labelled v' (SDir ds ks)))).
    { intros ds es ks Hne Hds Hin Hincl HF. cbn [labelled]. rewrite !rows_kids. constructor.
      - split; [reflexivity|]. right. exists (last ds (mkPath true [])), (concat (map (fun d => last_name d ++ js "/") ds)).
        split; [apply Hds, last_in, Hne|]. split; [|split; reflexivity].
        destruct ds as [|q ds] using rev_ind; [congruence|]. rewrite last_last, map_app, concat_app. cbn [map concat]. rewrite app_nil_r.
        exists (concat (map (fun d => last_name d ++ js "/") ds)), (js "/"). reflexivity.
      - apply same_entry_kids. induction HF as [|x k es ks Hxk HF IHF]; cbn [map]; constructor.
        + apply same_entry_more with (l := entry_paths x); [|eapply IH; [apply Hin; now left|exact Hxk]].
          intros q Hq. apply Hincl. cbn [flat_map]. apply in_or_app. now left.
        + apply IHF; [intros; apply Hin; now right|]. intros q Hq. apply Hincl. cbn [flat_map]. apply in_or_app. now right. }
    inversion H as [? g k| | |t q es ks Ht HF|e' ds es ks Hcm Hch HF]; subst.
    - cbn [labelled rows]. constructor; [|constructor]. split; [reflexivity|]. right. exists g, (last_name g ++ kind_mark k).
      split; [now left|]. split; [exists [], (kind_mark k); reflexivity|]. cbn [snd]. rewrite <- !app_assoc. auto.
    - repeat constructor.
    - repeat constructor.
    - apply Hlab with (es := es); auto; [discriminate| | |].
      + intros x [<-|[]]. now left.
      + intros; now apply inside_child.
      + intros x Hx. now right.
    - assert (Hp : ds <> [] /\ incl ds (entry_paths e) /\ incl (flat_map entry_paths es) (entry_paths e)).
      { clear -Hch. induction Hch as [q es Hm|q c ds es Hm Hch (H1 & H2 & H3)].
        - split; [discriminate|]. split; [intros x [<-|[]]; now left|intros x Hx; now right].
        - cbn [entry_paths flat_map]. rewrite app_nil_r. split; [discriminate|]. split; [intros x [<-|Hx]; [now left|right; now apply H2]|intros x Hx; right; now apply H3]. }
      destruct Hp as (H1 & H2 & H3). eapply Hlab; eauto. intros; eapply chain_smaller; eauto.
  Qed.
End Look.

Lemma C180_lemma : forall o o' p w h out h' v v' dk st,
  steady w dk -> distinct_names dk -> uses w o st -> uses w o' st -> sees w o v -> sees w o' v' -> configured_order (s_cmp st) ->
  v_compact v' = v_compact v -> v_compact v = false \/ null_alike dk v v' ->
  pretty_print o p w h = (Ok out, h') ->
  exists e s, tree_at st dk 0 (location w p) e /\ shows v true e s /\ shows v' true e s /\ out = text (o_tree_format o) (labelled v s) /\
    (forall h1, exists h1', pretty_print o' p w h1 = (Ok (text (o_tree_format o') (labelled v' s)), h1')) /\
    Forall2 (same_entry v v' (entry_paths e)) (rows (labelled v s)) (rows (labelled v' s)).
Proof.
  intros o o' p w h out h' v v' dk st Hw Hd Hu Hu' Hs Hs' Hco Hc Hn H.
  destruct (print_tree _ _ _ _ _ _ _ _ _ Hw Hu Hs H) as (e & s & Ht & Hsh & Ho).
  pose proof (look_shows dk v v' Hc Hn e (tree_dirs _ _ _ _ _ Ht) true s Hsh) as Hsh'.
  exists e, s. split; [exact Ht|]. split; [exact Hsh|]. split; [exact Hsh'|]. split; [exact Ho|]. split; [|now apply (look_lines v v') with (top := true)].
  assert (Hne : p_names (location w p) <> []) by (eapply print_named; eauto).
  destruct (print_complete o' p w dk st v' e Hw Hd Hu' Hs' Hco Hne Ht) as (s' & Hs2 & Hy).
  now rewrite (shows_fun _ _ _ _ _ Hs2 Hsh') in Hy.
Qed.
