(** * Generic lemmas about how computations extend the history *)

From Verif Require Import Printer SpecRender RenderFacts.

(** [m] relates every history to the history it leaves. *)
Definition keeps {A} (R : hist -> hist -> Prop) (m : M A) : Prop := forall w h, R h (snd (m w h)).

Section Keeps.
  Context (R : hist -> hist -> Prop).
  Hypothesis Rrefl : forall h, R h h.
  Hypothesis Rtrans : forall a b c, R a b -> R b c -> R a c.

  Lemma keeps_ret A (a : A) : keeps R (ret a).
  Proof. intros w h. apply Rrefl. Qed.

  Lemma keeps_throw A e : keeps R (@throw A e).
  Proof. intros w h. apply Rrefl. Qed.

  Lemma keeps_bind A B (m : M A) (f : A -> M B) : keeps R m -> (forall a, keeps R (f a)) -> keeps R (bind m f).
  Proof.
    intros Hm Hf w h. unfold bind. specialize (Hm w h). destruct (m w h) as [[a|e] h']; simpl in *; [|exact Hm].
    eapply Rtrans; [exact Hm|apply Hf].
  Qed.

  Lemma keeps_get_jvm : keeps R get_jvm.
  Proof. intros w h. apply Rrefl. Qed.

  Lemma keeps_mapM A B (f : A -> M B) l : (forall a, keeps R (f a)) -> keeps R (mapM f l).
  Proof.
    intro Hf. induction l as [|a l IH]; simpl; [apply keeps_ret|].
    apply keeps_bind; [apply Hf|]. intro b. apply keeps_bind; [exact IH|]. intro. apply keeps_ret.
  Qed.

  Lemma keeps_filterM A (f : A -> M bool) l : (forall a, keeps R (f a)) -> keeps R (filterM f l).
  Proof.
    intro Hf. induction l as [|a l IH]; simpl; [apply keeps_ret|].
    apply keeps_bind; [apply Hf|]. intro b. apply keeps_bind; [exact IH|]. intro. apply keeps_ret.
  Qed.

  (** ** The renderer performs no file-system operation of its own. *)
  Section Render.
    Context (o : options) (lr : line_renderer).
    Hypothesis Hemoji : forall p, keeps R (lr_emoji lr p).
    Hypothesis Hext : forall p, keeps R (compute_line_extension o p).

    Lemma keeps_dir_label d : keeps R (dir_label d).
    Proof. unfold dir_label. destruct (get_file_name d); [apply keeps_ret|apply keeps_throw]. Qed.

    Lemma keeps_format_file f k : keeps R (format_file f k).
    Proof. unfold format_file. destruct (get_file_name f); [apply keeps_ret|apply keeps_throw]. Qed.

    Lemma keeps_emoji_prefix p : keeps R (emoji_prefix (lr_emoji lr) p).
    Proof. apply keeps_bind; [apply Hemoji|]. intro. apply keeps_ret. Qed.

    Lemma keeps_render_directory_begin d dir dirs : keeps R (render_directory_begin lr d dir dirs).
    Proof.
      apply keeps_bind; [apply keeps_emoji_prefix|]. intro e. apply keeps_bind.
      - apply keeps_bind; [apply keeps_mapM; intro; apply keeps_dir_label|]. intro. apply keeps_ret.
      - intro. apply keeps_ret.
    Qed.

    Lemma keeps_render_entry e : forall d cp, keeps R (render_entry o lr e d cp).
    Proof.
      induction e as [dir es IH|f k|dd|n] using entry_ind'; intros d cp.
      - assert (Hfin : forall ev : option (option jstring), keeps R
          (line <- render_directory_begin lr d dir cp;
           ext <- match ev with Some x => ret x | None => compute_line_extension o dir end;
           (let line := line ++ or_empty ext in
            let line := match es with [] => line | _ => line ++ [c_nl] end in
            children <- render_children (fun c cd => render_entry o lr c cd (initial_compact_paths c)) d es;
            ret (line ++ children)))).
        { intro ev. apply keeps_bind; [apply keeps_render_directory_begin|]. intro line.
          apply keeps_bind; [destruct ev; [apply keeps_ret|apply Hext]|]. intro ext. cbn zeta.
          apply keeps_bind; [|intro; apply keeps_ret].
          clear -IH Rrefl Rtrans. induction IH as [|c es Hc Hes IHes]; [apply keeps_ret|].
          destruct es as [|c' es]; [apply Hc|]. simpl in *.
          apply keeps_bind; [apply Hc|]. intro. apply keeps_bind; [exact IHes|]. intro. apply keeps_ret. }
        cbn [render_entry].
        destruct es as [|c es]; [apply (Hfin None)|].
        destruct es as [|c' es]; [|destruct c; apply (Hfin None)].
        destruct c as [cd ces|f k|sd|n]; try apply (Hfin None).
        destruct (o_compact o && negb (depth_is_root d)); [|apply (Hfin None)].
        apply keeps_bind; [apply Hext|]. intros [x|]; [apply (Hfin (Some (Some x)))|].
        inversion IH as [|a b Hc _]; subst. apply Hc.
      - cbn [render_entry]. unfold render_file. apply keeps_bind.
        + unfold render_file_line. apply keeps_bind; [apply keeps_emoji_prefix|]. intro.
          apply keeps_bind; [apply keeps_format_file|]. intro. apply keeps_ret.
        + intro. apply keeps_bind; [apply Hext|]. intro. apply keeps_ret.
      - apply keeps_ret.
      - apply keeps_ret.
    Qed.
  End Render.

  (** ** The scanner. *)
  Section Scan.
    Context (o : options).
    Hypothesis Hev : forall ev h, (forall t p, ev <> EvUser t p) -> R h (ev :: h).
    Hypothesis Hlimit : forall p, keeps R (o_child_limit o p).
    Hypothesis Hdirs : forall p, keeps R (o_dir_matcher o p).
    Hypothesis Hfiles : forall p, keeps R (o_file_matcher o p).
    Hypothesis Hcmp : forall a b, keeps R (o_comparator o a b).

    Lemma keeps_sorted l : keeps R (sorted (o_comparator o) l).
    Proof.
      unfold sorted. generalize (tim_sort l). intro s. induction s as [l'| | |a b k IH]; cbn [run_sorting]; [apply keeps_ret|intros w h; apply Rrefl..|].
      apply keeps_bind; [apply Hcmp|exact IH].
    Qed.

    Lemma keeps_has_kind k p : keeps R (has_kind k p).
    Proof.
      apply keeps_bind; [|intro; apply keeps_ret]. intros w h. apply Hev. discriminate.
    Qed.

    Lemma keeps_clean_path p : keeps R (clean_path p).
    Proof. apply keeps_bind; [apply keeps_get_jvm|]. intro. apply keeps_ret. Qed.

    Lemma keeps_path_filter p : keeps R (path_filter o p).
    Proof.
      apply keeps_bind; [apply keeps_has_kind|]. intros [|]; [apply Hdirs|apply Hfiles].
    Qed.

    Lemma keeps_open p : keeps R (open_dir p).
    Proof. intros w h. unfold open_dir. destruct (w_open w h p); apply Hev; discriminate. Qed.

    Lemma keeps_with_close A p e (m : M A) : keeps R m -> keeps R (with_close p e m).
    Proof.
      intros Hm w h. unfold with_close. specialize (Hm w h).
      destruct (m w h) as [[a|x] h']; simpl in *.
      - destruct (w_close_ok w h' p); simpl; (eapply Rtrans; [exact Hm|apply Hev; discriminate]).
      - eapply Rtrans; [exact Hm|apply Hev; discriminate].
    Qed.

    Lemma keeps_children_loop hc hl mc : (forall p, keeps R (hc p)) ->
      forall it count acc, keeps R (children_loop hc hl mc count acc it).
    Proof.
      intros Hc it. induction it as [|c it IH]; intros count acc; [apply keeps_ret|].
      cbn [children_loop]. destruct (hl && (mc <? count + 1)%Z); [apply keeps_ret|].
      apply keeps_bind; [apply Hc|]. intros [e|]; apply IH.
    Qed.

    Lemma keeps_handle fuel : forall depth p, keeps R (handle fuel o depth p (path_filter o)).
    Proof.
      induction fuel as [|fuel IH]; intros depth p; cbn [handle].
      - apply keeps_bind; [apply keeps_has_kind|]. intros [|].
        + destruct (o_max_depth o <=? depth)%Z; [|apply keeps_throw].
          apply keeps_bind; [|intro; apply keeps_ret]. unfold new_max_depth_entry.
          destruct (depth <? 0)%Z; [apply keeps_throw|apply keeps_ret].
        + apply keeps_bind; [intros w h; apply Hev; discriminate|]. intros [k|]; [apply keeps_ret|apply keeps_throw].
      - apply keeps_bind; [apply keeps_has_kind|]. intros [|].
        + destruct (o_max_depth o <=? depth)%Z.
          * apply keeps_bind; [|intro; apply keeps_ret]. unfold new_max_depth_entry.
            destruct (depth <? 0)%Z; [apply keeps_throw|apply keeps_ret].
          * apply keeps_bind; [apply keeps_open|]. intros [dl|]; [|apply keeps_throw].
            apply keeps_bind; [|intro; apply keeps_ret]. apply keeps_with_close.
            unfold handle_directory_children. apply keeps_bind; [apply Hlimit|]. intro mc.
            apply keeps_bind.
            { apply keeps_bind; [apply keeps_filterM; intro; apply keeps_path_filter|]. intro l.
              destruct (dl_fail dl); [|apply keeps_ret].
              apply keeps_bind; [intros w h; apply Hev; discriminate|]. intro. apply keeps_throw. }
            intro unsorted. apply keeps_bind.
            { apply keeps_sorted. }
            intro it. apply keeps_bind; [apply keeps_children_loop; intro; apply IH|].
            intros [es rest]. apply keeps_ret.
        + apply keeps_bind; [intros w h; apply Hev; discriminate|]. intros [k|]; [apply keeps_ret|apply keeps_throw].
    Qed.

    Lemma keeps_scan p : keeps R (scan o p).
    Proof.
      apply keeps_bind; [apply keeps_clean_path|]. intro q. apply keeps_bind; [apply keeps_handle|].
      intros [e|]; [apply keeps_ret|apply keeps_throw].
    Qed.
  End Scan.
End Keeps.

(** ** Calls of one callback *)

(** [m] makes the logged calls [l]: all of them if it returns, an initial part if it throws. *)
Definition makes_calls {A} (w : world) (tag : nat) (m : M A) (l : list path) : Prop :=
  forall h, match m w h with
            | (Ok _, h') => calls tag h' = calls tag h ++ l
            | (Throw _, h') => exists k, calls tag h' = calls tag h ++ firstn k l
            end.

Lemma calls_cons_same tag p h : calls tag (EvUser tag p :: h) = calls tag h ++ [p].
Proof. unfold calls. cbn [filter is_call]. rewrite Nat.eqb_refl. reflexivity. Qed.

Lemma calls_cons_other tag ev h : (forall t p, ev <> EvUser t p) -> calls tag (ev :: h) = calls tag h.
Proof. intro H. unfold calls. destruct ev; try reflexivity. exfalso. eapply H; reflexivity. Qed.

Lemma silent_makes A tag (m : M A) w : (forall h, calls tag (snd (m w h)) = calls tag h) -> makes_calls w tag m [].
Proof.
  intros H h. specialize (H h). destruct (m w h) as [[a|e] h']; simpl in H; rewrite H; [now rewrite app_nil_r|].
  exists 0%nat. now rewrite app_nil_r.
Qed.

Lemma makes_ret A w tag (a : A) : makes_calls w tag (ret a) [].
Proof. apply silent_makes. reflexivity. Qed.

Lemma makes_bind A B w tag (m : M A) (f : A -> M B) l1 l2 :
  makes_calls w tag m l1 -> (forall a h h', m w h = (Ok a, h') -> makes_calls w tag (f a) l2) ->
  makes_calls w tag (bind m f) (l1 ++ l2).
Proof.
  intros Hm Hf h. unfold bind. pose proof (Hm h) as Hh. destruct (m w h) as [[a|e] h1] eqn:E.
  - specialize (Hf a h h1 E h1). destruct (f a w h1) as [[b|e] h2].
    + rewrite Hf, Hh. now rewrite app_assoc.
    + destruct Hf as [k Hk]. exists (length l1 + k)%nat. rewrite Hk, Hh, <- app_assoc. f_equal.
      now rewrite firstn_app_2.
  - destruct Hh as [k Hk]. exists (Nat.min k (length l1)). rewrite Hk. f_equal.
    rewrite firstn_app. replace (Nat.min k (length l1) - length l1)%nat with 0%nat by lia.
    rewrite firstn_O, app_nil_r.
    destruct (Nat.le_gt_cases k (length l1)) as [H|H].
    + now rewrite Nat.min_l by exact H.
    + rewrite Nat.min_r by lia. rewrite !firstn_all2; auto; lia.
Qed.

Lemma makes_bind_nil A B w tag (m : M A) (f : A -> M B) l :
  makes_calls w tag m [] -> (forall a h h', m w h = (Ok a, h') -> makes_calls w tag (f a) l) -> makes_calls w tag (bind m f) l.
Proof. intros H1 H2. change l with ([] ++ l). now apply makes_bind. Qed.

Lemma makes_bind_last A B w tag (m : M A) (f : A -> M B) l :
  makes_calls w tag m l -> (forall a h h', m w h = (Ok a, h') -> makes_calls w tag (f a) []) -> makes_calls w tag (bind m f) l.
Proof. intros H1 H2. rewrite <- (app_nil_r l). now apply makes_bind. Qed.

Section ExtCalls.
  Context (tag : nat) (w : world) (o : options) (lr : line_renderer) (f : ext_fn).
  Hypothesis Ho : o_line_extension o = Some (logged tag f).
  Hypothesis Hf : silent tag f.
  Hypothesis Hemoji : silent tag (lr_emoji lr).

  Lemma ext_makes p : makes_calls w tag (compute_line_extension o p) [p].
  Proof.
    unfold compute_line_extension. rewrite Ho. intro h. unfold logged.
    pose proof (Hf p w (EvUser tag p :: h)) as H. rewrite calls_cons_same in H.
    destruct (f p w (EvUser tag p :: h)) as [[a|e] h']; simpl in H; [exact H|]. exists 1%nat. exact H.
  Qed.

  Lemma keeps_calls_makes A (m : M A) : keeps (fun h h' => calls tag h' = calls tag h) m -> makes_calls w tag m [].
  Proof. intro H. apply silent_makes. apply H. Qed.

  Let K (h h' : hist) := calls tag h' = calls tag h.
  Lemma Krefl h : K h h. Proof. reflexivity. Qed.
  Lemma Ktrans a b c : K a b -> K b c -> K a c. Proof. unfold K. congruence. Qed.

  Lemma rdb_makes d dir dirs : makes_calls w tag (render_directory_begin lr d dir dirs) [].
  Proof.
    apply keeps_calls_makes. apply (keeps_render_directory_begin K Krefl Ktrans lr). intros p w' h. apply Hemoji.
  Qed.

  Lemma render_entry_makes e : forall d cp, makes_calls w tag (render_entry o lr e d cp) (entry_paths e).
  Proof.
    induction e as [dir es IH|f0 k|dd|n] using entry_ind'; intros d cp.
    - assert (Hkids : makes_calls w tag
          (render_children (fun c cd => render_entry o lr c cd (initial_compact_paths c)) d es) (flat_map entry_paths es)).
      { clear -IH. induction IH as [|c es Hc Hes IHes]; [apply makes_ret|].
        destruct es as [|c' es].
        - cbn [flat_map]. rewrite app_nil_r. apply Hc.
        - cbn [flat_map]. change (render_children ?r ?d (c :: c' :: es)) with
            (s <- r c (depth_append d NON_LAST_FILE); r' <- render_children r d (c' :: es); ret (s ++ [c_nl] ++ r')).
          apply makes_bind; [apply Hc|]. intros. apply makes_bind_last; [exact IHes|]. intros. apply makes_ret. }
      assert (Hfin : forall ev : option (option jstring), makes_calls w tag
          (line <- render_directory_begin lr d dir cp;
           ext <- match ev with Some x => ret x | None => compute_line_extension o dir end;
           (let line := line ++ or_empty ext in
            let line := match es with [] => line | _ => line ++ [c_nl] end in
            children <- render_children (fun c cd => render_entry o lr c cd (initial_compact_paths c)) d es;
            ret (line ++ children))) (match ev with Some _ => [] | None => [dir] end ++ flat_map entry_paths es)).
      { intro ev. apply makes_bind_nil; [apply rdb_makes|]. intros. apply makes_bind.
        - destruct ev; [apply makes_ret|apply ext_makes].
        - intros. cbn zeta. apply makes_bind_last; [exact Hkids|]. intros. apply makes_ret. }
      cbn [render_entry].
      destruct es as [|c es]; [apply (Hfin None)|].
      destruct es as [|c' es]; [|destruct c; apply (Hfin None)].
      destruct c as [cd ces|f1 k|sd|n]; try apply (Hfin None).
      destruct (o_compact o && negb (depth_is_root d)); [|apply (Hfin None)].
      change (entry_paths (EDir dir [EDir cd ces])) with ([dir] ++ (flat_map entry_paths [EDir cd ces])).
      apply makes_bind; [apply ext_makes|]. intros [x|] h h' _; [apply (Hfin (Some (Some x)))|].
      inversion IH as [|a b Hc _]; subst. cbn [flat_map]. rewrite app_nil_r. apply Hc.
    - cbn [render_entry entry_paths]. unfold render_file. apply makes_bind_nil.
      + apply keeps_calls_makes. apply (keeps_bind K Ktrans).
        * apply (keeps_emoji_prefix K Krefl Ktrans lr). intros p w' h. apply Hemoji.
        * intro. apply (keeps_bind K Ktrans); [apply (keeps_format_file K Krefl)|]. intro. apply keeps_ret. exact Krefl.
      + intros. apply makes_bind_last; [apply ext_makes|]. intros. apply makes_ret.
    - apply makes_ret.
    - apply makes_ret.
  Qed.
End ExtCalls.
