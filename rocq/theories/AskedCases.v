(** * The case shown with C170 *)

From Verif Require Import SpecAsked PathFacts Cases.
Open Scope Z_scope.

(** Two levels, nothing named "b.txt", at most four entries, an extension after "src". *)
Definition asked_options : options :=
  with_line_extension (Some (ext_loop None [ext_rule (pm_name (js "src")) (Some (js " *"))]))
    (with_child_limit_fn (fun _ => ret 4)
    (filter_files (pm_not (pm_name (js "b.txt"))) (filter_directories (pm_not (pm_name (js "b.txt"))) (with_max_depth 2 default_options)))).

Definition named_b (q : path) : bool := match rev (p_names q) with x :: _ => jeqb x (js "b.txt") | [] => false end.

(** [f] where [ok], else it throws. *)
Definition only {A} (ok : path -> hist -> bool) (f : path -> M A) : path -> M A :=
  fun q w h => if ok q h then f q w h else (Throw (ExUser 7), h).

(** The filters fail about the root, about the other kind and without the lookup; the order fails between directories and about "b.txt"; the child limit
    fails below one level and about directories not just opened; emoji and extension fail about "b.txt" and above the root. *)
Definition guarded_options (root : path) (o : options) : options := {|
  o_child_limit := only (fun q h => (length (p_names q) <=? length (p_names root) + 1)%nat && negb (named_b q) &&
    match h with EvOpen x :: _ => path_eqb x q | _ => false end) (o_child_limit o);
  o_tree_format := o_tree_format o;
  o_emoji := only (fun q _ => negb (named_b q) && (length (p_names root) <=? length (p_names q))%nat) (o_emoji o);
  o_compact := o_compact o;
  o_max_depth := o_max_depth o;
  o_comparator := fun a => only (fun b _ => negb (named_b a) && negb (named_b b) && names_eqb (removelast (p_names a)) (removelast (p_names b))) (o_comparator o a);
  o_dir_matcher := only (fun q h => negb (path_eqb q root) && match h with EvLstat x (Some KDir) :: _ => path_eqb x q | _ => false end) (o_dir_matcher o);
  o_file_matcher := only (fun q h => negb (path_eqb q root) && match h with EvLstat x (Some KDir) :: _ => false | EvLstat x _ :: _ => path_eqb x q | _ => false end)
    (o_file_matcher o);
  o_line_extension := option_map (only (fun q _ => negb (named_b q) && (length (p_names root) <=? length (p_names q))%nat)) (o_line_extension o)
|}.

Lemma only_ok {A} ok (f : path -> M A) q w h : ok q h = true -> only ok f q w h = f q w h.
Proof. intro E. unfold only. now rewrite E. Qed.

Lemma not_b w q h t : fst (pm_not (pm_name (js "b.txt")) q w (t :: h)) = Ok true -> named_b q = false.
Proof.
  unfold pm_not, pm_name, pm_name_test, named_b, get_file_name, bind, ret. destruct (rev (p_names q)) as [|x r]; cbn; [reflexivity|].
  intro H. injection H as H. now destruct (jeqb x _).
Qed.

Lemma accepted_not_b w q : accepted w asked_options q -> named_b q = false.
Proof.
  intros (h & a & _ & H). assert (H' : fst (pm_not (pm_name (js "b.txt")) q w (EvLstat q a :: h)) = Ok true) by (destruct a as [[]|]; exact H).
  now apply not_b in H'.
Qed.

Lemma path_eqb_refl q : path_eqb q q = true.
Proof. now apply path_eqb_eq. Qed.

Lemma guarded_agrees w root : named_b root = false -> agree_where_asked w root asked_options (guarded_options root asked_options).
Proof.
  intro Hr. assert (Hlong : forall q, side_by_side w root (o_max_depth asked_options) q q -> (length (p_names root) < length (p_names q))%nat).
  { intros q (d & h & dl & x & y & (ns & -> & _) & _ & _ & _ & -> & _). cbn. rewrite !app_length. cbn. lia. }
  assert (Hnot : forall q, side_by_side w root (o_max_depth asked_options) q q -> path_eqb q root = false).
  { intros q Hq. specialize (Hlong q Hq). destruct (path_eqb q root) eqn:E; [|reflexivity]. apply path_eqb_eq in E. subst q. lia. }
  assert (Hsh : forall q, q = root \/ (side_by_side w root (o_max_depth asked_options) q q /\ accepted w asked_options q) ->
    negb (named_b q) && (length (p_names root) <=? length (p_names q))%nat = true).
  { intros q [->|[Hq Ha]]; [rewrite Hr; cbn; apply Nat.leb_le; lia|]. rewrite (accepted_not_b w q Ha). specialize (Hlong q Hq). cbn. apply Nat.leb_le. lia. }
  repeat split.
  - intros q h Hq _. apply only_ok. now rewrite (Hnot q Hq), path_eqb_refl.
  - intros q h a Hq _ Ha. apply only_ok. rewrite (Hnot q Hq). destruct a as [[]|]; try (now rewrite path_eqb_refl). now destruct Ha.
  - intros a b h (d & h0 & dl & x & y & _ & _ & _ & _ & -> & ->) Ha Hb. apply only_ok. rewrite (accepted_not_b _ _ Ha), (accepted_not_b _ _ Hb). cbn.
    rewrite !removelast_last. now apply names_eqb_eq.
  - intros q h dl (ns & -> & Hn) Hq _. apply only_ok. rewrite path_eqb_refl, andb_true_r. apply andb_true_intro. split.
    + apply Nat.leb_le. cbn in *. rewrite app_length. lia.
    + destruct Hq as [->|Ha]; [now rewrite Hr|now rewrite (accepted_not_b w _ Ha)].
  - intros q h Hq. apply only_ok. now apply Hsh.
  - intros q h Hq. apply only_ok. now apply Hsh.
Qed.
