(** * The case shown with C169 *)

From Verif Require Import SpecAround AroundFacts MatcherFacts Cases VolumeCases.
Close Scope Z_scope.

(** Only directories with a descendant "c.txt", and files beside such a file; at most three entries where there is a "c.txt" in the directory;
    " <- c" is written after the directories that contain one, which come first. *)
Definition around_options : options :=
  with_line_extension (Some (ext_loop None [ext_rule (pm_any_direct_child (pm_name (js "c.txt"))) (Some (js " <- c"))]))
    (with_child_limit_fn (limit_loop UNLIMITED [limit_rule (pm_any_direct_child (pm_name (js "c.txt"))) 3])
    (with_sort (sort_build (fold_left sort_step [SAddFirst (pm_any_direct_child (pm_name (js "c.txt")))] []))
    (filter_files (pm_sibling (pm_name (js "c.txt"))) (filter_directories (pm_any_descendant (pm_name (js "c.txt"))) default_options)))).

Lemma parts_modest w m : assembled w false (fun _ => False) m -> callback w m (modest w) (fun _ => True).
Proof. apply C96_modest_lemma. intros ? []. Qed.

Lemma around_dir : looks_around busy_world true (o_dir_matcher around_options).
Proof.
  destruct (matchers_around busy_world true) as (H1 & H2 & _). apply (H2 (pm_name (js "c.txt"))). apply H1. apply parts_modest. apply as_name.
Qed.

Lemma around_file : looks_around busy_world true (o_file_matcher around_options).
Proof.
  destruct (matchers_around busy_world true) as (H1 & H2 & _). apply (H2 (pm_name (js "c.txt"))). apply H1. apply parts_modest. apply as_name.
Qed.

Lemma around_child_limit : looks_around busy_world false (o_child_limit around_options).
Proof.
  destruct (matchers_around busy_world true) as (H1 & _). destruct (matchers_around busy_world false) as (_ & H2 & _ & _ & _ & H3 & H4).
  apply H4. constructor; [|constructor]. apply H3. apply (H2 (pm_name (js "c.txt"))). apply H1. apply parts_modest. apply as_name.
Qed.

Lemma around_line : match o_line_extension around_options with Some f => looks_around busy_world false f | None => True end.
Proof.
  destruct (matchers_around busy_world true) as (H1 & _). destruct (matchers_around busy_world false) as (H0 & H2 & _ & _ & _ & _ & _ & H3 & H4 & _).
  apply H4. constructor; [|constructor]. apply H3. apply (H2 (pm_name (js "c.txt"))). apply H1. apply parts_modest. apply as_name.
Qed.

Lemma around_plain : looks_around busy_world false (o_emoji around_options).
Proof.
  destruct (matchers_around busy_world false) as (H0 & _). apply H0.
  destruct (default_callbacks busy_world (modest busy_world) (fun _ => True)) as (_ & _ & _ & H & _); [constructor|exact H].
Qed.

Lemma honest_then A B C (f : A -> M B) (g : B -> A -> M C) w : honest w f -> (forall b, honest w (g b)) -> honest w (fun a => b <- f a; g b a).
Proof.
  intros Hf Hg a h. destruct (Hf a h) as (r & t & Er & Ht). unfold bind. rewrite Er. destruct r as [b|x]; [|eauto].
  destruct (Hg b a (rev t ++ h)) as (r' & t' & Er' & Ht'). exists r', (t ++ t'). rewrite Er', rev_app_distr, <- app_assoc.
  split; [reflexivity|]. now apply SeenFacts.truthful_app.
Qed.

Lemma honest_ret A B (g : A -> B) w : honest w (fun a => ret (g a)).
Proof. intros a h. exists (Ok (g a)), []. split; [reflexivity|apply SeenFacts.truthful_nil]. Qed.

Lemma honest_at A A' B (f : A -> M B) (g : A' -> A) w : honest w f -> honest w (fun a => f (g a)).
Proof. intros H a. apply H. Qed.

Lemma honest_order w (m : matcher) z a : honest w m -> honest w (then_comparing (sort_build [fun p => x <- m p; ret (if x then z else DEFAULT_PRECEDENCE)]) ALPHABETICAL a).
Proof.
  intro H. assert (Ha : honest w (ALPHABETICAL a)) by apply honest_ret.
  assert (Hr : honest w (sort_precedence [fun p => x <- m p; ret (if x then z else DEFAULT_PRECEDENCE)])).
  { apply honest_then; [apply honest_then; [exact H|intro; apply honest_ret]|]. intro b. cbn [sort_precedence_loop]. destruct (negb _); apply honest_ret. }
  assert (T : forall (c1 c2 : comparator), honest w (c1 a) -> honest w (c2 a) -> honest w (then_comparing c1 c2 a)).
  { intros c1 c2 H1 H2. apply honest_then; [exact H1|]. intro r. destruct (r =? 0)%Z; [exact H2|apply honest_ret]. }
  apply T; [|exact Ha]. apply T; [|exact Ha]. unfold comparing. apply (honest_then path Z Z (fun _ => sort_precedence _ a) (fun ka b => kb <- sort_precedence _ b; ret (zcompare ka kb))).
  - intros ? h. apply Hr.
  - intro ka. apply honest_then; [exact Hr|intro; apply honest_ret].
Qed.

Lemma around_honest : honest_callbacks busy_world around_options.
Proof.
  destruct (default_honest busy_world) as (_ & _ & _ & H4 & _ & _).
  assert (H : forall m, assembled busy_world true (fun _ => False) m -> honest busy_world m) by (intros m; apply C96_honest_lemma; intros ? []).
  split; [|split; [|split; [|split; [exact H4|split]]]].
  - apply (H (pm_any_descendant (pm_name (js "c.txt")))). apply as_descendant; [reflexivity|apply as_name].
  - apply (H (pm_sibling (pm_name (js "c.txt")))). apply as_sibling; [reflexivity|apply as_name].
  - intros a h. destruct (H (pm_any_direct_child (pm_name (js "c.txt"))) ltac:(apply as_child; [reflexivity|apply as_name]) a h) as (r & t & Er & Ht).
    unfold around_options. cbn [o_child_limit with_child_limit_fn with_line_extension limit_loop]. unfold limit_rule, bind. rewrite Er. destruct r as [[|]|x]; (eexists _, t; split; [reflexivity|exact Ht]).
  - cbn [o_line_extension around_options with_line_extension]. intros a h. destruct (H (pm_any_direct_child (pm_name (js "c.txt"))) ltac:(apply as_child; [reflexivity|apply as_name]) a h) as (r & t & Er & Ht).
    cbn [ext_loop]. unfold ext_rule, bind. rewrite Er. destruct r as [[|]|x]; (eexists _, t; split; [reflexivity|exact Ht]).
  - intro a. apply (honest_order busy_world (pm_any_direct_child (pm_name (js "c.txt"))) HIGHEST_PRECEDENCE). apply (H (pm_any_direct_child (pm_name (js "c.txt")))).
    apply as_child; [reflexivity|apply as_name].
Qed.

Lemma around_order : looks_between busy_world (o_comparator around_options).
Proof.
  destruct (matchers_around busy_world true) as (H1 & H2 & _). destruct (comparators_between busy_world) as (_ & H3 & H4 & _ & H5).
  apply H4; [|apply between_alphabetical]. apply (H5 [SAddFirst (pm_any_direct_child (pm_name (js "c.txt")))]). intros op [<-|[]].
  apply (H2 (pm_name (js "c.txt"))). apply H1. apply parts_modest. apply as_name.
Qed.
