(** Comparing two files (C70). *)
From Verif Require Import Prelude F32 Text MapModel DiffModel GeoModel LayerModel GameDataModel SceneModel RunModel
  MapSpec DiffSpec Utf8Spec RunSpec BaseProofs TokenProofs DiffProofs RunProofs.

Section Diff.
Context (p : platform).

Lemma read_text : forall f text, read_to_string f = Ok text <-> file_text f text.
Proof. intros f text. rewrite read_ok. reflexivity. Qed.
Lemma read_no_text : forall f, (exists e, read_to_string f = Err e) <-> forall text, ~ file_text f text.
Proof.
  intros f. rewrite read_err. split.
  - intros [->|(bs & -> & N)] text (bs' & E & H); [discriminate|]. injection E as <-. exact (N text H).
  - intros N. destruct f as [|bs]; [now left|right]. exists bs. split; [reflexivity|]. intros text H. apply (N text). exists bs. auto.
Qed.

Lemma text_exists : forall text, exists ls, lines_spec (p_keep_bare_cr p) text ls.
Proof. intros text. destruct (lines_unique (p_keep_bare_cr p) text) as (ls & H & _). eauto. Qed.
Lemma tokenize_panic : forall text, (exists w, tokenize p text = Panic w) <-> has_bad_line p text.
Proof.
  intros text. destruct (text_exists text) as (ls & L). destruct (tokenize_lines_panic p text ls L) as (P & _). rewrite P. split.
  - intros (l & I & B). exists ls, l. auto.
  - intros (ls' & l & L' & I & B). destruct (lines_unique (p_keep_bare_cr p) text) as (x & _ & U).
    assert (ls' = ls) by (rewrite <- (U ls L), <- (U ls' L'); reflexivity). subst. eauto.
Qed.
Lemma tokenize_tokens : forall text ts, tokenize p text = Ok ts -> text_tokens p text ts.
Proof.
  intros text ts E. destruct (text_exists text) as (ls & L). apply (tokenize_lines_ok p text ls ts L) in E. exists ls. tauto.
Qed.
Lemma tokenize_text : forall text, (exists w, tokenize p text = Panic w) \/ exists ts, tokenize p text = Ok ts.
Proof. intros text. destruct (text_exists text) as (ls & L). destruct (tokenize_lines_panic p text ls L) as (_ & H). tauto. Qed.
Lemma tokenize_empty : forall text, tokenize p text = Ok [] <-> text = [].
Proof.
  intros text. split; [|intros ->; reflexivity].
  intros E. apply tokenize_tokens in E. destruct E as (ls & L & F). inv F. inversion L as [l rest last W O1 La T E0].
  apply app_eq_nil in E0. destruct E0 as (E1 & ->). apply map_eq_nil in E1. subst l.
  inv La. reflexivity.
Qed.

Lemma run_diff_read : forall a b s t, file_text a s -> file_text b t ->
  run_diff p a b = (ta <- tokenize p s ;; tb <- tokenize p t ;; diff_tokens ta tb).
Proof. intros a b s t A B. apply read_text in A, B. unfold run_diff. rewrite A. cbn [bind]. rewrite B. reflexivity. Qed.
Lemma file_cases : forall f, (exists text, file_text f text) \/ exists e, read_to_string f = Err e.
Proof.
  intros f. destruct (read_to_string f) eqn:E; eauto.
  - left. exists a. now apply read_text.
  - exfalso. destruct f; simpl in E; [discriminate|]. destruct (utf8_decode _); discriminate.
  - exfalso. destruct f; simpl in E; [discriminate|]. destruct (utf8_decode _); discriminate.
Qed.

Lemma diff_texts : forall s t,
  (exists w, (ta <- tokenize p s ;; tb <- tokenize p t ;; diff_tokens ta tb) = Panic w
     /\ (s = [] \/ t = [] \/ has_bad_line p s \/ has_bad_line p t))
  \/ (exists x y d, tokenize p s = Ok x /\ tokenize p t = Ok y /\ x <> [] /\ y <> [] /\ diff_tokens x y = Ok d
     /\ ~ (s = [] \/ t = [] \/ has_bad_line p s \/ has_bad_line p t)).
Proof.
  intros s t. destruct (tokenize_text s) as [(w & E)|(x & E)].
  { left. exists w. rewrite E. split; [reflexivity|]. right. right. left. apply tokenize_panic. eauto. }
  destruct (tokenize_text t) as [(w & F)|(y & F)].
  { left. exists w. rewrite E, F. split; [reflexivity|]. right. right. right. apply tokenize_panic. eauto. }
  rewrite E, F. cbn [bind].
  assert (S0 : s = [] <-> x = []) by (rewrite <- tokenize_empty, E; split; congruence).
  assert (T0 : t = [] <-> y = []) by (rewrite <- tokenize_empty, F; split; congruence).
  assert (S1 : ~ has_bad_line p s) by (rewrite <- tokenize_panic; intros (w & W); congruence).
  assert (T1 : ~ has_bad_line p t) by (rewrite <- tokenize_panic; intros (w & W); congruence).
  destruct x as [|x0 x]; [|destruct y as [|y0 y]].
  - left. destruct (diff_empty [] y) as (w & W); [auto|]. exists w. split; [exact W|]. tauto.
  - left. destruct (diff_empty (x0 :: x) []) as (w & W); [auto|]. exists w. split; [exact W|]. tauto.
  - right. destruct (diff_no_panic (x0 :: x) (y0 :: y)) as (d & D); [discriminate..|].
    exists (x0 :: x), (y0 :: y), d. repeat (split; [first [reflexivity|discriminate|exact D]|]).
    rewrite S0, T0. intros [H|[H|[H|H]]]; try discriminate; tauto.
Qed.

Theorem diff_errors : forall a b, (exists e, run_diff p a b = Err e) <->
  (forall text, ~ file_text a text) \/ (forall text, ~ file_text b text).
Proof.
  intros a b. rewrite <- !read_no_text. destruct (file_cases a) as [(s & A)|(e & A)].
  - destruct (file_cases b) as [(t & B)|(e & B)].
    + rewrite (run_diff_read a b s t A B). apply read_text in A, B. rewrite A, B. split.
      * intros (e & E). exfalso. destruct (diff_texts s t) as [(w & W & _)|(x & y & d & X & Y & _ & _ & D & _)].
        { rewrite W in E. discriminate. }
        rewrite X, Y in E. cbn [bind] in E. rewrite D in E. discriminate.
      * intros [(e & E)|(e & E)]; discriminate.
    + apply read_text in A. unfold run_diff. rewrite A, B. cbn [bind]. split; eauto.
  - unfold run_diff. rewrite A. cbn [bind]. split; eauto.
Qed.

Theorem diff_panics : forall a b, (exists w, run_diff p a b = Panic w) <->
  exists s t, file_text a s /\ file_text b t /\ (s = [] \/ t = [] \/ has_bad_line p s \/ has_bad_line p t).
Proof.
  intros a b. destruct (file_cases a) as [(s & A)|(e & A)]; [destruct (file_cases b) as [(t & B)|(e & B)]|].
  - rewrite (run_diff_read a b s t A B). split.
    + intros (w & W). destruct (diff_texts s t) as [(w' & _ & H)|(x & y & d & X & Y & _ & _ & D & _)]; [eauto|].
      rewrite X, Y in W. cbn [bind] in W. rewrite D in W. discriminate.
    + intros (s' & t' & A' & B' & H). apply read_text in A, B, A', B'. rewrite A in A'. rewrite B in B'. inv A'. inv B'.
      destruct (diff_texts s' t') as [(w' & W & _)|(x & y & d & _ & _ & _ & _ & _ & N)]; [eauto|contradiction].
  - apply read_text in A. unfold run_diff. rewrite A, B. cbn [bind]. split; [intros (w & W); discriminate|].
    intros (s' & t' & _ & B' & _). apply read_text in B'. congruence.
  - unfold run_diff. rewrite A. cbn [bind]. split; [intros (w & W); discriminate|].
    intros (s' & t' & A' & _). apply read_text in A'. congruence.
Qed.

Theorem diff_result : forall a b s t, file_text a s -> file_text b t ->
  ~ (s = [] \/ t = [] \/ has_bad_line p s \/ has_bad_line p t) ->
  exists x y d kept, text_tokens p s x /\ text_tokens p t y /\ run_diff p a b = Ok d
    /\ longest_common kept (removelast x) (removelast y)
    /\ selected (fun k => ~ In k kept) x (d_removed d) /\ selected (fun k => ~ In k kept) y (d_added d).
Proof.
  intros a b s t A B N. rewrite (run_diff_read a b s t A B).
  destruct (diff_texts s t) as [(w & _ & H)|(x & y & d & X & Y & X0 & Y0 & D & _)]; [contradiction|].
  destruct (diff_ok x y X0 Y0) as (kept & d' & D' & L & R1 & R2). rewrite D in D'. inv D'.
  exists x, y, d', kept. rewrite X, Y. cbn [bind]. repeat split; auto using tokenize_tokens; apply L.
Qed.

(** A line of one file that has no equal in the other is reported. *)
Theorem diff_mentions : forall a b s t d x y, file_text a s -> file_text b t -> text_tokens p s x -> text_tokens p t y ->
  run_diff p a b = Ok d ->
  (forall k, In k x -> ~ In k y -> In k (d_removed d)) /\ (forall k, In k y -> ~ In k x -> In k (d_added d))
  /\ (forall k, In k (d_removed d) -> In k x) /\ (forall k, In k (d_added d) -> In k y).
Proof.
  intros a b s t d x y A B X Y E. rewrite (run_diff_read a b s t A B) in E.
  destruct (diff_texts s t) as [(w & W & _)|(x' & y' & d' & X' & Y' & _ & _ & D & _)].
  { rewrite W in E. discriminate. }
  assert (U : forall u v w, tokenize p u = Ok w -> text_tokens p u v -> v = w).
  { intros u v w K (ls & L & F). pose proof (proj1 (tokenize_lines_ok p u ls w L) K) as (G & _).
    pose proof (proj2 (tokenize_lines_ok p u ls v L) (conj G F)). congruence. }
  rewrite (U _ _ _ X' X), (U _ _ _ Y' Y). rewrite X', Y' in E. cbn [bind] in E. now apply diff_reports.
Qed.
End Diff.
