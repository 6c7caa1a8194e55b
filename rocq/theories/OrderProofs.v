(** The order of a brush's planes does not matter to its faces (C74). *)
From Coq Require Import Reals Lra Psatz Permutation Sorted.
From Flocq Require Import Core.
From Verif Require Import Prelude F32 Text MapModel GeoModel GatherSpec GeoSpec RealSpec WindSpec BaseProofs GeoProofs RealProofs WindProofs.
Local Open Scope R_scope.

Lemma sorted_unique : forall A (r : A -> A -> Prop), (forall a b, r a b -> r b a -> False) ->
  forall l l', StronglySorted r l -> StronglySorted r l' -> Permutation l l' -> l = l'.
Proof.
  intros A r As l. induction l as [|x l IH]; intros l' S S' P; [apply Permutation_nil in P; now subst|].
  destruct l' as [|y l']; [apply Permutation_sym, Permutation_nil in P; discriminate|].
  inversion_clear S as [|? ? S1 H]. inversion_clear S' as [|? ? S1' H']. rewrite Forall_forall in *.
  assert (x = y).
  { pose proof (Permutation_in x P (or_introl eq_refl)) as I. pose proof (Permutation_in y (Permutation_sym P) (or_introl eq_refl)) as I'.
    destruct I as [E|I]; [now symmetry|]. destruct I' as [E|I']; [exact E|]. exfalso. exact (As x y (H y I') (H' x I)). }
  subst y. f_equal. apply IH; auto. now apply Permutation_cons_inv in P.
Qed.

Section Order.
Context (parse : str -> option R) (cosine radians : R -> R) (atan2 : R -> R -> R)
  (quat : vec3 R -> R -> vec3 R -> vec3 R) (mat2 : R -> vec2 R -> vec2 R).
Local Notation O := (real_num parse cosine radians atan2 quat mat2).

Lemma mean_unique : forall l l' c c', Permutation l l' -> is_mean O l c -> is_mean O l' c' -> c = c'.
Proof.
  intros l l' c c' P M M'. destruct l as [|x l].
  - apply Permutation_nil in P. subst l'. destruct M as (s & S & ->), M' as (s' & S' & ->). inversion S. inversion S'. subst. reflexivity.
  - assert (N0 : x :: l <> []) by discriminate. assert (N : l' <> []) by (intros ->; apply Permutation_sym, Permutation_nil in P; discriminate).
    assert (E : forall F, inner F c = inner F c').
    { intros F. pose proof (mean_total _ _ _ _ _ _ F _ _ N0 M) as T. pose proof (mean_total _ _ _ _ _ _ F _ _ N M') as T'.
      rewrite <- (total_perm _ _ _ P), <- (Permutation_length P) in T'. rewrite <- T in T'.
      apply Rmult_eq_reg_l in T'; [now symmetry|]. apply not_0_INR. discriminate. }
    apply v3_ext; [pose proof (E (V3 1 0 0)) as H|pose proof (E (V3 0 1 0)) as H|pose proof (E (V3 0 0 1)) as H]; unfold inner in H; cbn [vx vy vz] in H; lra.
Qed.

Section Two.
Context (tx : texture_info) (e : entity R) (tx' : texture_info) (e' : entity R) (planes planes' : list (brush_plane R)) (plane : brush_plane R) (Same : forall q, In q planes <-> In q planes').
Context f f' (E : build_face O tx e planes plane = Ok f) (E' : build_face O tx' e' planes' plane = Ok f').

Lemma same_corners : Permutation (map vt_pos (f_vertices f)) (map vt_pos (f_vertices f')).
Proof.
  destruct (real_corners _ _ _ _ _ _ _ _ _ _ _ E) as (N & I). destruct (real_corners _ _ _ _ _ _ _ _ _ _ _ E') as (N' & I').
  apply NoDup_Permutation; auto. intros x. rewrite I, I'. split; intros (p1 & p2 & A & B & P & P1 & P2 & S & H & H1 & H2 & W); exists p1, p2.
  - split; [now apply Same|]. split; [now apply Same|]. repeat (split; [assumption|]). intros q Q. apply W. now apply Same.
  - split; [now apply Same|]. split; [now apply Same|]. repeat (split; [assumption|]). intros q Q. apply W. now apply Same.
Qed.
Lemma same_center : f_center f = f_center f'.
Proof.
  destruct (positions _ _ _ _ _ _ _ _ _ _ _ E) as (raw & _ & P & M & _). destruct (positions _ _ _ _ _ _ _ _ _ _ _ E') as (raw' & _ & P' & M' & _).
  eapply mean_unique; [|exact M|exact M']. rewrite P, P'. apply same_corners.
Qed.

End Two.

Lemma pts_sorted : forall tx e planes plane f, build_face O tx e planes plane = Ok f ->
  StronglySorted (fun x y => atan2 (inner (minus y (f_center f)) (second_axis O plane)) (inner (minus y (f_center f)) (first_edge O plane))
     <= atan2 (inner (minus x (f_center f)) (second_axis O plane)) (inner (minus x (f_center f)) (first_edge O plane))) (map vt_pos (f_vertices f)).
Proof.
  intros tx e planes plane f E. destruct (positions _ _ _ _ _ _ _ _ _ _ _ E) as (raw & sorted & _ & _ & F & S).
  revert F. generalize (f_vertices f) as vs. induction S as [|w sorted S IH H]; intros vs F; inversion_clear F as [|? v ? vs' W F']; [constructor|].
  cbn [map]. constructor; [now apply IH|]. rewrite Forall_forall in *. intros y I. apply in_map_iff in I. destruct I as (v' & <- & I).
  destruct (Forall2_in_r _ _ _ _ _ _ F' I) as (w' & I' & W'). specialize (H w' I'). unfold angle_of in H. rewrite W, W' in H. exact H.
Qed.

Theorem same_positions : forall tx e tx' e' planes planes' plane f f', (forall q, In q planes <-> In q planes') ->
  build_face O tx e planes plane = Ok f -> build_face O tx' e' planes' plane = Ok f' -> crisp planes f -> polar_angle atan2 ->
  f_center f = f_center f' /\ map vt_pos (f_vertices f) = map vt_pos (f_vertices f').
Proof.
  intros tx e tx' e' planes planes' plane f f' Same E E' K Angle. pose proof (same_center _ _ _ _ _ _ _ Same _ _ E E') as C.
  split; [exact C|]. pose proof (same_corners _ _ _ _ _ _ _ Same _ _ E E') as P.
  pose proof (pts_sorted _ _ _ _ _ E) as S. pose proof (pts_sorted _ _ _ _ _ E') as S'. rewrite <- C in S'.
  set (pts := map vt_pos (f_vertices f)) in *. set (pts' := map vt_pos (f_vertices f')) in *.
  destruct (real_corners _ _ _ _ _ _ _ _ _ _ _ E) as (N & _). fold pts in N. destruct (real_corners _ _ _ _ _ _ _ _ _ _ _ E') as (N' & _). fold pts' in N'.
  set (ang x := atan2 (inner (minus x (f_center f)) (second_axis O plane)) (inner (minus x (f_center f)) (first_edge O plane))).
  assert (D : forall x y, In x pts -> In y pts -> x <> y -> ang x <> ang y).
  { intros x y Ix Iy Nxy Q. destruct (corner_of _ _ _ _ _ _ _ _ _ _ _ E x Ix) as (_ & _ & _ & _ & Pl & _).
    assert (Two : exists a b, In a pts /\ In b pts /\ a <> b) by eauto.
    apply Nxy. apply (proj_inj _ _ _ _ _ _ _ _ _ _ _ E Pl Two x y Ix Iy).
    pose proof (fun z I => corner_exposed _ _ _ _ _ _ _ _ _ _ _ E K Pl Two z I) as Ex.
    pose proof (corner_angle _ _ _ _ _ _ _ _ _ _ _ E K Angle Pl Two x (Vertex (minus x (f_center f)) (V3 0 0 0) (V3 0 0 0, 0) None None) Ix eq_refl) as Ax.
    pose proof (corner_angle _ _ _ _ _ _ _ _ _ _ _ E K Angle Pl Two y (Vertex (minus y (f_center f)) (V3 0 0 0) (V3 0 0 0, 0) None None) Iy eq_refl) as Ay.
    apply (angles_distinct _ _ _ (ang x) (in_map _ _ _ Ix) (in_map _ _ _ Iy) (Ex x Ix) (Ex y Iy) Ax). rewrite Q. exact Ay. }
  assert (Strict : forall l, incl l pts -> NoDup l -> StronglySorted (fun x y => ang y <= ang x) l -> StronglySorted (fun x y => ang y < ang x) l).
  { induction l as [|x l IH]; intros Inc Nd So; [constructor|]. inversion_clear So as [|? ? So' H]. inversion_clear Nd as [|? ? Nx Nd']. constructor.
    - apply IH; auto. intros z I. apply Inc. now right.
    - rewrite Forall_forall in *. intros y I. specialize (H y I).
      assert (ang x <> ang y) by (apply D; [apply Inc; now left|apply Inc; now right|intros ->; contradiction]). lra. }
  apply (sorted_unique _ (fun x y => ang y < ang x)); auto.
  - intros a b. lra.
  - apply Strict; auto. intros z; auto.
  - apply Strict; auto. intros z I. now apply (Permutation_in _ (Permutation_sym P)).
Qed.
Theorem same_set : forall tx e tx' e' planes planes' plane f f', (forall q, In q planes <-> In q planes') ->
  build_face O tx e planes plane = Ok f -> build_face O tx' e' planes' plane = Ok f' ->
  f_center f = f_center f' /\ Permutation (map vt_pos (f_vertices f)) (map vt_pos (f_vertices f')).
Proof. intros. split; [eapply same_center|eapply same_corners]; eassumption. Qed.
Theorem same_positions_only : forall tx e tx' e' planes planes' plane f f', (forall q, In q planes <-> In q planes') ->
  build_face O tx e planes plane = Ok f -> build_face O tx' e' planes' plane = Ok f' -> crisp planes f -> polar_angle atan2 ->
  map vt_pos (f_vertices f) = map vt_pos (f_vertices f').
Proof. intros. eapply same_positions; eassumption. Qed.
End Order.
