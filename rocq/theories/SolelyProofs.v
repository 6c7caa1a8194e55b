(** What is built depends only on the solid: lemmas for C151. *)
From Coq Require Import Reals Lra Lia Psatz Permutation.
From Verif Require Import Prelude F32 Text MapModel GeoModel LayerModel GameDataModel SceneModel GatherSpec GeoSpec RealSpec WindSpec SolidSpec RestateSpec CastSpec FewestSpec SolelySpec
  BaseProofs GeoProofs RealProofs WindProofs ShiftProofs OrderProofs RestateProofs SidesProofs SolidProofs CutProofs MirrorProofs CastProofs FewestProofs.
Local Open Scope R_scope.

Theorem shapes_same : forall planes planes' l l', same_solid planes planes' -> fewest planes l -> fewest planes' l' -> Permutation l l'.
Proof.
  intros planes planes' l l' S (C & N & F) (C' & N' & F'). apply NoDup_Permutation; [exact N|exact N'|]. intros x. split.
  - apply (proj1 (F l' (fun y => iff_trans (C' y) (iff_sym (S y))))).
  - apply (proj1 (F' l (fun y => iff_trans (C y) (S y)))).
Qed.

Section Exact.
Context (parse : str -> option R) (cosine radians : R -> R) (atan2 : R -> R -> R)
  (quat : vec3 R -> R -> vec3 R -> vec3 R) (mat2 : R -> vec2 R -> vec2 R).
Local Notation O := (real_num parse cosine radians atan2 quat mat2).

Lemma corner_same : forall tx e planes pl f tx' e' planes' pl' f', build_face O tx e planes pl = Ok f -> build_face O tx' e' planes' pl' = Ok f' -> In pl planes ->
  proper pl -> crisp planes f -> sharp planes pl -> bounded (side planes pl) -> proper pl' -> crisp planes' f' -> sharp planes' pl' -> bounded (side planes' pl') ->
  same_side planes pl planes' pl' -> incl (map vt_pos (f_vertices f)) (map vt_pos (f_vertices f')).
Proof.
  intros tx e planes pl f tx' e' planes' pl' f' E E' Ip P K S B P' K' S' B' Sd q Iq.
  pose proof (face_side parse cosine radians atan2 quat mat2 tx e planes pl f E P K S B) as H.
  pose proof (face_side parse cosine radians atan2 quat mat2 tx' e' planes' pl' f' E' P' K' S' B') as H'.
  destruct (proj1 (proj2 (real_corners parse cosine radians atan2 quat mat2 tx e planes pl f E) _) Iq) as (p1 & p2 & I1 & I2 & P0 & P1 & P2 & Sp & O0 & O1 & O2 & _).
  apply (extreme planes pl p1 p2 q); try assumption.
  - intros x Ix. apply (Sd x). apply H', hull_corner, Ix.
  - apply H', Sd, H, hull_corner, Iq.
Qed.

Theorem face_same : forall tx e planes pl f tx' e' planes' pl' f', build_face O tx e planes pl = Ok f -> build_face O tx' e' planes' pl' = Ok f' -> In pl planes -> In pl' planes' ->
  proper pl -> crisp planes f -> sharp planes pl -> bounded (side planes pl) -> proper pl' -> crisp planes' f' -> sharp planes' pl' -> bounded (side planes' pl') ->
  same_side planes pl planes' pl' ->
  same_face f f' /\ (same_way pl pl' -> polar_angle atan2 -> begun_elsewhere (map vt_pos (f_vertices f)) (map vt_pos (f_vertices f'))).
Proof.
  intros tx e planes pl f tx' e' planes' pl' f' E E' Ip Ip' P K S B P' K' S' B' Sd.
  assert (Q : Permutation (map vt_pos (f_vertices f)) (map vt_pos (f_vertices f'))).
  { apply NoDup_Permutation; [exact (proj1 (real_corners _ _ _ _ _ _ tx e planes pl f E))|exact (proj1 (real_corners _ _ _ _ _ _ tx' e' planes' pl' f' E'))|]. intros x. split.
    - exact (corner_same tx e planes pl f tx' e' planes' pl' f' E E' Ip P K S B P' K' S' B' Sd x).
    - exact (corner_same tx' e' planes' pl' f' tx e planes pl f E' E Ip' P' K' S' B' P K S B (fun y => iff_sym (Sd y)) x). }
  split; [split; [exact Q|split]|].
  - destruct (positions _ _ _ _ _ _ tx e planes pl f E) as (raw & s & P1 & Mn & _). destruct (positions _ _ _ _ _ _ tx' e' planes' pl' f' E') as (raw' & s' & P1' & Mn' & _).
    symmetry. apply (mean_unique parse cosine radians atan2 quat mat2 (map vt_pos raw) (map vt_pos raw')); [|exact Mn|exact Mn']. now rewrite P1, P1'.
  - apply Permutation_length in Q. rewrite !map_length in Q. revert Q. clear - E E'. unfold build_face in E, E'. apply bind_ok in E, E'. destruct E as (vs & _ & E), E' as (vs' & _ & E'). apply ok_inj in E, E'. subst f f'.
    cbn [f_vertices f_indices]. intros Q. now rewrite Q.
  - intros (k & Kp & Ef) Pa. apply (turning_unique (fun a b d => clockwise (facing pl') a b d)).
    + intros a b d. apply clockwise_cyclic.
    + intros a b d. apply clockwise_one_way.
    + apply turning_map. eapply turning_weaken; [|exact (face_turning parse cosine radians atan2 quat mat2 tx e planes pl f E K Pa)].
      intros u v w. cbv beta. generalize (vt_pos u) (vt_pos v) (vt_pos w). intros a b d. unfold clockwise. rewrite Ef. generalize (facing pl). intros n H. vectors. nra.
    + apply turning_map. exact (face_turning parse cosine radians atan2 quat mat2 tx' e' planes' pl' f' E' K' Pa).
    + exact Q.
Qed.

Theorem brush_same : forall tx e planes g tx' e' planes' g' o bs i k o' bs' i' k', build_brush O tx e planes = Ok g -> build_brush O tx' e' planes' = Ok g' ->
  fair_brush O tx e planes -> fair_brush O tx' e' planes' -> same_solid planes planes' ->
  nth_error bs i = Some g -> collision_of O CConvex (EntityGeo o bs) = Ok k -> nth_error bs' i' = Some g' -> collision_of O CConvex (EntityGeo o' bs') = Ok k' ->
  exists shapes shape shapes' shape', k = ColConvex shapes /\ nth_error shapes i = Some shape /\ k' = ColConvex shapes' /\ nth_error shapes' i' = Some shape'
    /\ Permutation (cx_points shape) (cx_points shape').
Proof.
  intros tx e planes g tx' e' planes' g' o bs i k o' bs' i' k' E E' Fr Fr' S Hi Ek Hi' Ek'.
  destruct (brush_fewest parse cosine radians atan2 quat mat2 tx e planes g o bs k i E Fr Hi Ek) as (shapes & shape & A & B & F).
  destruct (brush_fewest parse cosine radians atan2 quat mat2 tx' e' planes' g' o' bs' k' i' E' Fr' Hi' Ek') as (shapes' & shape' & A' & B' & F').
  exists shapes, shape, shapes', shape'. split; [exact A|]. split; [exact B|]. split; [exact A'|]. split; [exact B'|]. exact (shapes_same planes planes' _ _ S F F').
Qed.
End Exact.
