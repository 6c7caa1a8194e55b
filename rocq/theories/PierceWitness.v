(** A line through the unit cube, to try C152 on. *)
From Coq Require Import Reals Lra.
From Verif Require Import Prelude F32 Text MapModel GeoModel GeoSpec RealSpec WindSpec SolidSpec EdgeSpec RaySpec PierceSpec
  RealProofs WindWitness SolidWitness EdgeWitness PierceProofs.
Local Open Scope R_scope.

(** A point outside the cube, and the way from it to the middle of the cube. *)
Definition away : vec3 R := V3 3 2 1.
Definition way : vec3 R := V3 (vx middle - 3) (vy middle - 2) (vz middle - 1).

Lemma away_outside : ~ solid cube away.
Proof. intros S. apply cube_solid in S. unfold away in S. cbn in S. lra. Qed.

Theorem cube_pierced : forall parse cosine radians quat mat2 tx e, let O := real_num parse cosine radians real_atan2 quat mat2 in exists b,
  build_brush O tx e cube = Ok b /\ polar_angle real_atan2
  /\ (forall plane f, In plane cube -> In f (bg_faces b) -> build_face O tx e cube plane = Ok f -> proper plane /\ crisp cube f /\ sharp cube plane)
  /\ bounded (solid cube) /\ deep cube middle /\ way <> V3 0 0 0 /\ deep cube (onwards away way 1) /\ ~ on_mesh b away /\ ~ solid cube away.
Proof.
  intros parse cosine radians quat mat2 tx e O. destruct (cube_closed parse cosine radians quat mat2 tx e) as (b & _ & _ & _ & E & P & H & B & D & _).
  assert (N := away_outside).
  exists b. split; [exact E|]. split; [exact P|]. split; [exact H|]. split; [exact B|]. split; [exact D|].
  split; [intros Z; apply (f_equal vx) in Z; unfold way, middle in Z; cbn in Z; lra|].
  split; [replace (onwards away way 1) with middle; [exact D|unfold onwards, away, way; apply v3_ext; cbn [vx vy vz]; ring]|].
  split; [|exact N]. intros M. apply N. apply (proj1 (inside_or_on _ _ _ _ _ _ _ _ _ _ E P H B middle D away)). now right.
Qed.
