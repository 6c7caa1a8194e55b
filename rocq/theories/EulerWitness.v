(** A cube for C128. *)
From Coq Require Import Reals.
From Verif Require Import Prelude F32 Text MapModel GeoModel GeoSpec RealSpec WindSpec SolidSpec EdgeSpec NeighbourSpec EulerSpec
  RealProofs EulerFinal WindWitness EdgeWitness.
Local Open Scope R_scope.

Theorem cube_euler : forall parse cosine radians quat mat2 tx e, let O := real_num parse cosine radians real_atan2 quat mat2 in exists b V E,
  build_brush O tx e cube = Ok b /\ polar_angle real_atan2
  /\ (forall plane f, In plane cube -> In f (bg_faces b) -> build_face O tx e cube plane = Ok f -> proper plane /\ crisp cube f /\ sharp cube plane)
  /\ bounded (solid cube) /\ deep cube middle /\ no_repeats cube
  /\ length (bg_faces b) = 6%nat /\ all_corners b V /\ all_edges b E.
Proof.
  intros parse cosine radians quat mat2 tx e O. destruct (cube_closed parse cosine radians quat mat2 tx e) as (b & f & p & q & Eb & A & H & B & D & N & L & _).
  destruct (lists_exist _ _ _ _ _ _ _ _ _ _ _ Eb A H B D N) as (V & E & AV & AE). exists b, V, E. repeat (split; [assumption|]). assumption.
Qed.
