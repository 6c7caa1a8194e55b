(** Tangents against texture coordinates, in exact arithmetic (C103).
    Full statement: for every vertex of every face, the tangent goes with the texture coordinates ([follows]).
    It is false for turned standard textures (C103_rotated_refuted), for textures mirrored along u (C103_mirrored_refuted)
    and for Valve textures mirrored along v (C103_flipped_refuted); it holds in the other cases (the partial theorems). *)
From Coq Require Import Reals.
From Verif Require Import Prelude F32 Text MapModel GeoModel RealSpec UvSpec TangentSpec TangentProofs TangentWitness.
Local Open Scope R_scope.

Theorem C103_rotated_refuted : forall parse cosine atan2, exists tx e planes plane f v size uo vo,
  build_face (exactly parse cosine atan2) tx e planes plane = Ok f /\ In v (f_vertices f) /\ hget tx (bp_texture plane) = Some size
  /\ textured size /\ proper plane /\ bp_uv plane = UVQuake uo vo /\ 0 < ux (bp_scale plane) /\ 0 < uy (bp_scale plane)
  /\ ~ follows plane size (vt_tangent v).
Proof. exact rotated. Qed.
Print Assumptions C103_rotated_refuted.

Theorem C103_mirrored_refuted : forall parse cosine atan2, exists tx e planes plane f v size uo vo,
  build_face (exactly parse cosine atan2) tx e planes plane = Ok f /\ In v (f_vertices f) /\ hget tx (bp_texture plane) = Some size
  /\ textured size /\ proper plane /\ bp_uv plane = UVQuake uo vo /\ bp_rotation plane = 0 /\ ux (bp_scale plane) <> 0 /\ 0 < uy (bp_scale plane)
  /\ ~ follows plane size (vt_tangent v).
Proof. exact mirrored. Qed.
Print Assumptions C103_mirrored_refuted.

Theorem C103_flipped_refuted : forall parse cosine atan2, exists tx e planes plane f v size ua uo va vo,
  build_face (exactly parse cosine atan2) tx e planes plane = Ok f /\ In v (f_vertices f) /\ hget tx (bp_texture plane) = Some size
  /\ textured size /\ bp_uv plane = UVValve ua uo va vo /\ inner (outer (facing plane) ua) va <> 0 /\ 0 < ux (bp_scale plane) /\ uy (bp_scale plane) <> 0
  /\ ~ follows plane size (vt_tangent v).
Proof. exact flipped. Qed.
Print Assumptions C103_flipped_refuted.

(** Valve coordinates with positive scales whose axes do not collapse on the plane. *)
Theorem C103_valve_partial : forall parse cosine atan2 tx e planes plane f v size ua uo va vo,
  build_face (exactly parse cosine atan2) tx e planes plane = Ok f -> In v (f_vertices f) -> textured size ->
  bp_uv plane = UVValve ua uo va vo -> 0 < ux (bp_scale plane) -> 0 < uy (bp_scale plane) -> inner (outer (facing plane) ua) va <> 0 ->
  follows plane size (vt_tangent v)
  /\ shifts plane size (fst (vt_tangent v)) (inner ua ua / ux (bp_scale plane) / IZR (Z.of_N (fst size))) (inner va ua / uy (bp_scale plane) / IZR (Z.of_N (snd size))).
Proof. exact valve_follows. Qed.
Print Assumptions C103_valve_partial.

(** Standard coordinates that are not turned: u alone grows along the tangent, by one texel of the scaled texture. *)
Theorem C103_standard_partial : forall parse cosine atan2 tx e planes plane f v size uo vo,
  build_face (exactly parse cosine atan2) tx e planes plane = Ok f -> In v (f_vertices f) -> textured size ->
  bp_uv plane = UVQuake uo vo -> bp_rotation plane = 0 -> 0 < ux (bp_scale plane) -> uy (bp_scale plane) <> 0 -> proper plane ->
  follows plane size (vt_tangent v) /\ shifts plane size (fst (vt_tangent v)) (1 / ux (bp_scale plane) / IZR (Z.of_N (fst size))) 0.
Proof. exact standard_follows. Qed.
Print Assumptions C103_standard_partial.

(** Turned standard coordinates on a plane facing along an axis: the tangent is off by twice the angle. *)
Theorem C103_turned_partial : forall parse cosine atan2 tx e planes plane f v size uo vo,
  build_face (exactly parse cosine atan2) tx e planes plane = Ok f -> In v (f_vertices f) ->
  bp_uv plane = UVQuake uo vo -> along (facing plane) ->
  shifts plane size (fst (vt_tangent v)) (cos (2 * true_radians (bp_rotation plane)) / ux (bp_scale plane) / IZR (Z.of_N (fst size)))
    (sin (2 * true_radians (bp_rotation plane)) / uy (bp_scale plane) / IZR (Z.of_N (snd size))).
Proof. exact standard_turned. Qed.
Print Assumptions C103_turned_partial.

Example C103_valve_example : forall parse cosine atan2, exists tx e planes plane f v size ua uo va vo,
  build_face (exactly parse cosine atan2) tx e planes plane = Ok f /\ In v (f_vertices f) /\ textured size
  /\ bp_uv plane = UVValve ua uo va vo /\ 0 < ux (bp_scale plane) /\ 0 < uy (bp_scale plane) /\ inner (outer (facing plane) ua) va <> 0.
Proof. exact valve_example. Qed.
Example C103_standard_example : forall parse cosine atan2, exists tx e planes plane f v size uo vo,
  build_face (exactly parse cosine atan2) tx e planes plane = Ok f /\ In v (f_vertices f) /\ textured size
  /\ bp_uv plane = UVQuake uo vo /\ bp_rotation plane = 0 /\ 0 < ux (bp_scale plane) /\ uy (bp_scale plane) <> 0 /\ proper plane.
Proof. exact standard_example. Qed.
Example C103_turned_example : forall parse cosine atan2, exists tx e planes plane f v uo vo,
  build_face (exactly parse cosine atan2) tx e planes plane = Ok f /\ In v (f_vertices f)
  /\ bp_uv plane = UVQuake uo vo /\ bp_rotation plane = 30 /\ along (facing plane).
Proof. exact turned_example. Qed.
