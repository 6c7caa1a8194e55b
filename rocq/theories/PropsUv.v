(** C101: accuracy of texture coordinates in single precision. *)
From Coq Require Import Reals.
From Verif Require Import Prelude F32 Text MapModel GeoModel GeoSpec RealSpec BoxSpec ErrorSpec GeoWitness ErrorWitness UvProofs UvFinal UvWitness NumberSpec UvSpec.
Local Open Scope R_scope.

(** With axes given on the line (Valve 220): near the formula's value at the vertex. *)
Theorem C101_valve : forall p tx e planes plane f v size ua uo va vo, build_face (f32_num p) tx e planes plane = Ok f ->
  (forall q, In q (plane :: planes) -> grid_plane q) -> (Z.of_nat (length planes) <= 4000)%Z -> In v (f_vertices f) ->
  hget tx (bp_texture plane) = Some size -> bp_uv plane = UVValve ua uo va vo ->
  sane_axis ua -> sane_axis va -> sane_offset uo -> sane_offset vo -> sane_scale (ux (bp_scale plane)) -> sane_scale (uy (bp_scale plane)) ->
  sane_size (fst size) -> sane_size (snd size) ->
  let x := point_of (vt_pos v) in
  let reach := norm x + norm (point_of (f_center f)) in
  exists t, vt_uv v = Some t /\ finite (ux t) /\ finite (uy t)
    /\ Rabs (val (ux t) - coordinate (inner (point_of ua) x) (val (ux (bp_scale plane))) (val uo) (fst size))
       <= coordinate_error (/ 2 ^ 20) (norm (point_of ua) * reach) (val (ux (bp_scale plane))) (val uo) (fst size)
    /\ Rabs (val (uy t) - coordinate (inner (point_of va) x) (val (uy (bp_scale plane))) (val vo) (snd size))
       <= coordinate_error (/ 2 ^ 20) (norm (point_of va) * reach) (val (uy (bp_scale plane))) (val vo) (snd size).
Proof. exact UvProofs.valve_accurate. Qed.
Print Assumptions C101_valve.

(** Without (standard): along an axis whose component of the direction is largest up to rounding (largest, when
    the direction is below 2^19), turned by the angle up to the machine's error [d] in turning. *)
Theorem C101_standard : forall p tx e planes plane f v size uo vo c s d, build_face (f32_num p) tx e planes plane = Ok f ->
  (forall q, In q (plane :: planes) -> grid_plane q) -> (Z.of_nat (length planes) <= 4000)%Z -> In v (f_vertices f) ->
  hget tx (bp_texture plane) = Some size -> bp_uv plane = UVQuake uo vo -> turns p (bp_rotation plane) c s d ->
  sane_offset uo -> sane_offset vo -> sane_scale (ux (bp_scale plane)) -> sane_scale (uy (bp_scale plane)) ->
  sane_size (fst size) -> sane_size (snd size) ->
  let x := point_of (vt_pos v) in
  let reach := norm x + norm (point_of (f_center f)) in
  exists a t, vt_uv v = Some t /\ finite (ux t) /\ finite (uy t)
    /\ nearly (facing (plane_of plane)) a /\ (extent (2 ^ 19) (facing (plane_of plane)) -> mostly (facing (plane_of plane)) a)
    /\ Rabs (val (ux t) - coordinate (ux (turned_by c s (projected a x))) (val (ux (bp_scale plane))) (val uo) (fst size))
       <= coordinate_error (/ 2 ^ 20 + 2 * d) reach (val (ux (bp_scale plane))) (val uo) (fst size)
    /\ Rabs (val (uy t) - coordinate (uy (turned_by c s (projected a x))) (val (uy (bp_scale plane))) (val vo) (snd size))
       <= coordinate_error (/ 2 ^ 20 + 2 * d) reach (val (uy (bp_scale plane))) (val vo) (snd size).
Proof. exact UvFinal.standard_accurate. Qed.
Print Assumptions C101_standard.

(** The slope of the pyramid of C90 with textures of both kinds meets the hypotheses. *)
Example C101_hypotheses : (forall uv q, In q (painted uv :: pyramid) -> grid_plane q)
  /\ (forall simd, build_face (f32_num (turner simd)) textures (world []) pyramid (painted quake_paint) = Ok (painted_face simd quake_paint)
        /\ build_face (f32_num (turner simd)) textures (world []) pyramid (painted valve_paint) = Ok (painted_face simd valve_paint))
  /\ hget textures (lit "brick") = Some (64%N, 64%N)
  /\ forall simd, turns (turner simd) (fz 90) 0 1 0 /\ sane_offset (fz 8) /\ sane_offset (fz (-3)) /\ sane_scale (fz 2) /\ sane_scale (fz (-4))
        /\ sane_axis (fv 1 (-1) 0) /\ sane_axis (fv 0 0 (-1)) /\ sane_size 64.
Proof. exact (conj painted_grid (conj painted_built (conj eq_refl painted_sane))). Qed.
(** Its corners (0,4,0), (4,0,0), (0,0,4) get these coordinates. *)
Example C101_example : forall simd,
  map vt_uv (f_vertices (painted_face simd quake_paint)) = map Some
    [V2 (f32_div (fz 10) (fz 64)) (f32_div (fz (-3)) (fz 64)); V2 (f32_div (fz 8) (fz 64)) (f32_div (fz (-4)) (fz 64)); V2 (f32_div (fz 8) (fz 64)) (f32_div (fz (-3)) (fz 64))] /\
  map vt_uv (f_vertices (painted_face simd valve_paint)) = map Some
    [V2 (f32_div (fz 6) (fz 64)) (f32_div (fz (-3)) (fz 64)); V2 (f32_div (fz 10) (fz 64)) (f32_div (fz (-3)) (fz 64)); V2 (f32_div (fz 8) (fz 64)) (f32_div (fz (-2)) (fz 64))].
Proof. exact painted_uvs. Qed.
