(** Tangents against texture coordinates, in exact arithmetic (C103). *)
From Coq Require Import Reals.
From Verif Require Import Prelude F32 Text MapModel GeoModel RealSpec UvSpec.
Local Open Scope R_scope.

(** The rotations the vector library computes, exactly: degrees, rotation of the plane, rotation about an axis of length one. *)
Definition true_radians (x : R) : R := x * PI / 180.
Definition true_mat2 (a : R) (t : vec2 R) : vec2 R := turned_by (cos a) (sin a) t.
Definition true_quat (k : vec3 R) (a : R) (v : vec3 R) : vec3 R :=
  let part f := f v * cos a + f (outer k v) * sin a + f k * inner k v * (1 - cos a) in V3 (part vx) (part vy) (part vz).
Definition exactly (parse : str -> option R) (cosine : R -> R) (atan2 : R -> R -> R) : num R :=
  real_num parse cosine true_radians atan2 true_quat true_mat2.

(** Going by [dir] changes the texture coordinates by [du] and [dv]. *)
Definition shifts (pl : brush_plane R) (size : N * N) (dir : vec3 R) (du dv : R) : Prop :=
  forall x a b, uv_of true_radians true_mat2 pl size x a ->
    uv_of true_radians true_mat2 pl size (V3 (vx x + vx dir) (vy x + vy dir) (vz x + vz dir)) b ->
    ux b = ux a + du /\ uy b = uy a + dv.
(** The other direction in the surface that a tangent with handedness [w] stands for. *)
Definition bitangent (pl : brush_plane R) (t : vec3 R * R) (b : vec3 R) : Prop :=
  exists u, unit_of (facing pl) u /\ b = V3 (snd t * vx (outer u (fst t))) (snd t * vy (outer u (fst t))) (snd t * vz (outer u (fst t))).

(** The tangent goes with the texture: along it u grows, along the other direction v gets smaller. *)
Definition follows (pl : brush_plane R) (size : N * N) (t : vec3 R * R) : Prop :=
  exists b du dv du' dv', bitangent pl t b /\ shifts pl size (fst t) du dv /\ 0 < du /\ shifts pl size b du' dv' /\ dv' < 0.

Definition textured (size : N * N) : Prop := (0 < fst size)%N /\ (0 < snd size)%N.
(** A plane that faces along an axis. *)
Definition along (n : vec3 R) : Prop :=
  n <> V3 0 0 0 /\ ((vx n = 0 /\ vy n = 0) \/ (vx n = 0 /\ vz n = 0) \/ (vy n = 0 /\ vz n = 0)).
