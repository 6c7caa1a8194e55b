(** Solid geometry over the real numbers (C16). *)
From Coq Require Import Reals.
From Flocq Require Import Core.
From Verif Require Import Prelude F32 Text MapModel GeoModel.
Local Open Scope R_scope.

(** The geometry code over exact arithmetic.  What does not concern positions is left open. *)
Definition real_num (parse : str -> option R) (cosine radians : R -> R) (atan2 : R -> R -> R)
  (quat : vec3 R -> R -> vec3 R -> vec3 R) (mat2 : R -> vec2 R -> vec2 R) : num R := {|
  n_zero := 0; n_one := 1; n_add := Rplus; n_sub := Rminus; n_mul := Rmult; n_div := Rdiv; n_neg := Ropp; n_vneg := Ropp;
  n_abs := Rabs; n_sqrt := sqrt;
  n_signum := fun x => if Rle_dec 0 x then 1 else -1;
  n_cmp := fun a b => Some (Rcompare a b);
  n_of_N := fun n => IZR (Z.of_N n);
  n_eps := / 1000; n_degree := 174533 / 10000000; n_centi := / 100;
  n_parse := parse; n_cos := cosine; n_atan2 := atan2; n_to_radians := radians;
  n_normalize := normalize_with Rplus Rmult Rdiv sqrt 1 true;
  n_quat_rotate := quat; n_mat2_rotate := mat2 |}.

(** ** Planes through three points *)
Definition minus (a b : vec3 R) : vec3 R := V3 (vx a - vx b) (vy a - vy b) (vz a - vz b).
Definition inner (a b : vec3 R) : R := vx a * vx b + vy a * vy b + vz a * vz b.
Definition outer (a b : vec3 R) : vec3 R :=
  V3 (vy a * vz b - vz a * vy b) (vz a * vx b - vx a * vz b) (vx a * vy b - vy a * vx b).
Definition norm (a : vec3 R) : R := sqrt (inner a a).

(** The direction a plane faces, not normalised. *)
Definition facing (pl : brush_plane R) : vec3 R := outer (minus (bp_v2 pl) (bp_v0 pl)) (minus (bp_v1 pl) (bp_v0 pl)).
Definition on_plane (pl : brush_plane R) (x : vec3 R) : Prop := inner (facing pl) (minus x (bp_v0 pl)) = 0.
(** Not more than [d] in front of the plane. *)
Definition within (d : R) (pl : brush_plane R) (x : vec3 R) : Prop :=
  inner (facing pl) (minus x (bp_v0 pl)) <= d * norm (facing pl).
Definition proper (pl : brush_plane R) : Prop := norm (facing pl) <> 0.
(** The three planes meet in that order in a corner that is not too flat. *)
Definition spans (p0 p1 p2 : brush_plane R) : Prop :=
  / 1000 * (norm (facing p0) * norm (facing p1) * norm (facing p2)) <= inner (outer (facing p0) (facing p1)) (facing p2).

(** ** Texture coordinates and tangents *)
(** The axis a plane mostly faces; z wins over y, y over x. *)
Inductive axis := AxisX | AxisY | AxisZ.
Definition mostly (n : vec3 R) (a : axis) : Prop :=
  match a with
  | AxisZ => Rabs (vy n) <= Rabs (vz n) /\ Rabs (vx n) <= Rabs (vz n)
  | AxisY => Rabs (vz n) < Rabs (vy n) /\ Rabs (vx n) <= Rabs (vy n)
  | AxisX => Rabs (vz n) < Rabs (vx n) /\ Rabs (vy n) < Rabs (vx n)
  end.
Definition projected (a : axis) (x : vec3 R) : vec2 R :=
  match a with
  | AxisZ => V2 (vx x) (- vy x)
  | AxisY => V2 (vx x) (- vz x)
  | AxisX => V2 (vy x) (- vz x)
  end.
(** Texture coordinates from texels: scaled, shifted by the offset, relative to the texture's size. *)
Definition texels (scale offset : vec2 R) (size : N * N) (t : vec2 R) : vec2 R :=
  V2 ((ux t / ux scale + ux offset) / IZR (Z.of_N (fst size))) ((uy t / uy scale + uy offset) / IZR (Z.of_N (snd size))).
Definition uv_of (radians : R -> R) (mat2 : R -> vec2 R -> vec2 R) (pl : brush_plane R) (size : N * N) (x : vec3 R) (t : vec2 R) : Prop :=
  match bp_uv pl with
  | UVQuake u v => exists a, mostly (facing pl) a
      /\ t = texels (bp_scale pl) (V2 u v) size (mat2 (radians (bp_rotation pl)) (projected a x))
  | UVValve u_axis u v_axis v => t = texels (bp_scale pl) (V2 u v) size (V2 (inner u_axis x) (inner v_axis x))
  end.
Definition sign (x : R) (s : R) : Prop := (0 <= x /\ s = 1) \/ (x < 0 /\ s = -1).
(** The unit vector along the plane's direction, null for a degenerate plane. *)
Definition unit_of (n u : vec3 R) : Prop :=
  (norm n = 0 /\ u = V3 0 0 0) \/ (norm n <> 0 /\ u = V3 (vx n / norm n) (vy n / norm n) (vz n / norm n)).
(** The tangent before it is turned about the normal, and its handedness. *)
Definition base_tangent (n : vec3 R) (a : axis) (t : vec3 R) (s : R) : Prop :=
  match a with
  | AxisZ => t = V3 1 0 0 /\ sign (vz n) s
  | AxisY => t = V3 1 0 0 /\ sign (vy n) (- s)
  | AxisX => t = V3 0 1 0 /\ sign (vx n) s
  end.
Definition tangent_of (radians : R -> R) (quat : vec3 R -> R -> vec3 R -> vec3 R) (pl : brush_plane R) (t : vec3 R) (w : R) : Prop :=
  match bp_uv pl with
  | UVQuake _ _ => exists a b s u k, mostly (facing pl) a /\ base_tangent (facing pl) a b s /\ unit_of (facing pl) u
      /\ t = quat u (- radians (bp_rotation pl) * s) b /\ sign (uy (bp_scale pl)) k /\ w = s * k
  | UVValve u_axis _ v_axis _ => t = u_axis /\ sign (inner (outer (facing pl) u_axis) v_axis) (- w)
  end.
