(** Accuracy of texture coordinates in single precision (C101). *)
From Coq Require Import Reals.
From Verif Require Import Prelude F32 Text MapModel GeoModel NumberSpec RealSpec ErrorSpec.
Local Open Scope R_scope.

(** A coordinate in the texture: texels scaled, shifted by the offset, relative to the size. *)
Definition coordinate (texel scale offset : R) (size : N) : R := (texel / scale + offset) / IZR (Z.of_N size).
(** An error of [k] times the terms' sizes, if [texel] is a bound of the texels. *)
Definition coordinate_error (k texel scale offset : R) (size : N) : R :=
  k * ((texel / Rabs scale + Rabs offset) / IZR (Z.of_N size)) + / 10 ^ 30.

(** Sane numbers: no overflow and no division by zero. *)
Definition sane_scale (s : f32) : Prop := finite s /\ / 2 ^ 20 <= Rabs (val s) <= 2 ^ 20.
Definition sane_offset (o : f32) : Prop := finite o /\ Rabs (val o) <= 2 ^ 40.
Definition sane_axis (a : vec3 f32) : Prop := finite_point a /\ extent 4 (point_of a).
Definition sane_size (n : N) : Prop := (1 <= n <= 2 ^ 20)%N.

(** The direction [n] is along the axis, up to rounding. *)
Definition nearly (n : vec3 R) (a : axis) : Prop :=
  let t := 1 + / 2 ^ 20 in
  match a with
  | AxisZ => Rabs (vy n) <= t * Rabs (vz n) /\ Rabs (vx n) <= t * Rabs (vz n)
  | AxisY => Rabs (vz n) <= t * Rabs (vy n) /\ Rabs (vx n) <= t * Rabs (vy n)
  | AxisX => Rabs (vz n) <= t * Rabs (vx n) /\ Rabs (vy n) <= t * Rabs (vx n)
  end.

(** The vector turned by an angle with this cosine and sine. *)
Definition turned_by (c s : R) (t : vec2 R) : vec2 R := V2 (c * ux t - s * uy t) (s * ux t + c * uy t).
Definition length2 (t : vec2 R) : R := sqrt (ux t * ux t + uy t * uy t).
(** The machine's rotation by the angle written on the plane is one by an angle with this cosine and sine, up to
    [d] times the length. *)
Definition turns (p : platform) (rotation : f32) (c s d : R) : Prop :=
  c * c + s * s = 1 /\ 0 <= d <= / 2 ^ 10 /\ forall t, finite (ux t) -> finite (uy t) -> Rabs (val (ux t)) <= 2 ^ 33 -> Rabs (val (uy t)) <= 2 ^ 33 ->
    let r := p_mat2_rotate p (p_to_radians p rotation) t in
    let exact := turned_by c s (V2 (val (ux t)) (val (uy t))) in
    finite (ux r) /\ finite (uy r)
    /\ Rabs (val (ux r) - ux exact) <= d * length2 (V2 (val (ux t)) (val (uy t)))
    /\ Rabs (val (uy r) - uy exact) <= d * length2 (V2 (val (ux t)) (val (uy t))).
