(** Axis-aligned boxes with integer corners (C18). *)
From Coq Require Import Reals.
From Verif Require Import Prelude F32 Text MapModel GeoModel FloatProofs ExactProofs.
Local Open Scope Z_scope.

(** A vector of floats with exactly these integer coordinates, or these halves. *)
Definition at_ints (v : vec3 f32) (k : vec3 Z) : Prop := int (vx v) (vx k) /\ int (vy v) (vy k) /\ int (vz v) (vz k).
Definition at_halves (v : vec3 f32) (k : vec3 Z) : Prop := half (vx v) (vx k) /\ half (vy v) (vy k) /\ half (vz v) (vz k).

Inductive box_side := XUp | XDown | YUp | YDown | ZUp | ZDown.
Definition all_sides : list box_side := [XUp; XDown; YUp; YDown; ZUp; ZDown].
(** The outward direction of a side. *)
Definition outward (s : box_side) : vec3 Z :=
  match s with
  | XUp => V3 1 0 0 | XDown => V3 (-1) 0 0 | YUp => V3 0 1 0 | YDown => V3 0 (-1) 0 | ZUp => V3 0 0 1 | ZDown => V3 0 0 (-1)
  end.
Definition on_side (lo hi : vec3 Z) (s : box_side) (x : vec3 Z) : Prop :=
  match s with
  | XUp => vx x = vx hi | XDown => vx x = vx lo | YUp => vy x = vy hi | YDown => vy x = vy lo
  | ZUp => vz x = vz hi | ZDown => vz x = vz lo
  end.
(** The four corners of a side. *)
Definition side_corners (lo hi : vec3 Z) (s : box_side) : list (vec3 Z) :=
  match s with
  | XUp => [V3 (vx hi) (vy lo) (vz lo); V3 (vx hi) (vy hi) (vz lo); V3 (vx hi) (vy lo) (vz hi); V3 (vx hi) (vy hi) (vz hi)]
  | XDown => [V3 (vx lo) (vy lo) (vz lo); V3 (vx lo) (vy hi) (vz lo); V3 (vx lo) (vy lo) (vz hi); V3 (vx lo) (vy hi) (vz hi)]
  | YUp => [V3 (vx lo) (vy hi) (vz lo); V3 (vx hi) (vy hi) (vz lo); V3 (vx lo) (vy hi) (vz hi); V3 (vx hi) (vy hi) (vz hi)]
  | YDown => [V3 (vx lo) (vy lo) (vz lo); V3 (vx hi) (vy lo) (vz lo); V3 (vx lo) (vy lo) (vz hi); V3 (vx hi) (vy lo) (vz hi)]
  | ZUp => [V3 (vx lo) (vy lo) (vz hi); V3 (vx hi) (vy lo) (vz hi); V3 (vx lo) (vy hi) (vz hi); V3 (vx hi) (vy hi) (vz hi)]
  | ZDown => [V3 (vx lo) (vy lo) (vz lo); V3 (vx hi) (vy lo) (vz lo); V3 (vx lo) (vy hi) (vz lo); V3 (vx hi) (vy hi) (vz lo)]
  end.
(** Twice the centre of a side, and of the box. *)
Definition side_center2 (lo hi : vec3 Z) (s : box_side) : vec3 Z :=
  match s with
  | XUp => V3 (2 * vx hi) (vy lo + vy hi) (vz lo + vz hi)
  | XDown => V3 (2 * vx lo) (vy lo + vy hi) (vz lo + vz hi)
  | YUp => V3 (vx lo + vx hi) (2 * vy hi) (vz lo + vz hi)
  | YDown => V3 (vx lo + vx hi) (2 * vy lo) (vz lo + vz hi)
  | ZUp => V3 (vx lo + vx hi) (vy lo + vy hi) (2 * vz hi)
  | ZDown => V3 (vx lo + vx hi) (vy lo + vy hi) (2 * vz lo)
  end.
Definition box_center2 (lo hi : vec3 Z) : vec3 Z := V3 (vx lo + vx hi) (vy lo + vy hi) (vz lo + vz hi).

Definition coords (f : Z -> Prop) (v : vec3 Z) : Prop := f (vx v) /\ f (vy v) /\ f (vz v).
Definition box (lo hi : vec3 Z) : Prop :=
  vx lo < vx hi /\ vy lo < vy hi /\ vz lo < vz hi /\ coords (fun c => Z.abs c <= 2 ^ 20) lo /\ coords (fun c => Z.abs c <= 2 ^ 20) hi.

Definition zminus (a b : vec3 Z) : vec3 Z := V3 (vx a - vx b) (vy a - vy b) (vz a - vz b).
Definition zouter (a b : vec3 Z) : vec3 Z :=
  V3 (vy a * vz b - vz a * vy b) (vz a * vx b - vx a * vz b) (vx a * vy b - vy a * vx b).
Definition ztimes (k : Z) (a : vec3 Z) : vec3 Z := V3 (k * vx a) (k * vy a) (k * vz a).
Definition zinner (a b : vec3 Z) : Z := vx a * vx b + vy a * vy b + vz a * vz b.

(** A plane through three integer points of a side, turned outwards.  [area] is twice the area of the
    triangle; products of edge lengths are bounded so that the cross product is exact. *)
Definition box_plane (lo hi : vec3 Z) (s : box_side) (area : Z) (pl : brush_plane f32) : Prop :=
  exists a b c m n, at_ints (bp_v0 pl) a /\ at_ints (bp_v1 pl) b /\ at_ints (bp_v2 pl) c
    /\ coords (fun k => Z.abs k <= 2 ^ 20) a
    /\ on_side lo hi s a /\ on_side lo hi s b /\ on_side lo hi s c
    /\ 0 < area /\ zouter (zminus c a) (zminus b a) = ztimes area (outward s)
    /\ coords (fun k => Z.abs k <= m) (zminus c a) /\ coords (fun k => Z.abs k <= n) (zminus b a) /\ m * n < 2 ^ 23
    /\ m < 2 ^ 23 /\ n < 2 ^ 23.

(** The scalar build of the vector library multiplies by a rounded reciprocal, exact for powers of two. *)
Definition exact_length (p : platform) (area : Z) : Prop := p_simd p = true \/ exists n, 0 <= n /\ area = 2 ^ n.

(** Every plane is one of the box's and every side occurs. *)
Definition box_brush (p : platform) (lo hi : vec3 Z) (b : list (brush_plane f32)) : Prop :=
  (forall pl, In pl b -> exists s area, box_plane lo hi s area pl /\ exact_length p area)
  /\ (forall s, exists pl area, In pl b /\ box_plane lo hi s area pl /\ exact_length p area).
