(** Integer boxes are closed in single precision (C130). *)
From Coq Require Import Reals.
From Verif Require Import Prelude F32 Text MapModel GeoModel BoxSpec.
Local Open Scope Z_scope.

(** No edge of the box is more than [r] times as long as another. *)
Definition slender (r : Z) (lo hi : vec3 Z) : Prop :=
  let a := vx hi - vx lo in let b := vy hi - vy lo in let c := vz hi - vz lo in
  a <= r * b /\ b <= r * a /\ b <= r * c /\ c <= r * b /\ a <= r * c /\ c <= r * a.

(** Three points turn clockwise, seen from outside. *)
Definition turns (s : box_side) (a b c : vec3 Z) : Prop := zinner (outward s) (zouter (zminus b a) (zminus c a)) < 0.

(** From one corner of a face to the next, the last being followed by the first; the coordinates of the corners are exactly these integers. *)
Definition runs (f : face f32) (a b : vec3 Z) : Prop :=
  exists i u v, nth_error (f_vertices f) i = Some u /\ nth_error (f_vertices f) (S i mod length (f_vertices f)) = Some v
    /\ at_ints (vt_pos u) a /\ at_ints (vt_pos v) b.
