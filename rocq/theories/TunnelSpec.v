(** Lines through boxes, in single precision: specification of C154. *)
From Coq Require Import Reals.
From Verif Require Import Prelude F32 Text MapModel GeoModel DiffSpec MapSpec RealSpec WindSpec ErrorSpec PointsSpec BoxSpec ShellSpec BrickSpec CartonSpec CladSpec RaySpec.
Local Open Scope R_scope.

(** Inside the box and not on its surface. *)
Definition deep_in (lo hi : vec3 Z) (x : vec3 R) : Prop :=
  IZR (vx lo) < vx x < IZR (vx hi) /\ IZR (vy lo) < vy x < IZR (vy hi) /\ IZR (vz lo) < vz x < IZR (vz hi).
(** The point is on a triangle of the brush, where the floats put it. *)
Definition on_faces (b : brush_geo f32) (x : vec3 R) : Prop :=
  exists f, In f (bg_faces b) /\ covered (drawn_triangles (map point_of (map vt_pos (f_vertices f))) (f_indices f)) x.
(** The ray from [o] in the direction [w] passes the triangles of the brush at exactly [n] points. *)
Definition passes32 (b : brush_geo f32) (o w : vec3 R) (n : nat) : Prop :=
  exists l, NoDup l /\ length l = n /\ forall t, In t l <-> 0 < t /\ on_faces b (onwards o w t).

(** The triangles are those of some of the boxes of one entity, and there is no straight way out of any of these past the triangles. *)
Definition holds_boxes (p : platform) (r : Z) (d : doc) (l : list corner3) : Prop :=
  exists e chosen boxes, In e d /\ subseq chosen (doc_brushes e) /\ chosen <> [] /\ Forall2 (block_of p r) chosen boxes
    /\ forall lo hi x y, In (lo, hi) boxes -> deep_in lo hi x -> ~ in_box lo hi y -> exists s, 0 < s < 1 /\ covered l (towards x y s).
