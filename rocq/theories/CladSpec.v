(** Triangles of boxes against the boxes, in single precision: specification of C153. *)
From Coq Require Import Reals.
From Verif Require Import Prelude F32 Text MapModel GeoModel DiffSpec MapSpec RealSpec WindSpec ErrorSpec PointsSpec BoxSpec ShellSpec BrickSpec CartonSpec.
Local Open Scope R_scope.

(** The surface of a box, and one of its sides. *)
Definition on_box (lo hi : vec3 Z) (x : vec3 R) : Prop :=
  in_box lo hi x /\ (vx x = IZR (vx lo) \/ vx x = IZR (vx hi) \/ vy x = IZR (vy lo) \/ vy x = IZR (vy hi) \/ vz x = IZR (vz lo) \/ vz x = IZR (vz hi)).
Definition side_point (lo hi : vec3 Z) (s : box_side) (x : vec3 R) : Prop :=
  in_box lo hi x /\ match s with
    | XUp => vx x = IZR (vx hi) | XDown => vx x = IZR (vx lo) | YUp => vy x = IZR (vy hi) | YDown => vy x = IZR (vy lo) | ZUp => vz x = IZR (vz hi) | ZDown => vz x = IZR (vz lo) end.
(** The point is on one of the triangles. *)
Definition covered (l : list corner3) (x : vec3 R) : Prop := exists a b c, In (a, b, c) l /\ in_triangle a b c x.

(** The points of the triangles are exactly those of the surfaces of some of the brushes of one entity, which are boxes. *)
Definition clads_boxes (p : platform) (r : Z) (d : doc) (l : list corner3) : Prop :=
  exists e chosen boxes, In e d /\ subseq chosen (doc_brushes e) /\ chosen <> [] /\ Forall2 (block_of p r) chosen boxes
    /\ forall x, covered l x <-> exists lo hi, In (lo, hi) boxes /\ on_box lo hi x.
