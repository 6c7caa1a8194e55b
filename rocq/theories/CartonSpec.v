(** Convex collision shapes of boxes, in single precision: specification of C148. *)
From Coq Require Import Reals.
From Verif Require Import Prelude F32 Text MapModel GeoModel SceneModel MapSpec RealSpec WindSpec ErrorSpec PointsSpec BoxSpec.
Local Open Scope R_scope.

(** The points of a box, and its corners. *)
Definition in_box (lo hi : vec3 Z) (x : vec3 R) : Prop :=
  IZR (vx lo) <= vx x <= IZR (vx hi) /\ IZR (vy lo) <= vy x <= IZR (vy hi) /\ IZR (vz lo) <= vz x <= IZR (vz hi).
Definition box_corner (lo hi k : vec3 Z) : Prop :=
  (vx k = vx lo \/ vx k = vx hi) /\ (vy k = vy lo \/ vy k = vy hi) /\ (vz k = vz lo \/ vz k = vz hi).

(** The points are at the corners of the box, at every one, and their convex hull is the box: exactly. *)
Definition packs (lo hi : vec3 Z) (l : list (vec3 f32)) : Prop :=
  (forall q, In q l -> exists k, box_corner lo hi k /\ at_ints q k)
  /\ (forall k, box_corner lo hi k -> exists q, In q l /\ at_ints q k)
  /\ forall x, in_hull (map point_of l) x <-> in_box lo hi x.

(** Every brush written in the document is a box with integer corners. *)
Definition boxes_document (p : platform) (d : doc) : Prop :=
  forall e lines planes, In e d -> In lines (doc_brushes e) -> Forall2 (reads_as p) lines planes -> exists lo hi, box lo hi /\ box_brush p lo hi planes.
