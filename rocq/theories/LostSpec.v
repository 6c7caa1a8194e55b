(** Brushes with a plane through fewer than three places: specification of C137. *)
From Coq Require Import SpecFloat.
From Verif Require Import Prelude F32 Text MapModel GeoModel SceneModel GatherSpec GeoSpec MapSpec PointsSpec.

(** No number in any coordinate. *)
Definition lost (v : vec3 f32) : Prop := vx v = S754_nan /\ vy v = S754_nan /\ vz v = S754_nan.

(** Two of the points of the plane coincide, or a coordinate of one of them is infinite or no number. *)
Definition unfit (p : platform) (pl : brush_plane f32) : Prop :=
  pos_eq (f32_num p) (bp_v0 pl) (bp_v1 pl) \/ pos_eq (f32_num p) (bp_v0 pl) (bp_v2 pl) \/ pos_eq (f32_num p) (bp_v1 pl) (bp_v2 pl)
  \/ ~ finite_vec (bp_v0 pl) \/ ~ finite_vec (bp_v1 pl) \/ ~ finite_vec (bp_v2 pl).

(** A face all of whose corners are lost, and there are some. *)
Definition lost_face (f : face f32) : Prop :=
  f_vertices f <> [] /\ lost (f_center f) /\ Forall (fun v => lost (vt_pos v)) (f_vertices f).

(** A written entity without "origin", one of whose plane lines stands for an unfit plane. *)
Definition marred (p : platform) (e : doc_entity) : Prop :=
  doc_value e (lit "origin") = None /\ exists lines l pl, In lines (doc_brushes e) /\ In l lines /\ reads_as p l pl /\ unfit p pl.

(** The place of a node. *)
Definition node_place {T} (n : node T) : vec3 T :=
  match n with NActor o _ _ => o | NVisual o _ => o | NCollision o _ => o end.
(** An actor that is nowhere, and everything directly below it is nowhere. *)
Definition nowhere (n : node f32) : Prop :=
  exists o a ch, n = NActor o a ch /\ lost o /\ Forall (fun m => lost (node_place m)) ch.
