(** Where centres lie (C94). *)
From Coq Require Import Reals.
From Verif Require Import Prelude F32 Text MapModel GeoModel GeoSpec RealSpec WindSpec SolidSpec WindWitness SolidWitness CentreProofs CentreWitness.
Local Open Scope R_scope.

(** C94: centres of faces and brushes, which the scene places nodes and convex shapes at, lie in the brush.  Over exact arithmetic
    the centre of a face with corners is on the face's plane and, like the corners, within 0.001 of the brush. *)
Theorem C94_face : forall parse cosine radians atan2 quat mat2 tx e planes plane f,
  build_face (real_num parse cosine radians atan2 quat mat2) tx e planes plane = Ok f -> f_vertices f <> [] ->
  on_plane plane (f_center f) /\ forall q, In q planes -> within (/ 1000) q (f_center f).
Proof. exact face_centre. Qed.
Print Assumptions C94_face.

(** A face without corners has its centre at the origin, and it counts: a cube with one plane that does not touch it has its centre
    more than a quarter of a unit in front of one of its sides. *)
Theorem C94_empty : forall parse cosine radians atan2 quat mat2 tx e planes plane f,
  build_face (real_num parse cosine radians atan2 quat mat2) tx e planes plane = Ok f -> f_vertices f = [] -> f_center f = V3 0 0 0.
Proof. exact empty_centre. Qed.
Print Assumptions C94_empty.

Theorem C94_refuted : forall parse cosine radians atan2 quat mat2 tx e, exists planes b q,
  build_brush (real_num parse cosine radians atan2 quat mat2) tx e planes = Ok b
  /\ (forall q, In q planes -> proper q) /\ bounded (solid planes)
  /\ (exists x, forall q, In q planes -> inner (facing q) (minus x (bp_v0 q)) < 0)
  /\ In q planes /\ ~ within (/ 4) q (bg_center b).
Proof. exact outside. Qed.
Print Assumptions C94_refuted.

(** It holds when every face has a corner ... *)
Theorem C94_brush_partial : forall parse cosine radians atan2 quat mat2 tx e planes b,
  build_brush (real_num parse cosine radians atan2 quat mat2) tx e planes = Ok b -> planes <> [] ->
  (forall f, In f (bg_faces b) -> f_vertices f <> []) -> forall q, In q planes -> within (/ 1000) q (bg_center b).
Proof. exact brush_centre. Qed.
Print Assumptions C94_brush_partial.

(** ... and without the tolerance when no corner relies on it: the centre is strictly behind every plane that some corner is not on. *)
Theorem C94_strict_partial : forall parse cosine radians atan2 quat mat2 tx e planes b q f v,
  build_brush (real_num parse cosine radians atan2 quat mat2) tx e planes = Ok b ->
  (forall f, In f (bg_faces b) -> f_vertices f <> [] /\ crisp planes f) ->
  In q planes -> In f (bg_faces b) -> In v (f_vertices f) -> ~ on_plane q (vt_pos v) ->
  inner (facing q) (minus (bg_center b) (bp_v0 q)) < 0.
Proof. exact brush_centre_strict. Qed.
Print Assumptions C94_strict_partial.

(** An entity without origin is placed in the convex hull of its brushes' centres. *)
Theorem C94_entity : forall parse cosine radians atan2 quat mat2 tx e g,
  build_entity_geo (real_num parse cosine radians atan2 quat mat2) tx e = Ok g -> hget (e_props e) (lit "origin") = None -> e_brushes e <> [] ->
  in_hull (map bg_center (eg_brushes g)) (eg_center g).
Proof. exact entity_centre. Qed.
Print Assumptions C94_entity.

(** The unit cube meets the conditions. *)
Example C94_example : forall parse cosine radians atan2 quat mat2 tx e, exists b,
  build_brush (real_num parse cosine radians atan2 quat mat2) tx e cube = Ok b
  /\ (forall f, In f (bg_faces b) -> f_vertices f <> [] /\ crisp cube f)
  /\ exists f v, In f (bg_faces b) /\ In v (f_vertices f) /\ ~ on_plane lid (vt_pos v).
Proof. exact cube_centre. Qed.
