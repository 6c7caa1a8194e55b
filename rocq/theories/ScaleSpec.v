(** Enlarging or shrinking a map (C122). *)
From Coq Require Import Reals.
From Verif Require Import Prelude F32 Text MapModel GeoModel LayerModel GameDataModel SceneModel RealSpec WindSpec RigidSpec.
Local Open Scope R_scope.

Definition grow (k : R) (x : vec3 R) : vec3 R := V3 (k * vx x) (k * vy x) (k * vz x).
(** The plane enlarged with its texture. *)
Definition grown_plane (k : R) (pl : brush_plane R) : brush_plane R :=
  BrushPlane (grow k (bp_v0 pl)) (grow k (bp_v1 pl)) (grow k (bp_v2 pl)) (bp_texture pl) (bp_uv pl) (bp_rotation pl)
    (V2 (k * ux (bp_scale pl)) (k * uy (bp_scale pl))) (bp_extra pl).

(** The tolerance for points in front of a plane, which does not grow along, decides no case otherwise: a point where three planes meet is
    behind a plane up to the tolerance exactly if it is so once enlarged. *)
Definition roomy (k : R) (planes : list (brush_plane R)) : Prop := forall p0 p1 p2 q x,
  In p0 planes -> In p1 planes -> In p2 planes -> In q planes -> spans p0 p1 p2 -> proper p0 -> proper p1 -> proper p2 ->
  on_plane p0 x -> on_plane p1 x -> on_plane p2 x -> (within (/ 1000) q x <-> within (/ 1000 / k) q x).

(** Turning in the plane of the texture is linear, as a rotation is. *)
Definition homogeneous (mat2 : R -> vec2 R -> vec2 R) : Prop := forall k a x, mat2 a (V2 (k * ux x) (k * uy x)) = V2 (k * ux (mat2 a x)) (k * uy (mat2 a x)).

Definition grown_vertex (k : R) (v w : vertex R) : Prop :=
  vt_pos w = grow k (vt_pos v) /\ vt_normal w = vt_normal v /\ vt_color w = vt_color v /\ vt_tangent w = vt_tangent v /\ vt_uv w = vt_uv v.
Definition grown_face (k : R) (f g : face R) : Prop :=
  f_center g = grow k (f_center f) /\ Forall2 (grown_vertex k) (f_vertices f) (f_vertices g) /\ f_indices g = f_indices f /\ f_texture g = f_texture f.
Definition grown_brush (k : R) (b c : brush_geo R) : Prop :=
  bg_center c = grow k (bg_center b) /\ Forall2 (grown_face k) (bg_faces b) (bg_faces c).

(** ** Scenes *)
Definition grown_convex (k : R) (a b : convex R) : Prop := cx_center b = grow k (cx_center a) /\ cx_points b = map (grow k) (cx_points a).
Definition grown_concave (k : R) (a b : concave R) : Prop :=
  cc_center b = grow k (cc_center a) /\ cc_vertices b = map (grow k) (cc_vertices a) /\ cc_indices b = cc_indices a.
Definition grown_collision (k : R) (a b : collision R) : Prop :=
  match a, b with
  | ColNone, ColNone => True
  | ColConvex l, ColConvex l' => Forall2 (grown_convex k) l l'
  | ColConcave l, ColConcave l' => Forall2 (grown_concave k) l l'
  | _, _ => False
  end.
Definition grown_surface (k : R) (a b : surface R) : Prop :=
  s_texture b = s_texture a /\ s_vertices b = map (grow k) (s_vertices a) /\ s_normals b = s_normals a /\
  s_tangents b = s_tangents a /\ s_uvs b = s_uvs a /\ s_colors b = s_colors a /\ s_indices b = s_indices a.
Definition grown_visual (k : R) (a b : visual R) : Prop :=
  match a, b with
  | VisNone, VisNone => True
  | VisMesh l, VisMesh l' => Forall2 (grown_surface k) l l'
  | _, _ => False
  end.
(** All origins, absolute ones and relative ones, grow. *)
Inductive grown_node (k : R) : node R -> node R -> Prop :=
| GrownActor o a a' l l' : carried_actor a a' -> Forall2 (grown_node k) l l' -> grown_node k (NActor o a l) (NActor (grow k o) a' l')
| GrownVisual o v v' : grown_visual k v v' -> grown_node k (NVisual o v) (NVisual (grow k o) v')
| GrownCollision o c c' : grown_collision k c c' -> grown_node k (NCollision o c) (NCollision (grow k o) c').

Definition grown_entity (parse : str -> option R) (k : R) (e e' : entity R) : Prop :=
  e_brushes e' = map (map (grown_plane k)) (e_brushes e) /\
  (forall s, s <> lit "origin" -> hget (e_props e') s = hget (e_props e) s) /\
  (hget (e_props e) (lit "origin") = None /\ hget (e_props e') (lit "origin") = None
   \/ exists c, stated parse e c /\ stated parse e' (grow k c)).
