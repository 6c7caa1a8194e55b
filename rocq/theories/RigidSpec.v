(** Turning and moving a brush as a map editor does with its texture lock (C119). *)
From Coq Require Import Reals.
From Verif Require Import Prelude F32 Text MapModel GeoModel LayerModel GameDataModel SceneModel RealSpec WindSpec.
Local Open Scope R_scope.

(** A rotation about the origin: a linear map that keeps inner products and takes the outer product of two vectors to the
    outer product of their images. *)
Definition rotation (M : vec3 R -> vec3 R) : Prop :=
  (forall a b, M (along b a) = along (M b) (M a)) /\
  (forall k a, M (V3 (k * vx a) (k * vy a) (k * vz a)) = V3 (k * vx (M a)) (k * vy (M a)) (k * vz (M a))) /\
  (forall a b, inner (M a) (M b) = inner a b) /\
  (forall a b, outer (M a) (M b) = M (outer a b)).

(** Turned by [M], then moved by [t]. *)
Definition carry (M : vec3 R -> vec3 R) (t x : vec3 R) : vec3 R := along t (M x).

(** Texture lock: the texture's axes turn with the brush and the offsets (in pixels) undo the move. *)
Definition carried_uv (M : vec3 R -> vec3 R) (t : vec3 R) (scale : vec2 R) (c : uv R) : uv R :=
  match c with
  | UVQuake u v => UVQuake u v
  | UVValve ua uo va vo =>
    UVValve (M ua) (uo - inner (M ua) t / ux scale) (M va) (vo - inner (M va) t / uy scale)
  end.
Definition carried_plane (M : vec3 R -> vec3 R) (t : vec3 R) (pl : brush_plane R) : brush_plane R :=
  BrushPlane (carry M t (bp_v0 pl)) (carry M t (bp_v1 pl)) (carry M t (bp_v2 pl)) (bp_texture pl)
    (carried_uv M t (bp_scale pl) (bp_uv pl)) (bp_rotation pl) (bp_scale pl) (bp_extra pl).

Definition locked (pl : brush_plane R) : Prop := exists ua uo va vo, bp_uv pl = UVValve ua uo va vo.

Definition carried_vertex (M : vec3 R -> vec3 R) (t : vec3 R) (lock : Prop) (v w : vertex R) : Prop :=
  vt_pos w = carry M t (vt_pos v) /\ vt_normal w = M (vt_normal v) /\ vt_color w = vt_color v /\
  (lock -> vt_tangent w = (M (fst (vt_tangent v)), snd (vt_tangent v)) /\ vt_uv w = vt_uv v).

Definition carried_face (M : vec3 R -> vec3 R) (t : vec3 R) (lock : Prop) (f g : face R) : Prop :=
  (f_vertices f <> [] -> f_center g = carry M t (f_center f)) /\
  Forall2 (carried_vertex M t lock) (f_vertices f) (f_vertices g) /\
  f_indices g = f_indices f /\ f_texture g = f_texture f.

(** Every face of the brush has corners. *)
Definition full (b : brush_geo R) : Prop := bg_faces b <> [] /\ forall f, In f (bg_faces b) -> f_vertices f <> [].

Definition carried_brush (M : vec3 R -> vec3 R) (t : vec3 R) (lock : Prop) (b c : brush_geo R) : Prop :=
  (full b -> bg_center c = carry M t (bg_center b)) /\
  Forall2 (carried_face M t lock) (bg_faces b) (bg_faces c).

(** ** Scenes *)
(** [h] says where the stated centre of a concave shape goes. *)
Definition carried_convex (M : vec3 R -> vec3 R) (t : vec3 R) (a b : convex R) : Prop :=
  cx_center b = carry M t (cx_center a) /\ cx_points b = map (carry M t) (cx_points a).
Definition carried_concave (M : vec3 R -> vec3 R) (t : vec3 R) (h : vec3 R -> vec3 R) (a b : concave R) : Prop :=
  cc_center b = h (cc_center a) /\ cc_vertices b = map (carry M t) (cc_vertices a) /\ cc_indices b = cc_indices a.
Definition carried_collision (M : vec3 R -> vec3 R) (t : vec3 R) (h : vec3 R -> vec3 R) (a b : collision R) : Prop :=
  match a, b with
  | ColNone, ColNone => True
  | ColConvex l, ColConvex l' => Forall2 (carried_convex M t) l l'
  | ColConcave l, ColConcave l' => Forall2 (carried_concave M t h) l l'
  | _, _ => False
  end.
Definition carried_surface (M : vec3 R -> vec3 R) (t : vec3 R) (a b : surface R) : Prop :=
  s_texture b = s_texture a /\ s_vertices b = map (carry M t) (s_vertices a) /\ s_normals b = map M (s_normals a) /\
  s_tangents b = map (fun x => (M (fst x), snd x)) (s_tangents a) /\ s_uvs b = s_uvs a /\ s_colors b = s_colors a /\
  s_indices b = s_indices a.
Definition carried_visual (M : vec3 R -> vec3 R) (t : vec3 R) (a b : visual R) : Prop :=
  match a, b with
  | VisNone, VisNone => True
  | VisMesh l, VisMesh l' => Forall2 (carried_surface M t) l l'
  | _, _ => False
  end.

(** The same actor; its "origin", if that is one of its declared properties, may be another. *)
Definition carried_actor (a b : actor R) : Prop :=
  a_name b = a_name a /\ a_type b = a_type a /\ a_component b = a_component a /\ a_application b = a_application a /\
  forall k, k <> lit "origin" -> hget (a_properties b) k = hget (a_properties a) k.

(** [f]: where the origin of the node goes if it is an actor; [h]: where those of geometry go.  Actors within actors are
    placed relative to them: they turn. *)
Inductive carried_node (M : vec3 R -> vec3 R) (t : vec3 R) (h f : vec3 R -> vec3 R) : node R -> node R -> Prop :=
| CarriedActor o a a' l l' : carried_actor a a' -> Forall2 (carried_node M t h M) l l' -> carried_node M t h f (NActor o a l) (NActor (f o) a' l')
| CarriedVisual o v v' : carried_visual M t v v' -> carried_node M t h f (NVisual o v) (NVisual (h o) v')
| CarriedCollision o k k' : carried_collision M t h k k' -> carried_node M t h f (NCollision o k) (NCollision (h o) k').

(** An "origin" of three numbers. *)
Definition stated (parse : str -> option R) (e : entity R) (c : vec3 R) : Prop :=
  exists x y z, hget (e_props e) (lit "origin") = Some (x ++ [32%N] ++ y ++ [32%N] ++ z) /\ ~ In 32%N x /\ ~ In 32%N y /\ ~ In 32%N z /\
    parse x = Some (vx c) /\ parse y = Some (vy c) /\ parse z = Some (vz c).
(** The entity carried: all planes with texture lock, the "origin" too if it has one; if not, it has brushes. *)
Definition carried_entity (parse : str -> option R) (M : vec3 R -> vec3 R) (t : vec3 R) (e e' : entity R) : Prop :=
  e_brushes e' = map (map (carried_plane M t)) (e_brushes e) /\
  (forall k, k <> lit "origin" -> hget (e_props e') k = hget (e_props e) k) /\
  (hget (e_props e) (lit "origin") = None /\ hget (e_props e') (lit "origin") = None /\ e_brushes e <> []
   \/ exists c, stated parse e c /\ stated parse e' (carry M t c)).

(** Everything after reading the map file, in exact arithmetic (src/lib.rs:65-84, as in [run]); layers in the order they are made. *)
Definition exact_scene (O : num R) (fuel : nat) (gd : game_data R) (fd : forge_data R) (bl : blacklist) (tx : texture_info)
  (es : list (entity R)) : res (list (node R)) :=
  geometry <- build_geometry O tx es ;;
  '(data, layers) <- layer_filter (combine es geometry) ;;
  build_scene O fuel gd fd bl data layers.

(** World and entities go along, the geometry of layers too, but layers stay at the origin. *)
Definition carried_scene (M : vec3 R -> vec3 R) (t : vec3 R) (nodes nodes' : list (node R)) : Prop :=
  exists world layers rest world' layers' rest', nodes = world :: layers ++ rest /\ nodes' = world' :: layers' ++ rest' /\
    carried_node M t (carry M t) (carry M t) world world' /\
    Forall2 (carried_node M t (fun x => x) (fun x => x)) layers layers' /\
    Forall2 (carried_node M t (carry M t) (carry M t)) rest rest'.
