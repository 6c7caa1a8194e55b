(** True corners of the map file against the points of whole runs (C98, C99). *)
From Coq Require Import Reals.
From Verif Require Import Prelude F32 Text MapModel GeoModel GameDataModel SceneModel MapSpec LayerSpec TreeSpec RealSpec ErrorSpec.
Local Open Scope R_scope.

(** The entities of a document that appear in its tree: the worldspawn, those without group, and those in the group of one that appears. *)
Inductive in_tree (d : doc) : doc_entity -> Prop :=
| TreeWorld e : In e d -> doc_value e (lit "classname") = Some (lit "worldspawn") -> in_tree d e
| TreeTop e : In e d -> doc_value e (lit "_tb_group") = None -> in_tree d e
| TreeMember e e' g : in_tree d e -> In e' d -> doc_value e' (lit "_tb_group") = Some g -> doc_value e (lit "_tb_id") = Some g -> in_tree d e'.

(** The texture name of a side; a texture that is not loaded has none. *)
Definition side_texture (tx : texture_info) (pl : brush_plane f32) : option str :=
  match hget tx (bp_texture pl) with Some _ => Some (bp_texture pl) | None => None end.

(** The brush is not taken out of the worldspawn to become part of a layer. *)
Definition stays (tx : texture_info) (e : doc_entity) (planes : list (brush_plane f32)) : Prop :=
  doc_value e (lit "classname") <> Some (lit "worldspawn")
  \/ (exists q, In q planes /\ side_texture tx q <> Some water) /\ (exists q, In q planes /\ side_texture tx q <> Some slime).
(** The brush becomes part of the layer [t]. *)
Definition moved (tx : texture_info) (e : doc_entity) (planes : list (brush_plane f32)) (t : str) : Prop :=
  doc_value e (lit "classname") = Some (lit "worldspawn") /\ (t = water \/ t = slime) /\ forall q, In q planes -> side_texture tx q = Some t.

(** Neither the brush nor the side is on the blacklist. *)
Definition visible (tx : texture_info) (bl : blacklist) (planes : list (brush_plane f32)) (pl : brush_plane f32) : Prop :=
  (exists q, In q planes /\ forall t, side_texture tx q = Some t -> ~ In t (bl_brush bl)) /\ (forall t, side_texture tx pl = Some t -> ~ In t (bl_plane bl)).

(** How the brushes of a class are shown. *)
Definition brush_class (gd : game_data f32) (e : doc_entity) (bd : brush_data) : Prop :=
  exists c k q, doc_value e (lit "classname") = Some c /\ first_with (fun k => ed_classname k = c) (gd_entities gd) k /\ ed_data k = GameDataModel.DBrush q bd.

(** [x] is a corner of the solid where the plane [p0] and two others meet, none of them nearly parallel, and the solid
    is near enough to the origin.  [g] bounds the error of the computed corner. *)
Definition clear_corner (b : list (brush_plane R)) (p0 : brush_plane R) (x : vec3 R) (g : R) : Prop :=
  exists p1 p2, In p1 b /\ In p2 b /\ on_plane p0 x /\ on_plane p1 x /\ on_plane p2 x
    /\ 101 / 100000 <= openness p0 p1 p2 /\ g = distances p0 p1 p2 x / openness p0 p1 p2
    /\ forall q, In q b -> RealSpec.within 0 q x /\ / 2 ^ 19 * g + / 2 ^ 20 * norm (bp_v0 q) <= 999 / 1000000.

(** One of the points is near [x]. *)
Definition has_near (l : list (vec3 f32)) (x : vec3 R) (g : R) : Prop :=
  forall m, (forall v, In v l -> norm (point_of v) <= m) ->
    exists v, In v l /\ finite_point v /\ norm (RealSpec.minus (point_of v) x) <= / 2 ^ 19 * g + / 2 ^ 21 * m + / 10 ^ 29.
