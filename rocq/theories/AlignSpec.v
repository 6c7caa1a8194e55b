(** Changed alignments of textures (C116). *)
From Verif Require Import Prelude F32 Text MapModel GeoModel SceneModel GatherSpec MapSpec PointsSpec ReworkSpec.

Section Align.
  Context {T : Type}.

  (** The same side with other texture coordinates, of the same kind. *)
  Definition same_kind (a b : uv T) : Prop :=
    match a, b with UVQuake _ _, UVQuake _ _ => True | UVValve _ _ _ _, UVValve _ _ _ _ => True | _, _ => False end.
  Definition realigned (a b : brush_plane T) : Prop :=
    bp_v0 a = bp_v0 b /\ bp_v1 a = bp_v1 b /\ bp_v2 a = bp_v2 b /\ bp_texture a = bp_texture b /\ bp_extra a = bp_extra b /\ same_kind (bp_uv a) (bp_uv b).
  (** The same textures with other sizes. *)
  Definition resized (tx tx' : texture_info) : Prop := forall t, hget tx t = None <-> hget tx' t = None.

  (** Equal up to tangents and texture coordinates. *)
  Definition same_but_uv (v w : vertex T) : Prop :=
    vt_pos v = vt_pos w /\ vt_normal v = vt_normal w /\ vt_color v = vt_color w /\ (vt_uv v = None <-> vt_uv w = None).
  Definition redrawn (f g : face T) : Prop :=
    f_center f = f_center g /\ f_indices f = f_indices g /\ f_texture f = f_texture g /\ Forall2 same_but_uv (f_vertices f) (f_vertices g).
End Align.

Definition realigned_line (p : platform) (l l' : str) : Prop := exists pl pl', reads_as p l pl /\ reads_as p l' pl' /\ realigned pl pl'.
Definition realigned_entity (p : platform) (d d' : doc_entity) : Prop :=
  (forall k, doc_value d k = doc_value d' k) /\ Forall2 (Forall2 (realigned_line p)) (doc_brushes d) (doc_brushes d').

(** The same texture and the same triangles, as places in order. *)
Definition same_triangles (p : platform) (s s' : surface f32) : Prop :=
  s_texture s = s_texture s' /\ exists xs ys, map (nth_error (s_vertices s)) (s_indices s) = map Some xs /\ map (nth_error (s_vertices s')) (s_indices s') = map Some ys
    /\ Forall2 (fun x y => x = y \/ pos_eq (f32_num p) x y) xs ys.
Inductive same_mesh (p : platform) : visual f32 -> visual f32 -> Prop :=
| MeshNone : same_mesh p VisNone VisNone
| MeshSame l l' : Forall2 (same_triangles p) l l' -> same_mesh p (VisMesh l) (VisMesh l').
