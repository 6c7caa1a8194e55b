(** Specification of mesh surfaces and collision shapes (C30 to C35). *)
From Coq Require Import Sorted.
From Verif Require Import Prelude F32 Text MapModel GeoModel SceneModel GatherSpec.

(** Membership of a name in a list, decided. *)
Definition str_dec : forall a b : str, {a = b} + {a <> b} := list_eq_dec N.eq_dec.
Definition listed (t : str) (l : list str) : bool := if in_dec str_dec t l then true else false.
Definition opt_dec : forall a b : option str, {a = b} + {a <> b}.
Proof. intros [a|] [b|]; try (right; discriminate); [|left; reflexivity].
  destruct (str_dec a b) as [->|]; [left; reflexivity|right; congruence]. Defined.

Section Spec.
  Context {T : Type} (O : num T).

  (** All face indices refer to vertices of their face. *)
  Definition geometry_in_bounds (g : entity_geo T) : Prop :=
    forall b f, In b (eg_brushes g) -> In f (bg_faces b) -> in_bounds f.

  (** A brush is drawn unless all its faces carry textures on the brush blacklist. *)
  Definition drawn_face (bl : blacklist) (f : face T) : bool :=
    match f_texture f with Some t => negb (listed t (bl_brush bl)) | None => true end.
  Definition drawn_brush (bl : blacklist) (b : brush_geo T) : bool := existsb (drawn_face bl) (bg_faces b).
  Definition with_texture (t : option str) (f : face T) : bool :=
    if opt_dec (f_texture f) t then true else false.

  (** Index [i] of an array refers to a place equal to the corner [c]. *)
  Definition keeps_position (points : list (vec3 T)) (i : nat) (c : option (vertex T)) : Prop :=
    exists p w, nth_error points i = Some p /\ c = Some w /\ (p = vt_pos w \/ pos_eq O p (vt_pos w)).

  (** The triangles of [faces], drawn with [points] and [indices], are where they were. *)
  Definition draws (points : list (vec3 T)) (indices : list nat) (faces : list (face T)) : Prop :=
    length indices = list_sum (map (fun f => length (f_indices f)) faces)
    /\ Forall (fun i => i < length points) indices
    /\ Forall2 (keeps_position points) indices (flat_map face_corners faces).

  (** The attribute arrays of a surface describe the vertices [vs]. *)
  Definition describes (s : surface T) (vs : list (vertex T)) : Prop :=
    s_vertices s = map vt_pos vs /\ s_normals s = map vt_normal vs /\ s_tangents s = map vt_tangent vs
    /\ (forall uvs, s_uvs s = Some uvs <-> map vt_uv vs = map Some uvs)
    /\ (forall cs, s_colors s = Some cs <-> map vt_color vs = map Some cs).

  (** The selected faces of one brush. *)
  Definition brush_faces (fp : face T -> bool) (b : brush_geo T) : list (face T) := filter fp (bg_faces b).

  (** Position [i] has no later equal. *)
  Definition last_of_equals (l : list (vec3 T)) (i : nat) : Prop :=
    exists v, nth_error l i = Some v /\ forall j w, i < j -> nth_error l j = Some w -> ~ pos_eq O v w.

  (** A face has texture coordinates at every corner exactly when it has a texture. *)
  Definition uv_iff_texture (g : entity_geo T) : Prop :=
    forall b f v, In b (eg_brushes g) -> In f (bg_faces b) -> In v (f_vertices f) ->
      (f_texture f = None <-> vt_uv v = None).

  (** The texture names an entity's planes mention. *)
  Definition mentions (e : entity T) (t : str) : Prop :=
    exists b pl, In b (e_brushes e) /\ In pl b /\ bp_texture pl = t.
End Spec.
