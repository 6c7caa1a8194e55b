(** Properties of mesh surfaces and collision shapes (C30 to C35).
    Statements use the vocabulary of [GatherSpec] and [SurfaceSpec]; f32 equality is Rust's [==]. *)
From Verif Require Import Prelude F32 Text MapModel GeoModel LayerModel GameDataModel SceneModel
  GatherSpec SurfaceSpec GatherProofs SurfaceProofs SurfaceFinal SurfaceWitness.

(** C30: a surface, when there is one, draws exactly the triangles of the selected faces in place;
    gathering never fails; no surface means no corners. *)
Theorem C30_surface : forall p g bl t, geometry_in_bounds g ->
  exists os, texture_surface (f32_num p) g bl t = Ok os
    /\ match os with
       | Some s => draws (f32_num p) (s_vertices s) (s_indices s) (selected_faces (drawn_brush bl) (with_texture t) g)
       | None => forall f, In f (selected_faces (drawn_brush bl) (with_texture t) g) -> f_vertices f = []
       end.
Proof. exact surface_c30. Qed.
Print Assumptions C30_surface.

Example C30_surface_example : geometry_in_bounds plain
  /\ length (flat_map face_corners (selected_faces (drawn_brush blacklist_default) (with_texture tex) plain)) = 9.
Proof. split; [exact plain_in_bounds|reflexivity]. Qed.

Theorem C30_concave : forall p g, geometry_in_bounds g ->
  collision_of (f32_num p) CConcave g = Ok ColNone
  \/ exists vs ix, collision_of (f32_num p) CConcave g = Ok (ColConcave [Concave (eg_center g) vs ix])
       /\ draws (f32_num p) vs ix (flat_map bg_faces (eg_brushes g)).
Proof. exact concave_c30. Qed.
Print Assumptions C30_concave.

Example C30_concave_example : forall p : platform, geometry_in_bounds doubled
  /\ exists vs, collision_of (f32_num p) CConcave doubled = Ok (ColConcave [Concave (eg_center doubled) vs [0; 1; 2; 0; 3; 1; 0; 3; 1]]).
Proof. intros p. split; [exact doubled_in_bounds|]. eexists. vm_compute. reflexivity. Qed.

(** C31: the vertices of a surface are, brush by brush, the vertices of the selected faces that
    have no earlier equal, in order; so no two vertices of a brush agree in everything. *)
Theorem C31_surface : forall p g bl t s, geometry_in_bounds g ->
  texture_surface (f32_num p) g bl t = Ok (Some s) ->
  exists kept, describes s (concat kept)
    /\ Forall2 (fun b out =>
         let vs := face_vertices (brush_faces (with_texture t) b) in
         restriction (first_of_equals (vertex_eq (f32_num p)) vs) vs out /\ pairwise_not (vertex_eq (f32_num p)) out)
       (filter (drawn_brush bl) (eg_brushes g)) kept.
Proof. exact surface_c31. Qed.
Print Assumptions C31_surface.

Theorem C31_concave : forall p g center vs ix, geometry_in_bounds g ->
  collision_of (f32_num p) CConcave g = Ok (ColConcave [Concave center vs ix]) ->
  exists kept, vs = map vt_pos (concat kept)
    /\ Forall2 (fun b out =>
         let vs := face_vertices (bg_faces b) in
         restriction (first_of_equals (vertex_pos_eq (f32_num p)) vs) vs out
         /\ pairwise_not (vertex_pos_eq (f32_num p)) out) (eg_brushes g) kept.
Proof. exact concave_c31. Qed.
Print Assumptions C31_concave.

Example C31_example : forall p : platform,
  length (s_vertices (surface_of (texture_surface (f32_num p) doubled blacklist_default tex))) = 6
  /\ length (face_vertices (flat_map bg_faces (eg_brushes doubled))) = 9.
Proof. intros p. split; vm_compute; reflexivity. Qed.

(** C32 is false: after deduplication a corner of a wall gets the floor's normal. *)
Theorem C32_refuted : forall p, exists g bl t s k i n w, geometry_in_bounds g
  /\ texture_surface (f32_num p) g bl t = Ok (Some s)
  /\ nth_error (s_indices s) k = Some i /\ nth_error (s_normals s) i = Some n
  /\ nth_error (flat_map face_corners (selected_faces (drawn_brush bl) (with_texture t) g)) k = Some (Some w)
  /\ ~ pos_eq (f32_num p) n (vt_normal w).
Proof. exact corner_refuted. Qed.
Print Assumptions C32_refuted.

(** What does hold: each corner becomes itself if it has no earlier equal in its brush, and otherwise
    the first vertex of the brush at its position, whatever that one's attributes. *)
Theorem C32_partial : forall p g bl t s, geometry_in_bounds g ->
  texture_surface (f32_num p) g bl t = Ok (Some s) ->
  exists vs resolved, describes s vs
    /\ map (nth_error vs) (s_indices s) = map Some (concat resolved)
    /\ Forall2 (fun b rs =>
         let faces := brush_faces (with_texture t) b in
         Forall2 (resolves (f32_num p) (vertex_eq (f32_num p)) (face_vertices faces)) (corner_positions faces) rs)
       (filter (drawn_brush bl) (eg_brushes g)) resolved.
Proof. exact surface_c32. Qed.
Print Assumptions C32_partial.

(** In particular nothing is lost when equal positions within a brush mean equal vertices. *)
Theorem C32_same_attributes_partial : forall p g bl t s, geometry_in_bounds g ->
  texture_surface (f32_num p) g bl t = Ok (Some s) ->
  (forall b v w, In b (eg_brushes g) -> drawn_brush bl b = true ->
     In v (face_vertices (brush_faces (with_texture t) b)) -> In w (face_vertices (brush_faces (with_texture t) b)) ->
     vertex_pos_eq (f32_num p) v w -> v = w \/ vertex_eq (f32_num p) v w) ->
  exists vs, describes s vs /\
    Forall2 (fun i c => exists v w, nth_error vs i = Some v /\ c = Some w /\ (v = w \/ vertex_eq (f32_num p) v w))
      (s_indices s) (flat_map face_corners (selected_faces (drawn_brush bl) (with_texture t) g)).
Proof. exact surface_c32_same. Qed.
Print Assumptions C32_same_attributes_partial.

(** C33 *)
Theorem C33_arrays : forall p g bl t s, geometry_in_bounds g ->
  texture_surface (f32_num p) g bl t = Ok (Some s) ->
  s_vertices s <> [] /\ length (s_normals s) = length (s_vertices s) /\ length (s_tangents s) = length (s_vertices s)
  /\ (forall uvs, s_uvs s = Some uvs -> length uvs = length (s_vertices s))
  /\ (forall cs, s_colors s = Some cs -> length cs = length (s_vertices s))
  /\ (uv_iff_texture g -> (s_uvs s = None <-> t = None)).
Proof. exact surface_c33. Qed.
Print Assumptions C33_arrays.

Theorem C33_attributes : forall p g bl t s, geometry_in_bounds g ->
  texture_surface (f32_num p) g bl t = Ok (Some s) -> s_texture s = t /\ exists vs, vs <> [] /\ describes s vs.
Proof. exact surface_c33_describes. Qed.
Print Assumptions C33_attributes.

Example C33_example : forall p : platform, geometry_in_bounds plain /\ uv_iff_texture plain
  /\ exists s, texture_surface (f32_num p) plain blacklist_default tex = Ok (Some s) /\ length (s_vertices s) = 9.
Proof. exact plain_uvs. Qed.

(** C34: the mesh of an entity.  [selected_faces] are the faces of the drawn brushes with the
    surface's texture. *)
Theorem C34_mesh : forall p e g bd bl, geometry_in_bounds g -> bd_visual bd = VMesh ->
  exists l, brush_visual (f32_num p) e g bd bl = Ok (match l with [] => VisNone | _ => VisMesh l end)
    /\ NoDup (map s_texture l)
    /\ (forall s t, In s l -> s_texture s = Some t -> mentions e t /\ ~ In t (bl_plane bl))
    /\ (forall b f, In b (eg_brushes g) -> In f (bg_faces b) -> f_vertices f <> [] ->
          (exists f' , In f' (bg_faces b) /\ forall t, f_texture f' = Some t -> ~ In t (bl_brush bl)) ->
          (forall t, f_texture f = Some t -> mentions e t /\ ~ In t (bl_plane bl)) ->
          exists s, In s l /\ s_texture s = f_texture f
            /\ In f (selected_faces (drawn_brush bl) (with_texture (s_texture s)) g))
    /\ (forall s, In s l -> draws (f32_num p) (s_vertices s) (s_indices s)
                              (selected_faces (drawn_brush bl) (with_texture (s_texture s)) g)).
Proof. exact mesh_c34. Qed.
Print Assumptions C34_mesh.

(** C34: what the selection means. *)
Theorem C34_selection : forall bl t (g : entity_geo f32) f,
  In f (selected_faces (drawn_brush bl) (with_texture t) g) <->
  exists b, In b (eg_brushes g) /\ In f (bg_faces b) /\ f_texture f = t
    /\ exists f', In f' (bg_faces b) /\ forall t', f_texture f' = Some t' -> ~ In t' (bl_brush bl).
Proof. exact selection_c34. Qed.
Print Assumptions C34_selection.

Example C34_example : forall p : platform,
  exists s, brush_visual (f32_num p) (Entity [] [[BrushPlane (V3 w0 w0 w0) (V3 w0 w0 w0) (V3 w0 w0 w0) (lit "t") (UVQuake w0 w0) w0 (V2 w1 w1) ExNone]])
    plain (BrushData VMesh CNone) blacklist_default = Ok (VisMesh [s]).
Proof. intros p. eexists. vm_compute. reflexivity. Qed.

(** C35: one convex shape per brush, holding the distinct corner positions (the last of each set of
    equal ones, in order). *)
Theorem C35_convex : forall p g, exists shapes, collision_of (f32_num p) CConvex g = Ok (ColConvex shapes)
  /\ Forall2 (fun b c => cx_center c = bg_center b
       /\ (let points := map vt_pos (face_vertices (bg_faces b)) in
           restriction (last_of_equals (f32_num p) points) points (cx_points c))
       /\ pairwise_not (pos_eq (f32_num p)) (cx_points c)
       /\ (forall f v, In f (bg_faces b) -> In v (f_vertices f) ->
             exists q, In q (cx_points c) /\ (q = vt_pos v \/ pos_eq (f32_num p) q (vt_pos v)))
       /\ (forall q, In q (cx_points c) -> exists f v, In f (bg_faces b) /\ In v (f_vertices f) /\ q = vt_pos v))
       (eg_brushes g) shapes.
Proof. exact convex_c35. Qed.
Print Assumptions C35_convex.

Theorem C35_concave : forall p g, geometry_in_bounds g ->
  (collision_of (f32_num p) CConcave g = Ok ColNone <->
   forall b f, In b (eg_brushes g) -> In f (bg_faces b) -> f_vertices f = [])
  /\ (collision_of (f32_num p) CConcave g <> Ok ColNone ->
      exists vs ix, vs <> [] /\ collision_of (f32_num p) CConcave g = Ok (ColConcave [Concave (eg_center g) vs ix])).
Proof. exact concave_c35. Qed.
Print Assumptions C35_concave.

Example C35_example : forall p : platform,
  match collision_of (f32_num p) CConvex plain with
  | Ok (ColConvex [a; b]) => length (cx_points a) = 4 /\ length (cx_points b) = 3
  | _ => False
  end.
Proof. intros p. vm_compute. split; reflexivity. Qed.
