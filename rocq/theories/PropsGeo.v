(** Properties of built geometry (C14 to C21, C63 to C66).
    Statements use the vocabulary of [GeoSpec], [RealSpec] and [BoxSpec]. *)
From Coq Require Import Permutation Sorted SpecFloat Reals.
From Verif Require Import Prelude F32 Text MapModel GeoModel GatherSpec GeoSpec RealSpec FloatProofs ExactProofs BoxSpec
  GatherProofs GeoProofs GeoFinal DegenerateProofs DegenerateFinal AttributeProofs RealProofs RealAttributes BoxProofs BoxFinal GeoWitness.
Local Close Scope R_scope.
Local Open Scope nat_scope.

(** C14: the triangles of a face of [n] corners are (0, 1, 2), (0, 2, 3), ...; any arithmetic. *)
Theorem C14_fan : forall T (O : num T) tx e planes plane f, build_face O tx e planes plane = Ok f ->
  is_fan (length (f_vertices f)) (f_indices f).
Proof. exact @face_fan. Qed.
Print Assumptions C14_fan.

Example C14_example : map (fun i => f_indices (crate_face [] i)) (seq 0 6) = repeat [0; 1; 2; 0; 2; 3] 6.
Proof. vm_compute. reflexivity. Qed.

(** C15: before centring, the corners are exactly the meeting points of the plane with two planes of the
    brush that pass the inside test, one for each class of equal points; the output is made of them. *)
Theorem C15_corners : forall p tx e planes plane f, build_face (f32_num p) tx e planes plane = Ok f ->
  exists raw centred sorted, corner_set (f32_num p) planes plane raw
    /\ is_mean (f32_num p) (map vt_pos raw) (f_center f)
    /\ Forall2 (displaced (fun x => v3_sub (f32_num p) x (f_center f))) raw centred
    /\ Permutation centred sorted
    /\ Forall2 (displaced (fun x => v3_add (f32_num p) x (f_center f))) sorted (f_vertices f).
Proof. exact corners_c15. Qed.
Print Assumptions C15_corners.

Example C15_example : map vt_pos (f_vertices (crate_face [] 4)) = [fv 16 24 32; fv 16 (-8) 32; fv (-16) (-8) 32; fv (-16) 24 32]
  /\ f_center (crate_face [] 4) = fv 0 8 32.
Proof. vm_compute. split; reflexivity. Qed.

(** C16: in exact arithmetic a face's corners are exactly the points where its plane meets two others
    with determinant at least 0.001 and that are within 0.001 of the inside of every plane; no point
    is listed twice; building never fails. *)
Theorem C16_corners : forall parse cosine radians atan2 quat mat2 tx e planes plane f,
  build_face (real_num parse cosine radians atan2 quat mat2) tx e planes plane = Ok f ->
  NoDup (map vt_pos (f_vertices f))
  /\ forall x, In x (map vt_pos (f_vertices f)) <->
     exists p1 p2, In p1 planes /\ In p2 planes /\ proper plane /\ proper p1 /\ proper p2 /\ spans plane p1 p2
       /\ on_plane plane x /\ on_plane p1 x /\ on_plane p2 x /\ forall q, In q planes -> within (/ 1000) q x.
Proof. exact real_corners. Qed.
Print Assumptions C16_corners.

Theorem C16_total : forall parse cosine radians atan2 quat mat2 tx e planes plane,
  exists f, build_face (real_num parse cosine radians atan2 quat mat2) tx e planes plane = Ok f.
Proof. exact real_total. Qed.
Print Assumptions C16_total.

Example C16_example : proper (through ey ex) /\ proper (through ez ey) /\ proper (through ex ez)
  /\ spans (through ey ex) (through ez ey) (through ex ez)
  /\ on_plane (through ey ex) (V3 0 0 0)%R /\ on_plane (through ez ey) (V3 0 0 0)%R /\ on_plane (through ex ez) (V3 0 0 0)%R
  /\ forall q, In q room -> within (/ 1000) q (V3 0 0 0)%R.
Proof. exact room_corner. Qed.

(** C17: the corners are a permutation of the unsorted ones, by decreasing angle around the centre. *)
Theorem C17_winding : forall p tx e planes plane f, build_face (f32_num p) tx e planes plane = Ok f ->
  exists raw centred sorted, corner_set (f32_num p) planes plane raw
    /\ is_mean (f32_num p) (map vt_pos raw) (f_center f)
    /\ Forall2 (displaced (fun x => v3_sub (f32_num p) x (f_center f))) raw centred
    /\ Permutation centred sorted
    /\ Forall2 (displaced (fun x => v3_add (f32_num p) x (f_center f))) sorted (f_vertices f)
    /\ ((forall v, In v centred -> angle_of (f32_num p) plane v <> S754_nan) ->
        StronglySorted (fun a b => not_above (f32_num p) (angle_of (f32_num p) plane b) (angle_of (f32_num p) plane a)) sorted).
Proof. exact winding_c17. Qed.
Print Assumptions C17_winding.

Example C17_example : exists pl, nth_error (crate standard_uv) 4 = Some pl
  /\ map (fun v => angle_of (f32_num (polar true)) pl (Vertex (v3_sub (f32_num (polar true)) (vt_pos v) (f_center (crate_face [] 4)))
        (vt_normal v) (vt_tangent v) (vt_uv v) (vt_color v))) (f_vertices (crate_face [] 4))
     = map (fun k => f32_div (fz k) (fz 2)) [7; 5; 3; 1]%Z.
Proof. eexists. split; [reflexivity|vm_compute; reflexivity]. Qed.

(** C18 fails for the scalar build of the vector library: it multiplies by a rounded reciprocal. *)
Theorem C18_refuted : exists p lo hi b s area plane f v, p_simd p = false /\ box lo hi
  /\ (Forall2 (fun pl s => box_plane lo hi s area pl) b all_sides) /\ In plane b /\ box_plane lo hi s area plane
  /\ build_face (f32_num p) textures (world []) b plane = Ok f /\ In v (f_vertices f) /\ ~ phong (world [])
  /\ ~ at_ints (vt_normal v) (outward s).
Proof. exact box_refuted. Qed.
Print Assumptions C18_refuted.

(** With the SIMD build (the default on x86-64), or when the cross product of the edges has length a power of two,
    each face has exactly the four corners of its side, its exact centre and the exact outward normal. *)
Theorem C18_partial : forall p lo hi b s area plane tx e, box lo hi -> box_brush p lo hi b ->
  box_plane lo hi s area plane -> exact_length p area ->
  exists f, build_face (f32_num p) tx e b plane = Ok f
    /\ (exists corners, Permutation corners (side_corners lo hi s) /\ Forall2 (fun v X => at_ints (vt_pos v) X) (f_vertices f) corners)
    /\ at_halves (f_center f) (side_center2 lo hi s)
    /\ (~ phong e -> forall v, In v (f_vertices f) -> at_ints (vt_normal v) (outward s)).
Proof. exact box_face_c18. Qed.
Print Assumptions C18_partial.

(** The brush's centre is exact when each side is given once. *)
Theorem C18_centre_partial : forall p lo hi b sides tx e, box lo hi ->
  Forall2 (fun pl s => exists area, box_plane lo hi s area pl /\ exact_length p area) b sides -> Permutation sides all_sides ->
  exists g, build_brush (f32_num p) tx e b = Ok g /\ length (bg_faces g) = 6 /\ at_halves (bg_center g) (box_center2 lo hi).
Proof. exact brush_exact. Qed.
Print Assumptions C18_centre_partial.

Example C18_example : box (V3 (-16) (-8) 0)%Z (V3 16 24 32)%Z
  /\ Forall2 (fun pl s => box_plane (V3 (-16) (-8) 0)%Z (V3 16 24 32)%Z s 64 pl) (crate standard_uv) all_sides.
Proof. exact (conj crate_box (crate_ok standard_uv)). Qed.

(** C19: a plane two of whose points coincide makes building panic when it uses standard texture coordinates ... *)
Theorem C19_panics : forall p tx es e b plane u v, In e es -> In b (e_brushes e) -> In plane b -> bp_uv plane = UVQuake u v ->
  pos_eq (f32_num p) (bp_v0 plane) (bp_v1 plane) \/ pos_eq (f32_num p) (bp_v0 plane) (bp_v2 plane)
    \/ pos_eq (f32_num p) (bp_v1 plane) (bp_v2 plane) ->
  exists w, build_geometry (f32_num p) tx es = Panic w.
Proof. exact degenerate_panics. Qed.
Print Assumptions C19_panics.

(** ... and nothing else does: finite normals suffice for success. *)
Theorem C19_otherwise : forall p tx es,
  (forall e b pl u v, In e es -> In b (e_brushes e) -> In pl b -> bp_uv pl = UVQuake u v ->
     let n := plane_normal (f32_num p) pl in fin (vx n) /\ fin (vy n) /\ fin (vz n)) ->
  exists gs, build_geometry (f32_num p) tx es = Ok gs.
Proof. exact geometry_total. Qed.
Print Assumptions C19_otherwise.

(** Building succeeds exactly if every plane with standard texture coordinates has a finite normal, and panics otherwise. *)
Theorem C19_exact : forall p tx es,
  (exists gs, build_geometry (f32_num p) tx es = Ok gs) <->
  (forall e b pl u v, In e es -> In b (e_brushes e) -> In pl b -> bp_uv pl = UVQuake u v -> finite_vec (plane_normal (f32_num p) pl)).
Proof. exact geometry_exact. Qed.
Print Assumptions C19_exact.

Theorem C19_outcome : forall p tx es,
  (exists gs, build_geometry (f32_num p) tx es = Ok gs) \/ (exists w, build_geometry (f32_num p) tx es = Panic w).
Proof. exact geometry_outcome. Qed.
Print Assumptions C19_outcome.

Example C19_example : forall p : platform, pos_eq (f32_num p) (fv 1 2 3) (fv 1 2 3)
  /\ Forall (fun pl => let n := plane_normal (f32_num p) pl in fin (vx n) /\ fin (vy n) /\ fin (vz n)) (crate standard_uv).
Proof. intros p. split; [vm_compute; auto|exact (crate_normals p)]. Qed.

(** C20: texture, texture coordinates and colours; any arithmetic. *)
Theorem C20_texture : forall T (O : num T) tx e planes plane f, build_face O tx e planes plane = Ok f ->
  (forall t, f_texture f = Some t <-> t = bp_texture plane /\ exists size, hget tx t = Some size)
  /\ (forall v, In v (f_vertices f) -> (vt_uv v = None <-> f_texture f = None))
  /\ (forall v c, In v (f_vertices f) -> (vt_color v = Some c <-> exists d, bp_extra plane = ExDaikatana d c)).
Proof. exact @face_texture. Qed.
Print Assumptions C20_texture.

Example C20_example : f_texture (crate_face [] 0) = Some (lit "brick") /\ hget textures (lit "brick") = Some (64, 64)%N
  /\ length (f_vertices (crate_face [] 0)) = 4.
Proof. vm_compute. auto. Qed.

(** C21: one geometry for each entity, brush and plane, in order; the centre of an entity is its origin if given. *)
Theorem C21_geometry : forall p tx es gs, build_geometry (f32_num p) tx es = Ok gs ->
  Forall2 (fun e g => Forall2 (fun b bg => Forall2 (fun pl f => build_face (f32_num p) tx e b pl = Ok f) b (bg_faces bg)
                                /\ is_mean (f32_num p) (map f_center (bg_faces bg)) (bg_center bg))
                        (e_brushes e) (eg_brushes g)
                      /\ entity_center (f32_num p) e (eg_brushes g) (eg_center g)) es gs.
Proof. exact geometry_shape. Qed.
Print Assumptions C21_geometry.

Theorem C21_lengths : forall p tx es gs, build_geometry (f32_num p) tx es = Ok gs ->
  length gs = length es
  /\ Forall2 (fun e g => length (eg_brushes g) = length (e_brushes e)
               /\ Forall2 (fun b bg => length (bg_faces bg) = length b) (e_brushes e) (eg_brushes g)) es gs.
Proof. exact geometry_lengths. Qed.
Print Assumptions C21_lengths.

Example C21_example : exists gs,
  build_geometry (f32_num (polar true)) textures [world []; Entity [(lit "origin", lit "1 x")] []; world [(lit "origin", lit "4 5 6")]] = Ok gs
  /\ map eg_center gs = [fv 0 8 16; fv 1 0 0; fv 4 5 6].
Proof. eexists. split; vm_compute; reflexivity. Qed.

(** C63: without phong shading every corner has its plane's normal; any arithmetic. *)
Theorem C63_flat : forall T (O : num T) tx e planes plane f v, build_face O tx e planes plane = Ok f -> In v (f_vertices f) ->
  ~ phong e -> vt_normal v = plane_normal O plane.
Proof. exact @flat_normals. Qed.
Print Assumptions C63_flat.

Theorem C63_tangents : forall T (O : num T) tx e planes plane f v w, build_face O tx e planes plane = Ok f ->
  In v (f_vertices f) -> In w (f_vertices f) -> vt_tangent v = vt_tangent w.
Proof. exact @tangents_equal. Qed.
Print Assumptions C63_tangents.

Example C63_example : ~ phong (world [(lit "_phong", lit "0")])
  /\ map vt_normal (f_vertices (crate_face [(lit "_phong", lit "0")] 4)) = repeat (fv 0 0 1) 4.
Proof. split; [discriminate|vm_compute; reflexivity]. Qed.

(** C64: with phong shading the normal of a corner is smoothed over one pair of planes only: the last pair
    meeting there. *)
Theorem C64_phong : forall p tx e planes plane f v, build_face (f32_num p) tx e planes plane = Ok f -> In v (f_vertices f) -> phong e ->
  exists p1 p2 x n, last_pair (f32_num p) planes plane p1 p2 x
    /\ vt_pos v = v3_add (f32_num p) (v3_sub (f32_num p) x (f_center f)) (f_center f)
    /\ smooth (f32_num p) (hget (e_props e) (lit "_phong_angle")) plane p1 p2 n /\ vt_normal v = n_normalize (f32_num p) n.
Proof. exact phong_c64. Qed.
Print Assumptions C64_phong.

Example C64_example : phong (world [(lit "_phong", lit "1")])
  /\ length (f_vertices (crate_face [(lit "_phong", lit "1")] 4)) = 4
  /\ map vt_normal (f_vertices (crate_face [(lit "_phong", lit "1")] 4)) <> repeat (fv 0 0 1) 4.
Proof. split; [reflexivity|]. split; [vm_compute; reflexivity|]. vm_compute. discriminate. Qed.

(** C65: texture coordinates in exact arithmetic. *)
Theorem C65_uv : forall parse cosine radians atan2 quat mat2 tx e planes plane f v size,
  build_face (real_num parse cosine radians atan2 quat mat2) tx e planes plane = Ok f -> In v (f_vertices f) ->
  hget tx (bp_texture plane) = Some size -> exists t, vt_uv v = Some t /\ uv_of radians mat2 plane size (vt_pos v) t.
Proof. exact real_uv. Qed.
Print Assumptions C65_uv.

(** C66: tangents in exact arithmetic. *)
Theorem C66_tangent : forall parse cosine radians atan2 quat mat2 tx e planes plane f v,
  build_face (real_num parse cosine radians atan2 quat mat2) tx e planes plane = Ok f -> In v (f_vertices f) ->
  tangent_of radians quat plane (fst (vt_tangent v)) (snd (vt_tangent v)).
Proof. exact real_tangent. Qed.
Print Assumptions C66_tangent.

Example C65_C66_example : forall parse cosine radians atan2 quat mat2, exists f,
  build_face (real_num parse cosine radians atan2 quat mat2) textures (Entity [] [room]) room (through ey ex) = Ok f
  /\ In (V3 0 0 0)%R (map vt_pos (f_vertices f)) /\ hget textures (bp_texture (through ey ex)) = Some (64, 64)%N.
Proof. exact room_face. Qed.
