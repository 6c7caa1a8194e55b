(** Geometry builder.  Models src/geo_builder/, generic in the numeric interface. *)
From Verif Require Import Prelude F32 Text MapModel.

(** src/types/texture.rs:4-11: texture name to (width, height) *)
Definition texture_info := hmap (N * N).

(** src/types/vertex.rs:6-12 *)
Record vertex (T : Type) := Vertex {
  vt_pos : vec3 T;
  vt_normal : vec3 T;
  vt_tangent : vec3 T * T;
  vt_uv : option (vec2 T);
  vt_color : option (color T)
}.
Arguments Vertex {T}. Arguments vt_pos {T}. Arguments vt_normal {T}. Arguments vt_tangent {T}.
Arguments vt_uv {T}. Arguments vt_color {T}.

(** src/geo_builder/brush_plane/geometry.rs:5-10 *)
Record face (T : Type) := Face {
  f_center : vec3 T;
  f_vertices : list (vertex T);
  f_indices : list nat;
  f_texture : option str
}.
Arguments Face {T}. Arguments f_center {T}. Arguments f_vertices {T}. Arguments f_indices {T}.
Arguments f_texture {T}.

(** src/geo_builder/brush/geometry.rs:5-8 *)
Record brush_geo (T : Type) := BrushGeo { bg_center : vec3 T; bg_faces : list (face T) }.
Arguments BrushGeo {T}. Arguments bg_center {T}. Arguments bg_faces {T}.

(** src/geo_builder/entity/geometry.rs:5-8 *)
Record entity_geo (T : Type) := EntityGeo { eg_center : vec3 T; eg_brushes : list (brush_geo T) }.
Arguments EntityGeo {T}. Arguments eg_center {T}. Arguments eg_brushes {T}.

Section Geo.
  Context {T : Type} (O : num T).

  (** BrushPlane::normal and dist, src/map/quake/types/brush_plane.rs:176-185 *)
  Definition plane_normal (p : brush_plane T) : vec3 T :=
    let v0v1 := v3_sub O (bp_v1 p) (bp_v0 p) in
    let v0v2 := v3_sub O (bp_v2 p) (bp_v0 p) in
    n_normalize O (v3_cross O v0v2 v0v1).
  Definition plane_dist (p : brush_plane T) : T := v3_dot O (plane_normal p) (bp_v0 p).

  (** src/geo_builder/brush_plane/vertices.rs:6-24 *)
  Definition intersect_planes (p0 p1 p2 : brush_plane T) : option (vec3 T) :=
    let n0 := plane_normal p0 in
    let n1 := plane_normal p1 in
    let n2 := plane_normal p2 in
    let denom := v3_dot O (v3_cross O n0 n1) n2 in
    if n_ltb O denom (n_eps O) then None
    else
      Some (v3_divs O
              (v3_add O
                 (v3_add O (v3_scale O (v3_cross O n1 n2) (plane_dist p0))
                           (v3_scale O (v3_cross O n2 n0) (plane_dist p1)))
                 (v3_scale O (v3_cross O n0 n1) (plane_dist p2)))
              denom).

  (** vertices.rs:26-34 *)
  Definition vertex_in_hull (v : vec3 T) (hull : list (brush_plane T)) : bool :=
    forallb (fun p =>
      let proj := v3_dot O (plane_normal p) v in
      negb (n_gtb O proj (plane_dist p) && n_gtb O (n_sub O proj (plane_dist p)) (n_eps O))) hull.

  (** src/geo_builder/brush_plane/normals.rs:15-36 *)
  Definition phong_normal (p0 p1 p2 : brush_plane T) (angle : option str) : vec3 T :=
    let default := n_normalize O (v3_add O (v3_add O (plane_normal p0) (plane_normal p1)) (plane_normal p2)) in
    match angle with
    | Some s =>
      match n_parse O s with
      | Some a =>
        let threshold := n_cos O (n_mul O (n_add O a (n_centi O)) (n_degree O)) in
        let n := plane_normal p0 in
        let n := if n_gtb O (v3_dot O (plane_normal p0) (plane_normal p1)) threshold
                 then v3_add O n (plane_normal p1) else n in
        let n := if n_gtb O (v3_dot O (plane_normal p0) (plane_normal p2)) threshold
                 then v3_add O n (plane_normal p2) else n in
        n_normalize O n
      | None => default
      end
    | None => default
    end.

  Definition is_phong (e : entity T) : bool :=
    match get_property e (lit "_phong") with Some s => str_eqb s (lit "1") | None => false end.

  (** normals.rs:7-13 *)
  Definition vertex_normal (e : entity T) (p0 p1 p2 : brush_plane T) : vec3 T :=
    if is_phong e then phong_normal p0 p1 p2 (get_property e (lit "_phong_angle"))
    else plane_normal p0.

  Definition up_vector : vec3 T := V3 (n_zero O) (n_zero O) (n_one O).
  Definition right_vector : vec3 T := V3 (n_zero O) (n_one O) (n_zero O).
  Definition forward_vector : vec3 T := V3 (n_one O) (n_zero O) (n_zero O).

  (** src/geo_builder/brush_plane/tangents.rs:12-42 *)
  Definition standard_tangent (p : brush_plane T) : res (vec3 T * T) :=
    let du := v3_dot O (plane_normal p) up_vector in
    let dr := v3_dot O (plane_normal p) right_vector in
    let df := v3_dot O (plane_normal p) forward_vector in
    let du_abs := n_abs O du in
    let dr_abs := n_abs O dr in
    let df_abs := n_abs O df in
    let tangent :=
      if n_geb O du_abs dr_abs && n_geb O du_abs df_abs then Some (forward_vector, n_signum O du)
      else if n_geb O dr_abs du_abs && n_geb O dr_abs df_abs then Some (forward_vector, n_neg O (n_signum O dr))
      else if n_geb O df_abs du_abs && n_geb O df_abs dr_abs then Some (right_vector, n_signum O df)
      else None in
    match tangent with
    | Some (v, s) =>
      Ok (n_quat_rotate O (plane_normal p) (n_mul O (n_neg O (n_to_radians O (bp_rotation p))) s) v,
          n_mul O s (n_signum O (uy (bp_scale p))))
    | None => Panic (lit "Failed to generate tangent")
    end.

  (** tangents.rs:5-10, 44-55.  Rust parses [-a.b().signum()] as [-(a.b().signum())]. *)
  Definition vertex_tangent (p : brush_plane T) : res (vec3 T * T) :=
    match bp_uv p with
    | UVQuake _ _ => standard_tangent p
    | UVValve u_axis _ v_axis _ =>
      Ok (u_axis, n_neg O (n_signum O (v3_dot O (v3_cross O (plane_normal p) u_axis) v_axis)))
    end.

  (** Texture::size, src/types/texture.rs:18-20 *)
  Definition texture_size (t : N * N) : vec2 T := V2 (n_of_N O (fst t)) (n_of_N O (snd t)).

  (** src/geo_builder/brush_plane/uvs.rs:7-69 *)
  Definition vertex_uv (v : vec3 T) (p : brush_plane T) (t : N * N) : res (vec2 T) :=
    match bp_uv p with
    | UVQuake u0 v0 =>
      let du := n_abs O (v3_dot O (plane_normal p) up_vector) in
      let dr := n_abs O (v3_dot O (plane_normal p) right_vector) in
      let df := n_abs O (v3_dot O (plane_normal p) forward_vector) in
      xy <- (if n_geb O du dr && n_geb O du df then Ok (V2 (vx v) (n_neg O (vy v)))
             else if n_geb O dr du && n_geb O dr df then Ok (V2 (vx v) (n_neg O (vz v)))
             else if n_geb O df du && n_geb O df dr then Ok (V2 (vy v) (n_neg O (vz v)))
             else Panic (lit "Zero-length normal")) ;;
      let r := n_mat2_rotate O (n_to_radians O (bp_rotation p)) xy in
      let r := v2_div O r (texture_size t) in
      let r := v2_div O r (bp_scale p) in
      Ok (v2_add O r (v2_div O (V2 u0 v0) (texture_size t)))
    | UVValve u_axis u_offset v_axis v_offset =>
      let r := V2 (v3_dot O u_axis v) (v3_dot O v_axis v) in
      let r := v2_div O r (texture_size t) in
      let r := v2_div O r (bp_scale p) in
      Ok (v2_add O r (v2_div O (V2 u_offset v_offset) (texture_size t)))
    end.

  (** build_plane_vertex, src/geo_builder/brush_plane/mod.rs:116-144 *)
  Definition build_plane_vertex (tex : option (N * N)) (e : entity T) (planes : list (brush_plane T))
    (plane p1 p2 : brush_plane T) : res (option (vertex T)) :=
    match intersect_planes plane p1 p2 with
    | None => Ok None
    | Some v =>
      if vertex_in_hull v planes then
        let normal := vertex_normal e plane p1 p2 in
        tangent <- vertex_tangent plane ;;
        uv <- match tex with
              | Some t => r <- vertex_uv v plane t ;; Ok (Some r)
              | None => Ok None
              end ;;
        let color := match bp_extra plane with ExDaikatana _ c => Some c | _ => None end in
        Ok (Some (Vertex v normal tangent uv color))
      else Ok None
    end.

  (** mod.rs:25-32: all ordered pairs of planes *)
  Definition plane_vertices (tex : option (N * N)) (e : entity T) (planes : list (brush_plane T))
    (plane : brush_plane T) : res (list (vertex T)) :=
    vs <- mapM (fun pq => build_plane_vertex tex e planes plane (fst pq) (snd pq))
               (list_prod planes planes) ;;
    Ok (filter_map (fun o => o) vs).

  (** mod.rs:34-63: keep a vertex if no later one has the same position.  The inner fold
      (mod.rs:46-54) looks for later vertices of equal position, which cannot exist in that branch,
      but it is modelled as written. *)
  Definition set_normal (v : vertex T) (n : vec3 T) : vertex T :=
    Vertex (vt_pos v) n (vt_tangent v) (vt_uv v) (vt_color v).
  Fixpoint unique_vertices (phong : bool) (vs : list (vertex T)) : list (vertex T) :=
    match vs with
    | [] => []
    | v :: rest =>
      if existsb (fun c => v3_eqb O (vt_pos c) (vt_pos v)) rest then unique_vertices phong rest
      else
        (if phong then
           let v' := fold_left (fun acc next =>
                       if v3_eqb O (vt_pos next) (vt_pos acc) then set_normal acc (vt_normal next) else acc)
                     rest v in
           set_normal v' (n_normalize O (vt_normal v'))
         else v) :: unique_vertices phong rest
    end.

  (** [fold(zero, +) / len.max(1) as f32], mod.rs:65-68; brush/mod.rs:20-26; entity/mod.rs:30-33 *)
  Definition mean (l : list (vec3 T)) : vec3 T :=
    v3_divs O (fold_left (v3_add O) l (v3_zero O)) (n_of_N O (N.of_nat (Nat.max (length l) 1))).

  (** mod.rs:79-93: decreasing angle, incomparable angles count as equal *)
  Definition angle (u_axis v_axis : vec3 T) (v : vertex T) : T :=
    n_atan2 O (v3_dot O (vt_pos v) v_axis) (v3_dot O (vt_pos v) u_axis).
  Definition wind_cmp (u_axis v_axis : vec3 T) (a b : vertex T) : comparison :=
    match n_cmp O (angle u_axis v_axis b) (angle u_axis v_axis a) with Some c => c | None => Eq end.

  Definition move (f : vec3 T -> vec3 T) (v : vertex T) : vertex T :=
    Vertex (f (vt_pos v)) (vt_normal v) (vt_tangent v) (vt_uv v) (vt_color v).

  (** mod.rs:100-106 *)
  Definition fan (n : nat) : list nat :=
    if n <? 3 then [] else flat_map (fun i => [0; i + 1; i + 2]) (seq 0 (n - 2)).

  (** brush_plane::build, mod.rs:17-114 *)
  Definition build_face (textures : texture_info) (e : entity T) (planes : list (brush_plane T))
    (plane : brush_plane T) : res (face T) :=
    let tex := hget textures (bp_texture plane) in
    vs <- plane_vertices tex e planes plane ;;
    let uniq := unique_vertices (is_phong e) vs in
    let center := mean (map vt_pos uniq) in
    let local := map (move (fun x => v3_sub O x center)) uniq in
    let u_axis := n_normalize O (v3_sub O (bp_v1 plane) (bp_v0 plane)) in
    let v_axis := v3_cross O (plane_normal plane) u_axis in
    let wound := sort_by (wind_cmp u_axis v_axis) local in
    let world := map (move (fun x => v3_add O x center)) wound in
    Ok (Face center world (fan (length world))
          (match tex with Some _ => Some (bp_texture plane) | None => None end)).

  (** brush::build, src/geo_builder/brush/mod.rs:11-29 *)
  Definition build_brush (textures : texture_info) (e : entity T) (b : brush T) : res (brush_geo T) :=
    faces <- mapM (build_face textures e b) b ;;
    Ok (BrushGeo (mean (map f_center faces)) faces).

  (** [comps.next().unwrap_or("0.0").parse().unwrap_or(0.0)], entity/mod.rs:24-26 *)
  Definition origin_comp (comps : list str) (i : nat) : T :=
    match n_parse O (nth i comps (lit "0.0")) with Some x => x | None => n_zero O end.

  (** entity::build, src/geo_builder/entity/mod.rs:10-38 *)
  Definition build_entity_geo (textures : texture_info) (e : entity T) : res (entity_geo T) :=
    brushes <- mapM (build_brush textures e) (e_brushes e) ;;
    let center :=
      match hget (e_props e) (lit "origin") with
      | Some origin =>
        let comps := split_char 32 origin in
        V3 (origin_comp comps 0) (origin_comp comps 1) (origin_comp comps 2)
      | None => mean (map bg_center brushes)
      end in
    Ok (EntityGeo center brushes).

  (** geo_builder::run, src/geo_builder/mod.rs:8-14 *)
  Definition build_geometry (textures : texture_info) (es : list (entity T)) : res (list (entity_geo T)) :=
    mapM (build_entity_geo textures) es.
End Geo.
