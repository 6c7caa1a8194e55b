(** Scene tree.  Models src/scene_tree/. *)
From Verif Require Import Prelude F32 Text MapModel GeoModel LayerModel GameDataModel.

(** TextureBlacklist, src/types/texture.rs:23-61 *)
Record blacklist := Blacklist { bl_brush : list str; bl_plane : list str }.
Definition blacklist_default : blacklist := Blacklist [] [].
Definition is_blacklisted_brush (b : blacklist) (t : str) : bool := existsb (str_eqb t) (bl_brush b).
Definition is_blacklisted_plane (b : blacklist) (t : str) : bool := existsb (str_eqb t) (bl_plane b).

(** src/scene_tree/types/visual_geometry.rs:22-31 *)
Record surface (T : Type) := Surface {
  s_texture : option str;
  s_vertices : list (vec3 T);
  s_normals : list (vec3 T);
  s_tangents : list (vec3 T * T);
  s_uvs : option (list (vec2 T));
  s_colors : option (list (color T));
  s_indices : list nat
}.
Arguments Surface {T}. Arguments s_texture {T}. Arguments s_vertices {T}. Arguments s_normals {T}.
Arguments s_tangents {T}. Arguments s_uvs {T}. Arguments s_colors {T}. Arguments s_indices {T}.

(** visual_geometry.rs:5-20 *)
Inductive visual (T : Type) := VisNone | VisMesh (surfaces : list (surface T)).
Arguments VisNone {T}. Arguments VisMesh {T}.

(** src/scene_tree/types/collision_geometry.rs:3-47 *)
Record convex (T : Type) := Convex { cx_center : vec3 T; cx_points : list (vec3 T) }.
Arguments Convex {T}. Arguments cx_center {T}. Arguments cx_points {T}.
Record concave (T : Type) := Concave {
  cc_center : vec3 T; cc_vertices : list (vec3 T); cc_indices : list nat }.
Arguments Concave {T}. Arguments cc_center {T}. Arguments cc_vertices {T}. Arguments cc_indices {T}.
Inductive collision (T : Type) :=
| ColNone | ColConvex (shapes : list (convex T)) | ColConcave (shapes : list (concave T)).
Arguments ColNone {T}. Arguments ColConvex {T}. Arguments ColConcave {T}.

(** src/scene_tree/types/actor.rs:3-10 *)
Record actor (T : Type) := Actor {
  a_name : str; a_type : entity_type; a_component : option str;
  a_application : application_type; a_properties : properties T }.
Arguments Actor {T}. Arguments a_name {T}. Arguments a_type {T}. Arguments a_component {T}.
Arguments a_application {T}. Arguments a_properties {T}.

(** src/scene_tree/types/scene_tree.rs:7-18 *)
Inductive node (T : Type) :=
| NActor (origin : vec3 T) (a : actor T) (children : list (node T))
| NVisual (origin : vec3 T) (v : visual T)
| NCollision (origin : vec3 T) (c : collision T).
Arguments NActor {T}. Arguments NVisual {T}. Arguments NCollision {T}.

Section Scene.
  Context {T : Type} (O : num T).

  (** ** Predicates *)

  (** src/scene_tree/predicates/brush.rs:3-19 *)
  Definition brush_not_blacklisted (bl : blacklist) (b : brush_geo T) : bool :=
    existsb (fun f => match f_texture f with
                      | Some t => negb (is_blacklisted_brush bl t)
                      | None => true
                      end) (bg_faces b).

  (** src/scene_tree/predicates/plane.rs *)
  Definition has_texture (t : option str) (f : face T) : bool := opt_str_eqb (f_texture f) t.

  (** predicates/texture.rs:3-24 applied to the enumerated list: last occurrences, not blacklisted *)
  Fixpoint unique_textures (bl : blacklist) (ts : list str) : list str :=
    match ts with
    | [] => []
    | t :: rest =>
      if negb (existsb (fun c => str_eqb c t) rest) && negb (is_blacklisted_plane bl t)
      then t :: unique_textures bl rest
      else unique_textures bl rest
    end.

  (** Derived equalities used by predicates/vertex.rs:3-13 *)
  Definition color_eqb (a b : color T) : bool :=
    n_eqb O (c_r a) (c_r b) && n_eqb O (c_g a) (c_g b) && n_eqb O (c_b a) (c_b b).
  Definition option_eqb {A} (eqb : A -> A -> bool) (a b : option A) : bool :=
    match a, b with Some x, Some y => eqb x y | None, None => true | _, _ => false end.
  Definition same_position (a b : vertex T) : bool := v3_eqb O (vt_pos a) (vt_pos b).
  Definition same_vertex (a b : vertex T) : bool :=
    v3_eqb O (vt_pos a) (vt_pos b) && v3_eqb O (vt_normal a) (vt_normal b)
    && (v3_eqb O (fst (vt_tangent a)) (fst (vt_tangent b)) && n_eqb O (snd (vt_tangent a)) (snd (vt_tangent b)))
    && option_eqb (v2_eqb O) (vt_uv a) (vt_uv b) && option_eqb color_eqb (vt_color a) (vt_color b).

  (** predicates/vertex.rs:3-21: [position.is_none() || position.unwrap() >= i] *)
  Definition first_at (eqb : vertex T -> vertex T -> bool) (i : nat) (v : vertex T) (vs : list (vertex T)) : bool :=
    match position (fun comp => eqb comp v) vs with None => true | Some k => i <=? k end.
  Definition unique := first_at same_vertex.
  Definition unique_position := first_at same_position.

  (** ** Gathering *)

  (** filter_vertices, src/scene_tree/mod.rs:783-815 *)
  Definition remap (i position : nat) (indices : list nat) : list nat :=
    map (fun x => if x =? i then position else x) indices.

  Fixpoint filter_loop (pred : nat -> vertex T -> list (vertex T) -> bool) (vs : list (vertex T))
    (todo : list (nat * vertex T)) (indices new_indices : list nat) (new_vs : list (vertex T))
    : res (list nat * list nat * list (vertex T)) :=
    match todo with
    | [] => Ok (indices, new_indices, new_vs)
    | (i, v) :: todo' =>
      if pred i v vs then filter_loop pred vs todo' indices (new_indices ++ [i]) (new_vs ++ [v])
      else
        k <- unwrap (lit "position") (position (fun comp => same_position comp v) vs) ;;
        filter_loop pred vs todo' (remap i k indices) new_indices new_vs
    end.

  Definition filter_vertices (vs : list (vertex T)) (indices : list nat)
    (pred : nat -> vertex T -> list (vertex T) -> bool) : res (list (vertex T) * list nat) :=
    '(indices, new_indices, new_vs) <- filter_loop pred vs (enumerate vs) indices [] [] ;;
    Ok (new_vs, filter_map (fun x => position (fun comp => comp =? x) new_indices) indices).

  (** Index offsetting by the vertices already emitted, mod.rs:721-734 and 757-775 *)
  Fixpoint concat_indices {A} (offset : nat) (l : list (list A * list nat)) : list nat :=
    match l with
    | [] => []
    | (vs, ix) :: t => map (fun i => i + offset) ix ++ concat_indices (offset + length vs) t
    end.

  (** gather_brush_geometry, mod.rs:739-781 *)
  Definition gather_brush (plane_pred : face T -> bool)
    (vertex_pred : option (nat -> vertex T -> list (vertex T) -> bool)) (b : brush_geo T)
    : res (list (vertex T) * list nat) :=
    let faces := filter plane_pred (bg_faces b) in
    let vertices := flat_map f_vertices faces in
    let indices := concat_indices 0 (map (fun f => (f_vertices f, f_indices f)) faces) in
    match vertex_pred with
    | Some pred => filter_vertices vertices indices pred
    | None => Ok (vertices, indices)
    end.

  (** gather_entity_geometry, mod.rs:696-737 *)
  Definition gather_entity (brush_pred : brush_geo T -> bool) (plane_pred : face T -> bool)
    (vertex_pred : option (nat -> vertex T -> list (vertex T) -> bool)) (g : entity_geo T)
    : res (list (vertex T) * list nat) :=
    parts <- mapM (gather_brush plane_pred vertex_pred) (filter brush_pred (eg_brushes g)) ;;
    Ok (flat_map fst parts, concat_indices 0 parts).

  (** build_brush_entity_texture_surface, mod.rs:570-597 *)
  Definition texture_surface (g : entity_geo T) (bl : blacklist) (t : option str)
    : res (option (surface T)) :=
    '(vs, indices) <- gather_entity (brush_not_blacklisted bl) (has_texture t) (Some unique) g ;;
    Ok (match vs with
        | [] => None
        | _ => Some (Surface t (map vt_pos vs) (map vt_normal vs) (map vt_tangent vs)
                       (sequence (map vt_uv vs)) (sequence (map vt_color vs)) indices)
        end).

  (** get_brush_entity_visual_geometry, mod.rs:484-537 *)
  Definition brush_visual (e : entity T) (g : entity_geo T) (bd : brush_data) (bl : blacklist)
    : res (visual T) :=
    match bd_visual bd with
    | VMesh =>
      let textures := flat_map (fun b => map bp_texture b) (e_brushes e) in
      let textures := map Some (unique_textures bl textures) ++ [None] in
      surfaces <- mapM (texture_surface g bl) textures ;;
      match filter_map (fun o => o) surfaces with
      | [] => Ok VisNone
      | l => Ok (VisMesh l)
      end
    | VNone => Ok VisNone
    end.

  (** [entities.iter().find(|d| &d.classname == classname)] *)
  Definition find_def (gd : game_data T) (classname : str) : option (entity_def T) :=
    find (fun d => str_eqb (ed_classname d) classname) (gd_entities gd).

  (** get_entity_visual_geometry, mod.rs:452-482 *)
  Definition entity_visual (gd : game_data T) (bl : blacklist) (e : entity T) (g : entity_geo T)
    : res (visual T) :=
    match get_property e (lit "classname") with
    | Some c =>
      match find_def gd c with
      | Some d =>
        match ed_data d with
        | DPoint _ => Ok VisNone
        | DBrush _ bd => brush_visual e g bd bl
        end
      | None => Ok VisNone
      end
    | None => Panic (lit "No classname in entity")
    end.

  (** mod.rs:649-664: keep the last of equal points *)
  Fixpoint unique_points (ps : list (vec3 T)) : list (vec3 T) :=
    match ps with
    | [] => []
    | x :: rest => if existsb (fun comp => v3_eqb O x comp) rest then unique_points rest
                   else x :: unique_points rest
    end.

  (** get_entity_convex_collision, mod.rs:633-671 *)
  Definition convex_collision (g : entity_geo T) : collision T :=
    ColConvex (map (fun b =>
      Convex (bg_center b)
        (unique_points (flat_map (fun f => map vt_pos (f_vertices f)) (bg_faces b)))) (eg_brushes g)).

  (** get_entity_concave_collision, mod.rs:673-694 *)
  Definition concave_collision (g : entity_geo T) : res (collision T) :=
    '(vs, indices) <- gather_entity (fun _ => true) (fun _ => true) (Some unique_position) g ;;
    Ok (match vs with
        | [] => ColNone
        | _ => ColConcave [Concave (eg_center g) (map vt_pos vs) indices]
        end).

  (** mod.rs:626-630 and 563-567 *)
  Definition collision_of (t : collision_type) (g : entity_geo T) : res (collision T) :=
    match t with
    | CConvex => Ok (convex_collision g)
    | CConcave => concave_collision g
    | CNone => Ok ColNone
    end.

  (** get_entity_collision_geometry, mod.rs:599-631 *)
  Definition entity_collision (gd : game_data T) (e : entity T) (g : entity_geo T) : res (collision T) :=
    match get_property e (lit "classname") with
    | Some c =>
      match find_def gd c with
      | Some d =>
        match ed_data d with
        | DPoint _ => Ok ColNone
        | DBrush _ bd => collision_of (bd_collision bd) g
        end
      | None => Ok ColNone
      end
    | None => Panic (lit "No classname in entity")
    end.

  (** ** Definitions and properties *)

  Definition def_point (d : entity_def T) : point_data T :=
    match ed_data d with DPoint p => p | DBrush p _ => p end.
  Definition script_of (c : component_type) : option str :=
    match c with CompScript s => Some s | CompNone => None end.

  (** The point data of the definition for the entity's class, as searched in mod.rs:194-270 *)
  Definition entity_point (gd : game_data T) (e : entity T) : option (point_data T) :=
    match get_property e (lit "classname") with
    | Some c => option_map def_point (find_def gd c)
    | None => None
    end.
  (** get_entity_type, mod.rs:194-218 *)
  Definition get_entity_type (gd : game_data T) (e : entity T) : entity_type :=
    match entity_point gd e with Some p => pd_type p | None => EPlaceholder end.
  (** get_entity_component_class, mod.rs:220-244 *)
  Definition get_component_class (gd : game_data T) (e : entity T) : option str :=
    match entity_point gd e with Some p => script_of (pd_component p) | None => None end.
  (** get_entity_property_application_type, mod.rs:246-270 *)
  Definition get_application_type (gd : game_data T) (e : entity T) : application_type :=
    match entity_point gd e with Some p => pd_application p | None => AProperties end.

  (** parse_vector3_property, parse_color_property, parse_float: mod.rs:400-450 *)
  Definition parse_three (s : str) : option (T * T * T) :=
    match split_char 32 s with
    | x :: y :: z :: _ =>
      match n_parse O x, n_parse O y, n_parse O z with
      | Some a, Some b, Some c => Some (a, b, c)
      | _, _, _ => None
      end
    | _ => None
    end.
  Definition parse_vector3 (s : str) : option (vec3 T) :=
    match parse_three s with Some (a, b, c) => Some (V3 a b c) | None => None end.
  Definition parse_color (s : str) : option (color T) :=
    match parse_three s with Some (a, b, c) => Some (Color a b c) | None => None end.

  (** [value.and_then(parse).unwrap_or(default)] *)
  Definition or_default {A} (parse : str -> option A) (value : option str) (default : A) : A :=
    match value with
    | Some s => match parse s with Some v => v | None => default end
    | None => default
    end.

  (** The match of mod.rs:330-392.  Flags are delivered as [Choices] (mod.rs:388). *)
  Definition property_value (d : property_data T) (value : option str) : property T :=
    match d with
    | FInteger default => PrInteger (or_default parse_i32 value default)
    | FFloat default => PrFloat (or_default (n_parse O) value default)
    | FVector3 default => PrVector3 (or_default parse_vector3 value default)
    | FString default => PrString (match value with Some s => s | None => default end)
    | FColor default => PrColor (or_default parse_color value default)
    | FChoices _ default => PrChoices (or_default parse_i32 value default)
    | FFlags _ default => PrChoices (or_default parse_i32 value default)
    | FTargetSource => PrTargetSource
    | FTargetDestination => PrTargetDestination
    end.

  (** add_internal_property_integer, mod.rs:293-307 *)
  Definition add_internal_integer (e : entity T) (name : str) (m : properties T) : res (properties T) :=
    match get_property e name with
    | Some s => i <- unwrap (lit "parse i32") (parse_i32 s) ;; Ok (hput m name (PrInteger i))
    | None => Ok m
    end.
  (** add_internal_property_string, mod.rs:312-321 *)
  Definition add_internal_string (e : entity T) (name : str) (m : properties T) : properties T :=
    match get_property e name with
    | Some s => hput m name (PrString s)
    | None => m
    end.

  Definition find_forge (fd : forge_data T) (classname : option str) : option (forge_entity T) :=
    find (fun d => opt_str_eqb (Some (fe_name d)) classname) (fd_definitions fd).

  (** get_entity_properties, mod.rs:272-398 *)
  Definition get_properties (fd : forge_data T) (e : entity T) : res (properties T) :=
    match find_forge fd (get_property e (lit "classname")) with
    | None => Ok []
    | Some fe =>
      m <- add_internal_integer e (lit "_tb_id") [] ;;
      m <- add_internal_integer e (lit "_tb_group") m ;;
      let m := add_internal_string e (lit "_tb_type") m in
      let m := add_internal_string e (lit "_tb_name") m in
      Ok (fold_left (fun m fp => hput m (fp_name fp) (property_value (fp_data fp) (get_property e (fp_name fp))))
            (fe_properties fe) m)
    end.

  (** ** Nodes *)

  Definition visual_nodes (c : vec3 T) (v : visual T) : list (node T) :=
    match v with VisNone => [] | _ => [NVisual c v] end.
  Definition collision_nodes (c : vec3 T) (k : collision T) : list (node T) :=
    match k with ColNone => [] | _ => [NCollision c k] end.

  (** [child_group.is_some() && child_group == tb_id], mod.rs:99-102 *)
  Definition is_child (parent child : entity T) : bool :=
    match get_property child (lit "_tb_group") with
    | Some g => opt_str_eqb (Some g) (get_property parent (lit "_tb_id"))
    | None => false
    end.

  (** build_entity, mod.rs:70-124.  The recursion follows the group graph, which may be cyclic, so
      it takes fuel: the depth of the recursion. *)
  Fixpoint build_entity (fuel : nat) (gd : game_data T) (fd : forge_data T) (bl : blacklist)
    (data : list (entity T * entity_geo T)) (origin : vec3 T) (d : entity T * entity_geo T)
    : res (node T) :=
    match fuel with
    | 0 => OutOfFuel
    | S fuel' =>
      let '(e, g) := d in
      v <- entity_visual gd bl e g ;;
      k <- entity_collision gd e g ;;
      children <- mapM (build_entity fuel' gd fd bl data (v3_neg O (eg_center g)))
                       (filter (fun c => is_child e (fst c)) (tl data)) ;;
      name <- unwrap (lit "classname") (get_property e (lit "classname")) ;;
      props <- get_properties fd e ;;
      Ok (NActor (v3_add O origin (eg_center g))
            (Actor name (get_entity_type gd e) (get_component_class gd e) (get_application_type gd e) props)
            (visual_nodes (eg_center g) v ++ collision_nodes (eg_center g) k ++ children))
    end.

  (** get_worldspawn_layer_visual_geometry, mod.rs:539-555 *)
  Definition layer_visual (l : worldspawn_layer) (texture : str) (bs : list (brush_geo T)) : res (visual T) :=
    match wl_visual l with
    | VNone => Ok VisNone
    | VMesh =>
      s <- texture_surface (EntityGeo (v3_zero O) bs) blacklist_default (Some texture) ;;
      Ok (match s with Some s => VisMesh [s] | None => VisNone end)
    end.

  (** build_worldspawn_layer, mod.rs:126-192; [None] when the layer has no children *)
  Definition build_layer (gd : game_data T) (layer : str * list (brush_geo T)) : res (option (node T)) :=
    let '(texture, bs) := layer in
    match filter (fun l => str_eqb (wl_texture l) texture) (gd_layers gd) with
    | [l] =>
      v <- layer_visual l texture bs ;;
      k <- collision_of (wl_collision l) (EntityGeo (v3_zero O) bs) ;;
      match visual_nodes (v3_zero O) v ++ collision_nodes (v3_zero O) k with
      | [] => Ok None
      | children =>
        Ok (Some (NActor (v3_zero O)
                    (Actor (wl_name l) (wl_type l) (script_of (wl_component l)) AProperties []) children))
      end
    | _ => Ok None
    end.

  (** scene_tree::run, mod.rs:22-68.  [layers] is the layer map in iteration order. *)
  Definition build_scene (fuel : nat) (gd : game_data T) (fd : forge_data T) (bl : blacklist)
    (data : list (entity T * entity_geo T)) (layers : list (str * list (brush_geo T)))
    : res (list (node T)) :=
    world <- mapM (build_entity fuel gd fd bl data (v3_zero O)) (firstn 1 data) ;;
    ls <- mapM (build_layer gd) layers ;;
    others <- mapM (build_entity fuel gd fd bl data (v3_zero O))
                (filter (fun d => match get_property (fst d) (lit "_tb_group") with None => true | _ => false end)
                        (tl data)) ;;
    Ok (world ++ filter_map (fun o => o) ls ++ others).
End Scene.
