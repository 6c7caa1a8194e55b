(** Layer filter.  Models src/layer_filter/mod.rs. *)
From Verif Require Import Prelude F32 Text MapModel GeoModel.

Section Layers.
  Context {T : Type}.

  (** mod.rs:18-21 *)
  Definition is_worldspawn (d : entity T * entity_geo T) : bool :=
    match get_property (fst d) (lit "classname") with
    | Some c => str_eqb c (lit "worldspawn")
    | None => false
    end.

  (** brush_geometry_by_layer, mod.rs:66-76 *)
  Definition in_layer (layer : str) (b : brush_geo T) : bool :=
    forallb (fun f => match f_texture f with Some t => str_eqb t layer | None => false end) (bg_faces b).

  (** mod.rs:36 *)
  Definition layer_textures : list str := [lit "*water0"; lit "*slime0"].

  (** Loop mod.rs:39-46: for each layer texture split the remaining brushes *)
  Fixpoint split_layers (layers : list str) (brushes : list (brush_geo T))
    (acc : hmap (list (brush_geo T))) : list (brush_geo T) * hmap (list (brush_geo T)) :=
    match layers with
    | [] => (brushes, acc)
    | t :: ts =>
      let '(mine, others) := partition (in_layer t) brushes in
      split_layers ts others (hput acc t mine)
    end.

  (** layer_filter::run, mod.rs:5-64 *)
  Definition layer_filter (data : list (entity T * entity_geo T))
    : res (list (entity T * entity_geo T) * hmap (list (brush_geo T))) :=
    let '(world, others) := partition is_worldspawn data in
    match world with
    | [(we, wg)] =>
      let '(rest, layers) := split_layers layer_textures (eg_brushes wg) [] in
      Ok ((we, EntityGeo (eg_center wg) rest) :: others, layers)
    | _ => Panic (lit "Worldspawn element not a singleton")
    end.
End Layers.
