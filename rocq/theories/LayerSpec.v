(** Independent statements about the layer filter. *)
From Verif Require Import Prelude F32 Text MapModel GeoModel DiffSpec.

Section LayerSpec.
  Context {T : Type}.

  Definition worldspawn (e : entity T) : Prop := hget (e_props e) (lit "classname") = Some (lit "worldspawn").

  (** [data] has exactly one worldspawn; [others] are the remaining entities in order. *)
  Definition single_world (data : list (entity T * entity_geo T)) (we : entity T) (wg : entity_geo T)
    (others : list (entity T * entity_geo T)) : Prop :=
    exists pre post, data = pre ++ (we, wg) :: post /\ others = pre ++ post /\ worldspawn we /\
      forall d, In d others -> ~ worldspawn (fst d).

  Definition water : str := lit "*water0".
  Definition slime : str := lit "*slime0".

  (** Every face of the brush has texture [name]. *)
  Definition all_faces (name : str) (b : brush_geo T) : Prop :=
    forall f, In f (bg_faces b) -> f_texture f = Some name.

  (** The layer map holds exactly these two lists. *)
  Definition two_layers (layers : hmap (list (brush_geo T))) (w s : list (brush_geo T)) : Prop :=
    hget layers water = Some w /\ hget layers slime = Some s /\
    forall k, k <> water -> k <> slime -> hget layers k = None.
End LayerSpec.
