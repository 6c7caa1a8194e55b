(** Trees with the same actors and other geometry (C115). *)
From Coq Require Import Permutation.
From Verif Require Import Prelude F32 Text MapModel GeoModel SceneModel TreeSpec.

Section Rework.
  (** [fixed] if actors stay where they are; how visuals and collision geometries are related. *)
  Context (fixed : Prop) (V : visual f32 -> visual f32 -> Prop) (K : collision f32 -> collision f32 -> Prop).

  (** The same actors in the same arrangement, with related geometry. *)
  Inductive reworked : node f32 -> node f32 -> Prop :=
  | Reworked o o' a c c' v v' k k' g g' l l' : (fixed -> o = o' /\ c = c') -> V v v' -> K k k' ->
      geometry_nodes_of c v k g -> geometry_nodes_of c' v' k' g' -> Forall2 reworked l l' ->
      reworked (NActor o a (g ++ l)) (NActor o' a (g' ++ l')).

  (** World, layers in some order, and other entities. *)
  Definition reworked_run (nodes nodes' : list (node f32)) : Prop :=
    exists world layers rest world' layers' mid rest', nodes = world :: layers ++ rest /\ nodes' = world' :: layers' ++ rest'
      /\ reworked world world' /\ Permutation layers mid /\ Forall2 reworked mid layers' /\ Forall2 reworked rest rest'.
End Rework.
