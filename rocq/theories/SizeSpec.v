(** The size of what is built (C126). *)
From Verif Require Import Prelude F32 Text MapModel GeoModel GameDataModel SceneModel MapSpec.

Section Size.
  Context {T : Type}.

  (** A weight added up over a node and everything below it. *)
  Fixpoint total (w : node T -> nat) (n : node T) : nat :=
    w n + match n with NActor _ _ ch => list_sum (map (total w) ch) | _ => 0 end.
  Definition totals (w : node T -> nat) (l : list (node T)) : nat := list_sum (map (total w) l).

  (** Every node, or only the actors. *)
  Definition any_node (n : node T) : nat := 1.
  Definition actor_node (n : node T) : nat := match n with NActor _ _ _ => 1 | _ => 0 end.

  (** The corners and indices a node holds. *)
  Definition surface_size (s : surface T) : nat := length (s_vertices s) + length (s_indices s).
  Definition shape_size (s : concave T) : nat := length (cc_vertices s) + length (cc_indices s).
  Definition node_size (n : node T) : nat :=
    match n with
    | NVisual _ (VisMesh l) => list_sum (map surface_size l)
    | NCollision _ (ColConvex l) => list_sum (map (fun s => length (cx_points s)) l)
    | NCollision _ (ColConcave l) => list_sum (map shape_size l)
    | _ => 0
    end.
End Size.

(** The ids written in a file. *)
Definition ids (d : doc) : list str := filter_map (fun e => doc_value e (lit "_tb_id")) d.
(** The cubes of the numbers of sides of all brushes of a file. *)
Definition cubed (d : doc) : nat :=
  list_sum (map (fun e => list_sum (map (fun b => length b * length b * length b) (doc_brushes e))) d).
