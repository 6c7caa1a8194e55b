(** Corners and edges of brushes (C128). *)
From Coq Require Import Reals.
From Verif Require Import Prelude F32 Text MapModel GeoModel RealSpec EdgeSpec NeighbourSpec.

(** All corners of a brush, each once. *)
Definition all_corners (b : brush_geo R) (V : list (vec3 R)) : Prop :=
  NoDup V /\ forall x, In x V <-> exists f v, In f (bg_faces b) /\ In v (f_vertices f) /\ vt_pos v = x.
(** All edges of its faces, each in one direction. *)
Definition all_edges (b : brush_geo R) (E : list (vec3 R * vec3 R)) : Prop :=
  NoDup E /\ (forall p q, In (p, q) E -> ~ In (q, p) E)
  /\ forall p q, (exists f, In f (shown b) /\ edge f p q) <-> In (p, q) E \/ In (q, p) E.
(** The number of indices of all faces. *)
Definition index_count (b : brush_geo R) : nat := fold_right (fun f n => (length (f_indices f) + n)%nat) 0%nat (bg_faces b).
