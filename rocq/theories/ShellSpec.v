(** Meshes and concave shapes as surfaces: specification of C125. *)
From Coq Require Import Reals Permutation.
From Verif Require Import Prelude F32 Text MapModel GeoModel GameDataModel SceneModel GeoSpec RealSpec WindSpec SolidSpec EdgeSpec.
Local Open Scope R_scope.

Definition corner3 : Type := vec3 R * vec3 R * vec3 R.
(** The triangles a list of points and a list of indices stand for. *)
Definition spot (points : list (vec3 R)) (i : nat) : vec3 R := match nth_error points i with Some x => x | None => V3 0 0 0 end.
Definition drawn_triangles (points : list (vec3 R)) (ix : list nat) : list corner3 := triples (map (spot points) ix).
(** The triangles of a mesh, whatever their texture, or of a concave shape. *)
Definition shells (n : node R) : list (list corner3) :=
  match n with
  | NVisual _ (VisMesh l) => [flat_map (fun s => drawn_triangles (s_vertices s) (s_indices s)) l]
  | NCollision _ (ColConcave l) => map (fun c => drawn_triangles (cc_vertices c) (cc_indices c)) l
  | _ => []
  end.

Definition three_sides (t : corner3) : list (vec3 R * vec3 R) := let '(a, b, c) := t in [(a, b); (b, c); (c, a)].
(** Every line between two points is run as often one way as the other by the sides of triangles. *)
Definition watertight (l : list corner3) : Prop :=
  Permutation (flat_map three_sides l) (map (fun pq => (snd pq, fst pq)) (flat_map three_sides l)).
Definition encloses (l : list corner3) : Prop := exists v, 0 < v /\ forall c, sum_numbers (six_volumes c) l = 6 * v.

(** What C123 and C124 ask of a brush. *)
Definition good_brush (O : num R) (tx : texture_info) (e : entity R) (planes : list (brush_plane R)) : Prop :=
  (forall plane f, In plane planes -> build_face O tx e planes plane = Ok f -> proper plane /\ crisp planes f /\ sharp planes plane)
  /\ bounded (solid planes) /\ (exists o, deep planes o) /\ no_repeats planes.
