(** Edges of brushes in single precision (C131). *)
From Coq Require Import Reals ZArith.
From Verif Require Import Prelude F32 Text MapModel GeoModel RealSpec ErrorSpec CornerSpec SharedSpec CoverSpec EdgeSpec SeamSpec ErrorProofs
  GeoWitness TriangleWitness ErrorWitness KeptWitness CoverWitness SeamProofs SeamWitness.
Local Open Scope R_scope.

(** C131: the vertices of the faces stand for corners of the true solid, in an order in which each edge of a face is an edge of another in the opposite direction;
    of one other only, where no plane is there twice. *)
Theorem C131_edges : forall p tx e planes g b, build_brush (f32_num p) tx e planes = Ok g -> (forall q, In q planes -> grid_plane q) -> (Z.of_nat (length planes) <= 4000)%Z ->
  (forall pl, In pl planes -> good_side p planes pl b) ->
  exists rings, rings_of (allowance b) planes (bg_faces g) rings /\ meet rings /\ forall o, deep (map plane_of planes) o -> no_repeats (map plane_of planes) -> meet_once rings.
Proof. exact seams. Qed.
Print Assumptions C131_edges.

(** Each edge of a face in single precision is as short as rounding, or runs along an edge of another face, the other way and as near as rounding lets it. *)
Theorem C131_vertices : forall p tx e planes g b, build_brush (f32_num p) tx e planes = Ok g -> (forall q, In q planes -> grid_plane q) -> (Z.of_nat (length planes) <= 4000)%Z ->
  (forall pl, In pl planes -> good_side p planes pl b) -> forall i f v w, nth_error (bg_faces g) i = Some f -> follows (f_vertices f) v w ->
  together (2 * allowance b) v w \/ exists j f' v' w', j <> i /\ nth_error (bg_faces g) j = Some f' /\ follows (f_vertices f') w' v'
    /\ together (2 * allowance b) v v' /\ together (2 * allowance b) w w'.
Proof. exact edges_match. Qed.
Print Assumptions C131_vertices.

(** Where each corner belongs to three planes only, the number of triangles is twice that of corners less four. *)
Theorem C131_triangles : forall p tx e planes g b, build_brush (f32_num p) tx e planes = Ok g -> (forall q, In q planes -> grid_plane q) -> (Z.of_nat (length planes) <= 4000)%Z ->
  (forall pl, In pl planes -> good_side p planes pl b) -> forall o V, deep (map plane_of planes) o -> no_repeats (map plane_of planes) -> planes <> [] ->
  (forall pl, In pl planes -> simple planes pl) -> solid_corners planes V -> (index_total g + 12 = 6 * length V)%nat.
Proof. exact triangles_counted. Qed.
Print Assumptions C131_triangles.

(** A box with eight corners. *)
Example C131_example : exists g, build_brush (f32_num squared) textures (world []) box6 = Ok g /\ (forall q, In q box6 -> grid_plane q) /\ (Z.of_nat (length box6) <= 4000)%Z
  /\ (forall pl, In pl box6 -> good_side squared box6 pl haze /\ simple box6 pl) /\ deep (map plane_of box6) heart /\ no_repeats (map plane_of box6) /\ box6 <> []
  /\ solid_corners box6 (map reals eight) /\ index_total g = 36%nat.
Proof. exact box_seams. Qed.
