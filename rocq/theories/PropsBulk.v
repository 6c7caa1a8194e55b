(** C134: the volume of brushes in single precision. *)
From Coq Require Import Reals ZArith.
From Verif Require Import Prelude F32 Text MapModel GeoModel RealSpec WindSpec ErrorSpec CornerSpec CoverSpec EdgeSpec ShellSpec BulkSpec
  GeoWitness TriangleWitness ErrorWitness KeptWitness CoverWitness SeamWitness BulkProofs BulkWitness.
Local Open Scope R_scope.

(** C134: the triangles of a brush enclose the volume of the true solid, measured from any point, up to what moving each corner by the allowance can do to a tetrahedron,
    once per triangle. *)
Theorem C134_volume : forall p tx e planes g b, build_brush (f32_num p) tx e planes = Ok g -> (forall q, In q planes -> grid_plane q) -> (Z.of_nat (length planes) <= 4000)%Z ->
  (forall pl, In pl planes -> good_side p planes pl b) -> forall o, deep (map plane_of planes) o -> no_repeats (map plane_of planes) -> planes <> [] ->
  exists v, 0 < v /\ true_volume planes v
    /\ forall c m, farthest planes c m -> Rabs (sum_numbers (six_volumes c) (drawn32 (bg_faces g)) - 6 * v) <= INR (length (drawn32 (bg_faces g))) * ((m + allowance b) ^ 3 - m ^ 3).
Proof. exact volume. Qed.
Print Assumptions C134_volume.

(** Their area vectors add up to as little as rounding lets them. *)
Theorem C134_area : forall p tx e planes g b, build_brush (f32_num p) tx e planes = Ok g -> (forall q, In q planes -> grid_plane q) -> (Z.of_nat (length planes) <= 4000)%Z ->
  (forall pl, In pl planes -> good_side p planes pl b) -> forall o d, deep (map plane_of planes) o -> no_repeats (map plane_of planes) -> across planes d ->
  norm (sum_vectors area_vector (drawn32 (bg_faces g))) <= INR (length (drawn32 (bg_faces g))) * ((d + 2 * allowance b) ^ 2 - d ^ 2).
Proof. exact areas. Qed.
Print Assumptions C134_area.

(** The volume is that of the same brush built with real numbers. *)
Theorem C134_exact : forall parse cosine radians atan2 quat mat2 tx e planes b', build_brush (real_num parse cosine radians atan2 quat mat2) tx e (map plane_of planes) = Ok b' ->
  polar_angle atan2 -> (forall pl, In pl planes -> clear planes pl) ->
  forall v, true_volume planes v -> forall c, sum_numbers (six_volumes c) (all_triangles (bg_faces b')) = 6 * v.
Proof. exact exact_volume. Qed.
Print Assumptions C134_exact.

(** A box with sides of 32. *)
Example C134_example : exists g, build_brush (f32_num squared) textures (world []) box6 = Ok g /\ (forall q, In q box6 -> grid_plane q) /\ (Z.of_nat (length box6) <= 4000)%Z
  /\ (forall pl, In pl box6 -> good_side squared box6 pl haze) /\ deep (map plane_of box6) heart /\ no_repeats (map plane_of box6) /\ box6 <> []
  /\ farthest box6 heart 28 /\ across box6 56 /\ length (drawn32 (bg_faces g)) = 12%nat /\ true_volume box6 (32 * 32 * 32).
Proof. exact box_bulk. Qed.
Example C134_example_exact : forall parse cosine radians quat mat2 tx e, exists b', build_brush (real_num parse cosine radians WindWitness.real_atan2 quat mat2) tx e (map plane_of box6) = Ok b'
  /\ polar_angle WindWitness.real_atan2 /\ (forall pl, In pl box6 -> clear box6 pl) /\ true_volume box6 (32 * 32 * 32).
Proof. exact box_exact. Qed.
