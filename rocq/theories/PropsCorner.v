(** One corner per true corner (C92) and gaps between faces (C93), in single precision. *)
From Coq Require Import Reals.
From Verif Require Import Prelude F32 Text MapModel GeoModel GeoSpec RealSpec ErrorSpec CornerSpec ErrorProofs GeoWitness ErrorWitness CornerProofs CornerWitness.
Local Open Scope R_scope.

(** C92: a face has one corner for each corner of its side of the true solid.  In full (for all brushes with whole
    points) this is false: each side of a pyramid 4 wide and 3 high has the top twice, and with it a second triangle. *)
Theorem C92_corners_refuted : forall simd, exists p tx e planes plane f xs v w x, p_simd p = simd
  /\ build_face (f32_num p) tx e planes plane = Ok f /\ In plane planes
  /\ (forall q, In q planes -> grid_plane q /\ extent 4 (bp_v0 (plane_of q)) /\ extent 4 (bp_v1 (plane_of q)) /\ extent 4 (bp_v2 (plane_of q)))
  /\ (forall x, true_corner planes plane x <-> In x xs) /\ length xs = 3%nat /\ length (f_vertices f) = 4%nat
  /\ f_indices f = [0; 1; 2; 0; 2; 3]%nat
  /\ In v (f_vertices f) /\ In w (f_vertices f) /\ In x xs /\ vt_pos v <> vt_pos w
  /\ norm (minus (point_of (vt_pos v)) x) <= / 100000 /\ norm (minus (point_of (vt_pos w)) x) <= / 100000.
Proof. exact twice. Qed.
Print Assumptions C92_corners_refuted.

(** It holds where every corner belongs to one pair of planes and no decision of the code is closer than rounding. *)
Theorem C92_corners_partial : forall p tx e planes plane f, build_face (f32_num p) tx e planes plane = Ok f ->
  (forall q, In q (plane :: planes) -> grid_plane q) -> (Z.of_nat (length planes) <= 4000)%Z -> clear planes plane -> simple planes plane ->
  exists xs, NoDup xs /\ (forall x, In x xs <-> true_corner planes plane x) /\ Forall2 (shows planes plane (f_center f)) (f_vertices f) xs.
Proof. exact one_corner_each. Qed.
Print Assumptions C92_corners_partial.

Example C92_example : (forall q, In q (slope :: pyramid) -> grid_plane q) /\ clear pyramid slope /\ simple pyramid slope
  /\ forall simd, build_face (f32_num (polar simd)) textures (world []) pyramid slope = Ok (slope_face simd).
Proof. exact (conj pyramid_grid (conj (proj1 slope_clear) (conj (proj2 slope_clear) pyramid_built))). Qed.

(** C93: where faces of a brush meet in a corner, they have the corner in the same place.  In full this is false:
    a tetrahedron with whole corners up to 64 has faces whose common corner differs. *)
Theorem C93_shared_refuted : forall simd, exists p tx e planes plane other f f' v x, p_simd p = simd
  /\ build_face (f32_num p) tx e planes plane = Ok f /\ build_face (f32_num p) tx e planes other = Ok f' /\ In plane planes /\ In other planes
  /\ (forall q, In q planes -> grid_plane q /\ extent 64 (bp_v0 (plane_of q)) /\ extent 64 (bp_v1 (plane_of q)) /\ extent 64 (bp_v2 (plane_of q)))
  /\ true_corner planes plane x /\ true_corner planes other x
  /\ In v (f_vertices f) /\ norm (minus (point_of (vt_pos v)) x) <= / 10000
  /\ forall w, In w (f_vertices f') -> point_of (vt_pos w) <> point_of (vt_pos v).
Proof. exact gaps. Qed.
Print Assumptions C93_shared_refuted.

(** The gap is at most twice the rounding of a corner. *)
Theorem C93_gap_partial : forall p tx e planes plane f v, build_face (f32_num p) tx e planes plane = Ok f -> (forall q, In q planes -> grid_plane q) ->
  (Z.of_nat (length planes) <= 4000)%Z -> In plane planes -> clear planes plane -> In v (f_vertices f) ->
  exists p1 p2 x, In p1 planes /\ In p2 planes /\ crossing plane p1 p2 x /\ in_solid planes x /\
    forall q f', q = p1 \/ q = p2 -> build_face (f32_num p) tx e planes q = Ok f' ->
      exists w, In w (f_vertices f') /\ norm (minus (point_of (vt_pos v)) (point_of (vt_pos w)))
        <= 2 * blur plane p1 p2 x + / 2 ^ 23 * (norm (point_of (f_center f)) + norm (point_of (f_center f'))) + 2 / 10 ^ 30.
Proof. exact narrow_gaps. Qed.
Print Assumptions C93_gap_partial.

Example C93_example : In slope pyramid /\ clear pyramid slope /\ blur slope (tri s0 s3 s1) (tri s0 s1 s2) (reals s1) <= / 10000
  /\ length (f_vertices (slope_face true)) = 3%nat.
Proof.
  split; [cbn; tauto|]. split; [apply slope_clear|]. split; [|vm_compute; reflexivity].
  apply (slope_blur (tri s0 s3 s1) (tri s0 s1 s2) (reals s1)); [cbn; tauto|cbn; tauto|].
  destruct pyramid_corner as (_ & _ & A & B & C & D & _). repeat (split; [assumption|]). eapply Rlt_le_trans; [|exact D]. apply Rmult_lt_0_compat; [|apply Rinv_0_lt_compat]; apply (IZR_lt 0); reflexivity.
Qed.
