(** Length and direction of normals in single precision (C95, C96). *)
From Coq Require Import Reals.
From Verif Require Import Prelude F32 Text MapModel GeoModel Witness GatherSpec GeoSpec NumberSpec RealSpec GeoWitness ErrorSpec ErrorWitness NormalProofs NormalWitness.
Local Open Scope R_scope.

(** C95: the normals of all vertices have length one up to a few units in the last place, smoothed or not. *)
Theorem C95_unit : forall p tx e planes plane f v, build_face (f32_num p) tx e planes plane = Ok f ->
  (forall q, In q (plane :: planes) -> grid_plane q) -> In v (f_vertices f) ->
  finite_point (vt_normal v) /\ Rabs (norm (point_of (vt_normal v)) - 1) <= / 2 ^ 21.
Proof. exact unit_normals. Qed.
Print Assumptions C95_unit.

Example C95_example : (forall q, In q (flat_side :: blade) -> grid_plane q)
  /\ forall simd, build_face (f32_num (polar simd)) textures shaded blade flat_side = Ok (blade_face shaded simd)
       /\ length (f_vertices (blade_face shaded simd)) = 3%nat.
Proof.
  split; [intros q H; apply blade_grid; destruct H as [<-|H]; [now left|exact H]|].
  intros simd. split; [apply blade_built; now left|]. destruct simd; vm_compute; reflexivity.
Qed.

(** C96: a smoothed normal faces the side its face does.  In full this is false: at the tip of a blade the sum of the three normals
    faces almost straight into the brush. *)
Theorem C96_refuted : forall simd, exists p tx e planes plane f v, p_simd p = simd /\ build_face (f32_num p) tx e planes plane = Ok f /\ In plane planes
  /\ (forall q, In q planes -> grid_plane q) /\ phong e /\ In v (f_vertices f)
  /\ inner (facing (plane_of plane)) (point_of (vt_normal v)) <= - (9 / 10) * norm (facing (plane_of plane)).
Proof. exact inwards. Qed.
Print Assumptions C96_refuted.

(** It holds with a readable smoothing angle whose cosine is not negative: the normal is within 67 degrees of the face's ... *)
Theorem C96_angle_partial : forall p tx e planes plane f v s a, build_face (f32_num p) tx e planes plane = Ok f ->
  (forall q, In q (plane :: planes) -> grid_plane q) -> In v (f_vertices f) -> phong e ->
  hget (e_props e) (lit "_phong_angle") = Some s -> n_parse (f32_num p) s = Some a ->
  finite (n_cos (f32_num p) (n_mul (f32_num p) (n_add (f32_num p) a (n_centi (f32_num p))) (n_degree (f32_num p)))) ->
  0 <= val (n_cos (f32_num p) (n_mul (f32_num p) (n_add (f32_num p) a (n_centi (f32_num p))) (n_degree (f32_num p)))) ->
  2 / 5 * norm (facing (plane_of plane)) <= inner (facing (plane_of plane)) (point_of (vt_normal v)).
Proof. exact outward_angle. Qed.
Print Assumptions C96_angle_partial.

(** ... or if the planes that meet in the face's corners do so at blunt or right angles with it. *)
Theorem C96_blunt_partial : forall p tx e planes plane f v, build_face (f32_num p) tx e planes plane = Ok f ->
  (forall q, In q (plane :: planes) -> grid_plane q) -> In v (f_vertices f) -> phong e ->
  (forall p1 p2 x, meets (f32_num p) planes plane p1 p2 x ->
     0 <= inner (facing (plane_of plane)) (facing (plane_of p1)) /\ 0 <= inner (facing (plane_of plane)) (facing (plane_of p2))) ->
  2 / 5 * norm (facing (plane_of plane)) <= inner (facing (plane_of plane)) (point_of (vt_normal v)).
Proof. exact outward_blunt. Qed.
Print Assumptions C96_blunt_partial.

Example C96_angle_example : forall simd, build_face (f32_num (polar simd)) textures limited blade flat_side = Ok (blade_face limited simd)
  /\ phong limited /\ hget (e_props limited) (lit "_phong_angle") = Some (lit "89")
  /\ (exists a, n_parse (f32_num (polar simd)) (lit "89") = Some a)
  /\ (forall a, finite (n_cos (f32_num (polar simd)) a) /\ 0 <= val (n_cos (f32_num (polar simd)) a))
  /\ length (f_vertices (blade_face limited simd)) = 3%nat.
Proof. exact (fun simd => conj (blade_built simd limited (or_intror eq_refl)) (blade_limited simd)). Qed.

Example C96_blunt_example : forall simd, (build_face (f32_num (polar simd)) textures shaded dice top_side = Ok (dice_face simd)
  /\ length (f_vertices (dice_face simd)) = 4%nat) /\ (forall q, In q dice -> grid_plane q) /\ phong shaded
  /\ (forall p1 p2 x, meets (f32_num (polar simd)) dice top_side p1 p2 x ->
     0 <= inner (facing (plane_of top_side)) (facing (plane_of p1)) /\ 0 <= inner (facing (plane_of top_side)) (facing (plane_of p2))).
Proof. exact (fun simd => conj (dice_built simd) (conj dice_grid (conj eq_refl (dice_blunt simd)))). Qed.
