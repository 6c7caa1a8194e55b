(** A brush to try the geometry theorems on. *)
From Coq Require Import SpecFloat Lia Reals Lra.
From Flocq Require Import Core.
From Verif Require Import Prelude F32 Text MapModel GeoModel Witness GatherSpec GeoSpec RealSpec FloatProofs ColorProofs BaseProofs ExactProofs DegenerateProofs
  RealProofs BoxSpec BoxFinal.
Local Close Scope R_scope.
Local Open Scope nat_scope.

Definition fz (z : Z) : f32 := if (z <? 0)%Z then f32_neg (f32_of_N (Z.to_N (- z))) else f32_of_N (Z.to_N z).
Definition fv (x y z : Z) : vec3 f32 := V3 (fz x) (fz y) (fz z).

(** An angle-like function of directions: increasing counter-clockwise, 0 to 4. *)
Definition diamond (y x : f32) : f32 :=
  let neg a := match f32_cmp a f32_zero with Some Lt => true | _ => false end in
  if neg y then
    if neg x then f32_add (fz 2) (f32_div y (f32_add y x)) else f32_add (fz 3) (f32_div x (f32_sub x y))
  else if neg x then f32_sub (fz 2) (f32_div y (f32_sub y x)) else f32_div y (f32_add x y).
Definition polar (simd : bool) : platform := {|
  p_simd := simd; p_modern_parse := true; p_neg_zero := true; p_keep_bare_cr := true; p_overflow_checks := true;
  p_cos := p_cos demo; p_atan2 := diamond; p_to_radians := p_to_radians demo; p_quat_rotate := p_quat_rotate demo;
  p_mat2_rotate := p_mat2_rotate demo; p_lower := p_lower demo |}.

Definition wall_at (a b c : vec3 f32) (uv : uv f32) : brush_plane f32 :=
  BrushPlane a b c (lit "brick") uv f32_zero (V2 f32_one f32_one) ExNone.

(** The box from [lo] to [hi]; each side is given by a corner and two edges of the given lengths. *)
Definition box_planes (x y z x' y' z' m n : Z) (uv : uv f32) : list (brush_plane f32) := [
  wall_at (fv x' y z) (fv x' y (z + n)) (fv x' (y + m) z) uv;
  wall_at (fv x y z) (fv x (y + n) z) (fv x y (z + m)) uv;
  wall_at (fv x y' z) (fv (x + n) y' z) (fv x y' (z + m)) uv;
  wall_at (fv x y z) (fv x y (z + n)) (fv (x + m) y z) uv;
  wall_at (fv x y z') (fv x (y + n) z') (fv (x + m) y z') uv;
  wall_at (fv x y z) (fv (x + n) y z) (fv x (y + m) z) uv ]%Z.
Definition crate (uv : uv f32) : list (brush_plane f32) := box_planes (-16) (-8) 0 16 24 32 8 8 uv.
Definition standard_uv : uv f32 := UVQuake (fz 0) (fz 0).
Definition textures : texture_info := [(lit "brick", (64, 64)%N)].
Definition world (extra : list (str * str)) : entity f32 :=
  Entity ((lit "classname", lit "worldspawn") :: extra) [crate standard_uv].

Definition face_of (r : res (face f32)) : face f32 := match r with Ok f => f | _ => Face (fv 0 0 0) [] [] None end.
Definition crate_face (extra : list (str * str)) (i : nat) : face f32 :=
  match nth_error (crate standard_uv) i with
  | Some pl => face_of (build_face (f32_num (polar true)) textures (world extra) (crate standard_uv) pl)
  | None => Face (fv 0 0 0) [] [] None
  end.

(** Whole numbers as floats. *)
Lemma fz_int : forall z, (Z.abs z < 2 ^ 24)%Z -> int (fz z) z.
Proof.
  intros z H. unfold fz. destruct (Z.ltb_spec z 0).
  - replace z with (- (- z))%Z at 2 by lia. apply int_neg. replace (- z)%Z with (Z.of_N (Z.to_N (- z))) at 2 by lia. apply int_of_N. lia.
  - replace z with (Z.of_N (Z.to_N z)) at 2 by lia. apply int_of_N. lia.
Qed.
Lemma fv_ints : forall x y z, (Z.abs x < 2 ^ 24)%Z -> (Z.abs y < 2 ^ 24)%Z -> (Z.abs z < 2 ^ 24)%Z -> at_ints (fv x y z) (V3 x y z).
Proof. intros x y z A B C. split; [|split]; cbn [fv vx vy vz]; now apply fz_int. Qed.

(** Such boxes satisfy the hypotheses about boxes. *)
Lemma box_planes_ok : forall x y z x' y' z' m n uv,
  (Z.abs x <= 2 ^ 20 -> Z.abs y <= 2 ^ 20 -> Z.abs z <= 2 ^ 20 -> Z.abs x' <= 2 ^ 20 -> Z.abs y' <= 2 ^ 20 -> Z.abs z' <= 2 ^ 20 ->
   0 < m < 2 ^ 20 -> 0 < n < 2 ^ 20 -> m * n < 2 ^ 23 ->
  Forall2 (fun pl s => box_plane (V3 x y z) (V3 x' y' z') s (m * n) pl) (box_planes x y z x' y' z' m n uv) all_sides)%Z.
Proof.
  intros x y z x' y' z' m n uv H1 H2 H3 H4 H5 H6 H7 H8 K.
  unfold box_planes, all_sides. repeat (apply Forall2_cons); [..|apply Forall2_nil];
  (do 3 eexists; exists m, n; split; [apply fv_ints; lia|]; split; [apply fv_ints; lia|]; split; [apply fv_ints; lia|];
   cbn [on_side vx vy vz]; split; [repeat split; cbn [vx vy vz]; lia|]; split; [reflexivity|]; split; [reflexivity|]; split; [reflexivity|];
   split; [nia|]; split; [unfold zouter, zminus, ztimes; cbn [outward vx vy vz]; f_equal; ring|];
   split; [repeat split; cbn [zminus vx vy vz]; lia|]; split; [repeat split; cbn [zminus vx vy vz]; lia|]; lia).
Qed.

Lemma crate_ok : forall uv, Forall2 (fun pl s => box_plane (V3 (-16) (-8) 0)%Z (V3 16 24 32)%Z s 64 pl) (crate uv) all_sides.
Proof. intros uv. apply (box_planes_ok (-16) (-8) 0 16 24 32 8 8 uv); lia. Qed.
Lemma crate_box : box (V3 (-16) (-8) 0)%Z (V3 16 24 32)%Z.
Proof. unfold box, coords. cbn [vx vy vz]. lia. Qed.

(** A cube whose planes are given by long triangles; 41 times the rounded reciprocal of 41 is not 1. *)
Definition odd_cube : list (brush_plane f32) := box_planes 0 0 0 41 41 41 41 1 standard_uv.
Definition odd_plane : brush_plane f32 := wall_at (fv 41 0 0) (fv 41 0 1) (fv 41 41 0) standard_uv.
Definition odd_face : face f32 := Eval vm_compute in face_of (build_face (f32_num (polar false)) textures (world []) odd_cube odd_plane).
Lemma odd_built : build_face (f32_num (polar false)) textures (world []) odd_cube odd_plane = Ok odd_face.
Proof. vm_compute. reflexivity. Qed.
Lemma odd_refutes : forall v, In v (f_vertices odd_face) -> ~ at_ints (vt_normal v) (V3 1 0 0)%Z.
Proof.
  assert (H : forallb (fun v => match f32_cmp (vx (vt_normal v)) f32_one with Some Eq => false | _ => true end) (f_vertices odd_face) = true)
    by (vm_compute; reflexivity).
  intros v Hv (A & _). rewrite forallb_forall in H. specialize (H v Hv). cbv beta in H.
  assert (E : f32_cmp (vx (vt_normal v)) f32_one = Some Eq).
  { destruct A as [F V]. rewrite cmp_correct by (auto using fin_one). rewrite V, val_one. f_equal. apply Rcompare_Eq. reflexivity. }
  rewrite E in H. discriminate.
Qed.
Theorem box_refuted : exists p lo hi b s area plane f v, p_simd p = false /\ box lo hi
  /\ (Forall2 (fun pl s => box_plane lo hi s area pl) b all_sides) /\ In plane b /\ box_plane lo hi s area plane
  /\ build_face (f32_num p) textures (world []) b plane = Ok f /\ In v (f_vertices f) /\ ~ phong (world [])
  /\ ~ at_ints (vt_normal v) (outward s).
Proof.
  assert (F : Forall2 (fun pl s => box_plane (V3 0 0 0)%Z (V3 41 41 41)%Z s 41 pl) odd_cube all_sides) by (apply (box_planes_ok 0 0 0 41 41 41 41 1); lia).
  assert (V : exists v, In v (f_vertices odd_face)) by (eexists; left; reflexivity). destruct V as (v & Hv).
  exists (polar false), (V3 0 0 0)%Z, (V3 41 41 41)%Z, odd_cube, XUp, 41%Z, odd_plane, odd_face, v.
  split; [reflexivity|]. split; [unfold box, coords; cbn [vx vy vz]; lia|]. split; [exact F|].
  split; [left; reflexivity|]. split; [inversion F; assumption|]. split; [exact odd_built|]. split; [exact Hv|].
  split; [discriminate|]. apply odd_refutes. exact Hv.
Qed.

Lemma crate_normals : forall p : platform, Forall (plain_normal p) (crate standard_uv).
Proof.
  intros p. apply Forall_forall. intros pl Hpl. destruct (Forall2_in_l _ _ _ _ _ _ (crate_ok standard_uv) Hpl) as (s & _ & H).
  eapply normal_plain; [exact H|]. right. exists 6%Z. split; [lia|reflexivity].
Qed.

(** ** A room corner over the reals *)
Local Open Scope R_scope.
Definition through (b c : vec3 R) : brush_plane R := BrushPlane (V3 0 0 0) b c (lit "brick") (UVQuake 0 0) 0 (V2 1 1) ExNone.
Definition ex : vec3 R := V3 1 0 0.
Definition ey : vec3 R := V3 0 1 0.
Definition ez : vec3 R := V3 0 0 1.
Definition room : list (brush_plane R) := [through ey ex; through ez ey; through ex ez].
Lemma room_corner : proper (through ey ex) /\ proper (through ez ey) /\ proper (through ex ez)
  /\ spans (through ey ex) (through ez ey) (through ex ez)
  /\ on_plane (through ey ex) (V3 0 0 0) /\ on_plane (through ez ey) (V3 0 0 0) /\ on_plane (through ex ez) (V3 0 0 0)
  /\ forall q, In q room -> within (/ 1000) q (V3 0 0 0).
Proof.
  assert (N : forall b c, In (through b c) room -> norm (facing (through b c)) = 1).
  { intros b c [E|[E|[E|[]]]]; injection E as <- <-; unfold norm; rewrite <- sqrt_1; f_equal; unfold inner, facing, outer, minus; cbn; ring. }
  assert (I1 : In (through ey ex) room) by (cbn; auto). assert (I2 : In (through ez ey) room) by (cbn; auto).
  assert (I3 : In (through ex ez) room) by (cbn; auto).
  unfold proper, spans. rewrite !N by assumption.
  split; [lra|]. split; [lra|]. split; [lra|]. split; [unfold inner, facing, outer, minus; cbn; lra|].
  split; [unfold on_plane, inner, facing, outer, minus; cbn; ring|]. split; [unfold on_plane, inner, facing, outer, minus; cbn; ring|].
  split; [unfold on_plane, inner, facing, outer, minus; cbn; ring|].
  intros q Hq. destruct Hq as [<-|[<-|[<-|[]]]]; unfold within; rewrite N by assumption; unfold inner, facing, outer, minus; cbn; lra.
Qed.

Lemma room_face : forall parse cosine radians atan2 quat mat2, exists f,
  build_face (real_num parse cosine radians atan2 quat mat2) textures (Entity [] [room]) room (through ey ex) = Ok f
  /\ In (V3 0 0 0) (map vt_pos (f_vertices f)) /\ hget textures (bp_texture (through ey ex)) = Some (64, 64)%N.
Proof.
  intros parse cosine radians atan2 quat mat2.
  destruct (real_total parse cosine radians atan2 quat mat2 textures (Entity [] [room]) room (through ey ex)) as [f E].
  exists f. split; [exact E|]. split; [|reflexivity]. apply (proj2 (real_corners _ _ _ _ _ _ _ _ _ _ _ E)).
  destruct room_corner as (A & B & C & D & F & G & H & I). exists (through ez ey), (through ex ez).
  repeat (split; [solve [cbn; auto|assumption]|]). exact I.
Qed.
