(** A textured face to try C101 on. *)
From Coq Require Import Reals Lra Lia ZArith.
From Verif Require Import Prelude F32 Text MapModel GeoModel NumberSpec RealSpec FloatProofs ExactProofs NumberProofs BoxSpec ErrorSpec ErrorProofs GeoWitness ErrorWitness UvSpec.
Local Open Scope R_scope.

(** A machine that turns everything by a right angle. *)
Definition turner (simd : bool) : platform := {|
  p_simd := simd; p_modern_parse := true; p_neg_zero := true; p_keep_bare_cr := true; p_overflow_checks := true;
  p_cos := p_cos (polar simd); p_atan2 := diamond; p_to_radians := fun x => x; p_quat_rotate := fun _ _ v => v;
  p_mat2_rotate := fun _ t => V2 (f32_neg (uy t)) (ux t); p_lower := fun s => s |}.

(** The slope of the pyramid with texture coordinates of both kinds. *)
Definition painted (uv : uv f32) : brush_plane f32 :=
  BrushPlane (bp_v0 slope) (bp_v1 slope) (bp_v2 slope) (lit "brick") uv (fz 90) (V2 (fz 2) (fz (-4))) ExNone.
Definition quake_paint : uv f32 := UVQuake (fz 8) (fz (-3)).
Definition valve_paint : uv f32 := UVValve (fv 1 (-1) 0) (fz 8) (fv 0 0 (-1)) (fz (-3)).
Definition painted_face (simd : bool) (uv : uv f32) : face f32 :=
  face_of (build_face (f32_num (turner simd)) textures (world []) pyramid (painted uv)).

Lemma painted_built : forall simd, build_face (f32_num (turner simd)) textures (world []) pyramid (painted quake_paint) = Ok (painted_face simd quake_paint)
  /\ build_face (f32_num (turner simd)) textures (world []) pyramid (painted valve_paint) = Ok (painted_face simd valve_paint).
Proof. intros []; split; vm_compute; reflexivity. Qed.
Lemma painted_grid : forall uv q, In q (painted uv :: pyramid) -> grid_plane q.
Proof. intros uv q [<-|H]; [exact (pyramid_grid slope (or_introl eq_refl))|exact (pyramid_grid q (or_intror H))]. Qed.

Lemma fz_int : forall z, (Z.abs z < 2 ^ 24)%Z -> finite (fz z) /\ val (fz z) = IZR z.
Proof.
  intros z H. unfold fz. destruct (Z.ltb_spec z 0) as [L|L].
  - destruct (int_of_N (Z.to_N (- z))) as [F V]; [lia|]. destruct (neg_correct _ F) as [G W]. split; [apply fin_finite; exact G|].
    unfold val in *. rewrite W, V, Z2N.id by lia. rewrite <- opp_IZR. f_equal. lia.
  - destruct (int_of_N (Z.to_N z)) as [F V]; [lia|]. split; [apply fin_finite; exact F|]. unfold val in *. rewrite V, Z2N.id by lia. reflexivity.
Qed.

Lemma painted_sane : forall simd, turns (turner simd) (fz 90) 0 1 0 /\ sane_offset (fz 8) /\ sane_offset (fz (-3)) /\ sane_scale (fz 2) /\ sane_scale (fz (-4))
  /\ sane_axis (fv 1 (-1) 0) /\ sane_axis (fv 0 0 (-1)) /\ sane_size 64.
Proof.
  intros simd. assert (L : forall a, (Z.abs a <= 4)%Z -> Rabs (val (fz a)) <= IZR 4).
  { intros a H. destruct (fz_int a) as [_ ->]; [lia|]. rewrite <- abs_IZR. apply IZR_le. exact H. }
  assert (A : forall a b c, (Z.abs a <= 4)%Z -> (Z.abs b <= 4)%Z -> (Z.abs c <= 4)%Z -> sane_axis (fv a b c)).
  { intros a b c Ha Hb Hc. split; [split; [|split]; apply fz_int; cbn; lia|].
    unfold extent, point_of, fv. cbn [vx vy vz]. split; [|split]; apply L; assumption. }
  assert (B : forall z, (Z.abs z <= 8)%Z -> sane_offset (fz z)).
  { intros z H. destruct (fz_int z) as [F V]; [lia|]. split; [exact F|]. rewrite V, <- abs_IZR. apply Rle_trans with (IZR 8); [apply IZR_le; exact H|lra]. }
  assert (C : forall z, (1 <= Z.abs z <= 8)%Z -> sane_scale (fz z)).
  { intros z H. destruct (fz_int z) as [F V]; [lia|]. split; [exact F|]. rewrite V, <- abs_IZR.
    assert (1 <= IZR (Z.abs z) <= 8) by (split; apply IZR_le; lia). lra. }
  split; [|split; [apply B; lia|split; [apply B; lia|split; [apply C; lia|split; [apply C; lia|split; [apply A; lia|split; [apply A; lia|unfold sane_size; lia]]]]]]].
  split; [ring|]. split; [lra|]. intros t Fx Fy Bx By. cbn zeta. cbn [turner p_mat2_rotate ux uy turned_by].
  apply finite_fin in Fy. destruct (neg_correct _ Fy) as [G W]. split; [apply fin_finite; exact G|]. split; [exact Fx|].
  assert (Z : forall x l, x = 0 -> Rabs x <= 0 * l) by (intros x l ->; rewrite Rabs_R0, Rmult_0_l; right; reflexivity).
  split; apply Z; [etransitivity; [exact (f_equal (fun r => r - _) W)|change SpecFloat.spec_float with f32; ring]|change SpecFloat.spec_float with f32; ring].
Qed.

Lemma painted_uvs : forall simd,
  map vt_uv (f_vertices (painted_face simd quake_paint)) = map Some
    [V2 (f32_div (fz 10) (fz 64)) (f32_div (fz (-3)) (fz 64)); V2 (f32_div (fz 8) (fz 64)) (f32_div (fz (-4)) (fz 64)); V2 (f32_div (fz 8) (fz 64)) (f32_div (fz (-3)) (fz 64))] /\
  map vt_uv (f_vertices (painted_face simd valve_paint)) = map Some
    [V2 (f32_div (fz 6) (fz 64)) (f32_div (fz (-3)) (fz 64)); V2 (f32_div (fz 10) (fz 64)) (f32_div (fz (-3)) (fz 64)); V2 (f32_div (fz 8) (fz 64)) (f32_div (fz (-2)) (fz 64))].
Proof. intros []; split; vm_compute; reflexivity. Qed.
