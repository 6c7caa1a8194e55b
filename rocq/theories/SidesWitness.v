(** The cube with its sides in another order, and a pyramid smoothed in two ways (C121). *)
From Coq Require Import Reals Lra Lia ZArith Permutation.
From Verif Require Import Prelude F32 Text MapModel GeoModel Witness GeoSpec NumberSpec RealSpec WindSpec FloatProofs ExactProofs GeoWitness ErrorSpec ErrorProofs ErrorFinal ErrorWitness
  NormalWitness RestateSpec SidesSpec RealProofs WindProofs WindWitness SidesProofs.
Local Open Scope R_scope.

Lemma cube_trihedral : trihedral cube.
Proof.
  intros p0 p1 p2 p3 x I0 I1 I2 I3 S A0 A1 A2 A3 _. unfold spans in S. rewrite !cube_norm in S by assumption.
  destruct x as [x y z]. unfold on_plane in *. cbn [cube In] in I0, I1, I2, I3.
  repeat destruct I0 as [<-|I0]; try contradiction; repeat destruct I1 as [<-|I1]; try contradiction; repeat destruct I2 as [<-|I2]; try contradiction;
    try (exfalso; unfold facing, inner, outer, minus, lid, panel in S; cbn in S; lra);
    repeat destruct I3 as [<-|I3]; try contradiction; try (left; reflexivity); try (right; left; reflexivity); try (right; right; reflexivity);
    exfalso; unfold facing, inner, outer, minus, lid, panel in A0, A1, A2, A3; cbn in A0, A1, A2, A3; lra.
Qed.

(** ** A pyramid with sides at 45 degrees *)
Definition y0 : vec3 Z := V3 (-4)%Z (-4)%Z 0%Z.
Definition y1 : vec3 Z := V3 4%Z (-4)%Z 0%Z.
Definition y2 : vec3 Z := V3 4%Z 4%Z 0%Z.
Definition y3 : vec3 Z := V3 (-4)%Z 4%Z 0%Z.
Definition peak : vec3 Z := V3 0%Z 0%Z 4%Z.
Definition slope : brush_plane f32 := tri y0 peak y1.
Definition pyramid : list (brush_plane f32) := [tri y0 y1 y2; slope; tri y1 peak y2; tri y2 peak y3; tri y3 peak y0].
Definition slope_face (simd : bool) (planes : list (brush_plane f32)) : face f32 := face_of (build_face (f32_num (polar simd)) textures shaded planes slope).

Definition tip (v : vertex f32) (s : bool) : Prop := vx (vt_normal v) = SpecFloat.S754_finite s 10610844 (-25).
Theorem two_ways : forall simd, exists p tx e planes planes' plane f f' v v', p_simd p = simd /\ phong e /\ (forall q, In q planes -> grid_plane q)
  /\ Permutation planes planes' /\ In plane planes /\ build_face (f32_num p) tx e planes plane = Ok f /\ build_face (f32_num p) tx e planes' plane = Ok f'
  /\ map vt_pos (f_vertices f) = map vt_pos (f_vertices f') /\ In v (f_vertices f) /\ In v' (f_vertices f') /\ vt_pos v = vt_pos v'
  /\ val (vx (vt_normal v)) <= - (3 / 10) /\ 3 / 10 <= val (vx (vt_normal v')).
Proof.
  intros simd.
  assert (H : match nth_error (f_vertices (slope_face simd pyramid)) 2, nth_error (f_vertices (slope_face simd (rev pyramid))) 2 with
    | Some v, Some v' => vt_pos v = vt_pos v' /\ tip v true /\ tip v' false | _, _ => False end).
  { destruct simd; vm_compute; repeat split; reflexivity. }
  destruct (nth_error (f_vertices (slope_face simd pyramid)) 2) as [v|] eqn:V; [|destruct H].
  destruct (nth_error (f_vertices (slope_face simd (rev pyramid))) 2) as [v'|] eqn:V'; [|destruct H].
  destruct H as (Ep & T & T'). apply nth_error_In in V, V'.
  exists (polar simd), textures, shaded, pyramid, (rev pyramid), slope, (slope_face simd pyramid), (slope_face simd (rev pyramid)), v, v'.
  split; [reflexivity|]. split; [reflexivity|]. split.
  { intros q I. cbn [In pyramid] in I. repeat (destruct I as [<-|I]; [apply (tri_grid _ _ _ 8 8); [grid|grid|grid|znum|znum|znum|lia]|]). destruct I. }
  split; [apply Permutation_rev|]. split; [right; now left|]. split; [destruct simd; vm_compute; reflexivity|]. split; [destruct simd; vm_compute; reflexivity|].
  split; [clear; destruct simd; vm_compute; reflexivity|]. split; [exact V|]. split; [exact V'|]. split; [exact Ep|]. unfold tip in T, T'. rewrite T, T'.
  change (val (SpecFloat.S754_finite true 10610844 (-25))) with (IZR (Zneg 10610844) / IZR (2 ^ 25)).
  change (val (SpecFloat.S754_finite false 10610844 (-25))) with (IZR (Zpos 10610844) / IZR (2 ^ 25)).
  replace (2 ^ 25)%Z with 33554432%Z by reflexivity. lra.
Qed.
