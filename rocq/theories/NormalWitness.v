(** A blade whose smoothed normal faces inwards, and a pyramid to try C95 and C96 on. *)
From Coq Require Import Reals Lra Lia ZArith.
From Flocq Require Import Core BinarySingleNaN.
From Verif Require Import Prelude F32 Text MapModel GeoModel Witness GatherSpec GeoSpec NumberSpec RealSpec ArithProofs FloatProofs ExactProofs BoxSpec GeoWitness ErrorSpec ErrorProofs ErrorFinal ErrorWitness NormalProofs.
Local Open Scope R_scope.

Definition b0 : vec3 Z := V3 0%Z 0%Z 0%Z.
Definition b1 : vec3 Z := V3 (-32)%Z 0%Z (-64)%Z.
Definition b2 : vec3 Z := V3 32%Z 0%Z (-64)%Z.
Definition b3 : vec3 Z := V3 0%Z 8%Z (-64)%Z.
(** Facing -y; the other two sides at the tip face +y. *)
Definition flat_side : brush_plane f32 := tri b0 b2 b1.
Definition blade : list (brush_plane f32) := [flat_side; tri b0 b3 b2; tri b0 b1 b3; tri b1 b2 b3].
Definition shaded : entity f32 := world [(lit "_phong", lit "1")].
Definition limited : entity f32 := world [(lit "_phong", lit "1"); (lit "_phong_angle", lit "89")].
Definition blade_face (e : entity f32) (simd : bool) : face f32 := face_of (build_face (f32_num (polar simd)) textures e blade flat_side).

Lemma blade_grid : forall q, In q blade -> grid_plane q.
Proof.
  intros q H. cbn [In blade] in H. repeat (destruct H as [<-|H]; [apply (tri_grid _ _ _ 64 64); [grid|grid|grid|znum|znum|znum|lia]|]). destruct H.
Qed.
Lemma blade_built : forall simd e, e = shaded \/ e = limited -> build_face (f32_num (polar simd)) textures e blade flat_side = Ok (blade_face e simd).
Proof. intros [] e [->| ->]; vm_compute; reflexivity. Qed.


Definition tip_normal (v : vertex f32) : Prop :=
  vx (vt_normal v) = SpecFloat.S754_zero false /\ exists m, vy (vt_normal v) = SpecFloat.S754_finite false m (-24) /\ (15728640 <= m)%positive.
Lemma tip_value : forall simd, match nth_error (f_vertices (blade_face shaded simd)) 1 with Some v => tip_normal v | None => False end.
Proof.
  intros [].
  - vm_compute. split; [reflexivity|]. eexists. split; [reflexivity|]. discriminate.
  - vm_compute. split; [reflexivity|]. eexists. split; [reflexivity|]. discriminate.
Qed.

Theorem inwards : forall simd, exists p tx e planes plane f v, p_simd p = simd /\ build_face (f32_num p) tx e planes plane = Ok f /\ In plane planes
  /\ (forall q, In q planes -> grid_plane q) /\ phong e /\ In v (f_vertices f)
  /\ inner (facing (plane_of plane)) (point_of (vt_normal v)) <= - (9 / 10) * norm (facing (plane_of plane)).
Proof.
  intros simd. pose proof (tip_value simd) as T. destruct (nth_error (f_vertices (blade_face shaded simd)) 1) as [v|] eqn:V; [|destruct T].
  apply nth_error_In in V. exists (polar simd), textures, shaded, blade, flat_side, (blade_face shaded simd), v.
  split; [reflexivity|]. split; [apply blade_built; now left|]. split; [now left|]. split; [apply blade_grid|]. split; [reflexivity|]. split; [exact V|].
  clear V. destruct T as (X & m & Y & M). unfold flat_side. rewrite tri_facing by grid. unfold point_of. rewrite X, Y.
  replace (zfacing b0 b2 b1) with (V3 0 (-4096) 0)%Z by (vm_compute; reflexivity).
  assert (N : norm (reals (V3 0 (-4096) 0)%Z) = 4096).
  { unfold norm, inner, reals. cbn [vx vy vz]. replace (_ + _ + _) with (4096 * 4096) by lra. apply sqrt_square. lra. }
  rewrite N. unfold inner, reals. cbn [vx vy vz]. change (val (SpecFloat.S754_zero false)) with 0.
  change (val (SpecFloat.S754_finite false m (-24))) with (IZR (Zpos m) / IZR (2 ^ 24)). replace (2 ^ 24)%Z with 16777216%Z by reflexivity.
  apply Pos2Z.pos_le_pos in M. apply IZR_le in M. lra.
Qed.

(** With an angle the same corner faces outwards. *)
Lemma blade_limited : forall simd, phong limited /\ hget (e_props limited) (lit "_phong_angle") = Some (lit "89")
  /\ (exists a, n_parse (f32_num (polar simd)) (lit "89") = Some a)
  /\ (forall a, finite (n_cos (f32_num (polar simd)) a) /\ 0 <= val (n_cos (f32_num (polar simd)) a))
  /\ length (f_vertices (blade_face limited simd)) = 3%nat.
Proof.
  intros simd. split; [reflexivity|]. split; [reflexivity|]. split; [destruct simd; vm_compute; eexists; reflexivity|]. split; [|destruct simd; vm_compute; reflexivity].
  intros a. change (n_cos (f32_num (polar simd)) a) with f32_zero. split; [apply fin_finite; split; reflexivity|change (val f32_zero) with 0; lra].
Qed.

(** ** A cube, where planes meet at right angles *)
Definition c0 : vec3 Z := V3 0%Z 0%Z 0%Z.
Definition cx : vec3 Z := V3 16%Z 0%Z 0%Z.
Definition cy : vec3 Z := V3 0%Z 16%Z 0%Z.
Definition cz : vec3 Z := V3 0%Z 0%Z 16%Z.
Definition cxy : vec3 Z := V3 16%Z 16%Z 0%Z.
Definition cyz : vec3 Z := V3 0%Z 16%Z 16%Z.
Definition cxz : vec3 Z := V3 16%Z 0%Z 16%Z.
Definition top_side : brush_plane f32 := tri cz cyz cxz.
Definition dice : list (brush_plane f32) := [tri cx cxz cxy; tri c0 cy cz; tri cy cxy cyz; tri c0 cz cx; top_side; tri c0 cx cy].
Definition dice_face (simd : bool) : face f32 := face_of (build_face (f32_num (polar simd)) textures shaded dice top_side).
Lemma dice_grid : forall q, In q dice -> grid_plane q.
Proof.
  intros q H. cbn [In dice] in H. repeat (destruct H as [<-|H]; [apply (tri_grid _ _ _ 64 64); [grid|grid|grid|znum|znum|znum|lia]|]). destruct H.
Qed.
Lemma dice_built : forall simd, build_face (f32_num (polar simd)) textures shaded dice top_side = Ok (dice_face simd) /\ length (f_vertices (dice_face simd)) = 4%nat.
Proof. intros []; vm_compute; split; reflexivity. Qed.
Lemma tri_dot : forall a b c a' b' c', on_grid a -> on_grid b -> on_grid c -> on_grid a' -> on_grid b' -> on_grid c' -> (0 <= zinner (zfacing a b c) (zfacing a' b' c'))%Z ->
  0 <= inner (facing (plane_of (tri a b c))) (facing (plane_of (tri a' b' c'))).
Proof. intros a b c a' b' c' A B C A' B' C' H. rewrite !tri_facing by assumption. rewrite inner_reals. apply (IZR_le 0). exact H. Qed.
Lemma dice_blunt : forall simd p1 p2 x, meets (f32_num (polar simd)) dice top_side p1 p2 x ->
  0 <= inner (facing (plane_of top_side)) (facing (plane_of p1)) /\ 0 <= inner (facing (plane_of top_side)) (facing (plane_of p2)).
Proof.
  intros simd p1 p2 x (I1 & I2 & E & _). unfold top_side in *. cbn [In dice] in I1, I2.
  destruct I1 as [<-|[<-|[<-|[<-|[<-|[<-|[]]]]]]]; destruct I2 as [<-|[<-|[<-|[<-|[<-|[<-|[]]]]]]];
    first [destruct simd; vm_compute in E; discriminate E | split; apply tri_dot; grid].
Qed.
