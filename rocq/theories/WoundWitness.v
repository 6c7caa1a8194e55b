(** The best angle function, and the slope of a pyramid seen from its middle, to try C105 on. *)
From Coq Require Import Reals Lra Lia ZArith.
From Flocq Require Import Core BinarySingleNaN.
From Verif Require Import Prelude F32 Text MapModel GeoModel Witness GatherSpec GeoSpec NumberSpec RealSpec WindSpec ArithProofs FloatProofs ExactProofs BoxSpec GeoWitness ErrorSpec ErrorProofs ErrorFinal ErrorWitness CornerSpec CornerProofs CornerWitness MeanSpec WoundSpec WindWitness.
Local Open Scope R_scope.

(** ** The nearest float of a real number *)
Definition nearest_float (r : R) : f32 :=
  B2SF (binary_normalize 24 128 eq_refl eq_refl mode_NE (ZnearestE (scaled_mantissa radix2 (SpecFloat.fexp 24 128) r)) (cexp radix2 (SpecFloat.fexp 24 128) r) false).

Lemma nearest_float_val : forall r, Rabs r <= 4 -> finite (nearest_float r) /\ val (nearest_float r) = rnd32 r.
Proof.
  intros r H. unfold nearest_float.
  pose proof (binary_normalize_correct 24 128 eq_refl eq_refl mode_NE (ZnearestE (scaled_mantissa radix2 (SpecFloat.fexp 24 128) r)) (cexp radix2 (SpecFloat.fexp 24 128) r) false) as C.
  change (F2R (Float radix2 (ZnearestE (scaled_mantissa radix2 (SpecFloat.fexp 24 128) r)) (cexp radix2 (SpecFloat.fexp 24 128) r))) with (round radix2 (SpecFloat.fexp 24 128) ZnearestE r) in C.
  cbn [round_mode] in C. rewrite (round_generic radix2 fexp32 ZnearestE (rnd32 r)) in C by (apply generic_format_round; auto with typeclass_instances; apply fexp_correct; reflexivity).
  rewrite Rlt_bool_true in C.
  - destruct C as (V & F & _). split; [apply bin_finite; exact F|]. rewrite val_bin. exact V.
  - apply rnd_big. eapply Rle_trans; [exact H|]. apply IZR_le. vm_compute. discriminate.
Qed.

(** The angle of the point, rounded once. *)
Definition best_atan2 (y x : f32) : f32 := nearest_float (real_atan2 (val y) (val x)).

Lemma best_accurate : accurate_angle (/ 1000000) best_atan2.
Proof.
  intros y x Fy Fx N. destruct (real_polar (val x) (val y) N) as (B & r & R0 & X & Y). pose proof PI_4. unfold best_atan2.
  set (t := real_atan2 (val y) (val x)) in *. assert (A : Rabs t <= 4) by (apply Rabs_le; lra). destruct (nearest_float_val t A) as [F V].
  split; [exact F|]. exists r, t. repeat (split; [assumption|]). split; [lra|]. rewrite V. eapply Rle_trans; [apply rnd_err|]. pose proof eta_small as HE. pose proof (Rabs_pos t). lra.
Qed.

Definition measured (simd : bool) : platform := {|
  p_simd := simd; p_modern_parse := true; p_neg_zero := true; p_keep_bare_cr := true; p_overflow_checks := true;
  p_cos := p_cos demo; p_atan2 := best_atan2; p_to_radians := p_to_radians demo; p_quat_rotate := p_quat_rotate demo;
  p_mat2_rotate := p_mat2_rotate demo; p_lower := p_lower demo |}.

Lemma slope_measured : forall simd, exists f, build_face (f32_num (measured simd)) textures (world []) pyramid slope = Ok f.
Proof.
  intros simd. unfold measured. generalize best_atan2 as at2. intros at2. unfold build_face.
  match goal with |- context [plane_vertices ?n ?t ?e ?ps ?q] => assert (V : exists vs, plane_vertices n t e ps q = Ok vs) end.
  { destruct simd; eexists; vm_compute; reflexivity. }
  destruct V as [vs ->]. eexists. reflexivity.
Qed.

Definition slope_corners : list (vec3 R) := map reals [s1; s2; s3].

Lemma slope_true : forall x, In x slope_corners <-> true_corner pyramid slope x.
Proof.
  assert (I1 : In (tri s0 s1 s2) pyramid) by (cbn; tauto). assert (I2 : In (tri s0 s2 s3) pyramid) by (cbn; tauto). assert (I3 : In (tri s0 s3 s1) pyramid) by (cbn; tauto).
  assert (H : forall k p1 p2, In p1 pyramid -> In p2 pyramid -> crossing slope p1 p2 (reals k) -> true_corner pyramid slope (reals k)).
  { intros k p1 p2 A B X. split; [eauto|]. apply (slope_blur p1 p2 _ A B X). }
  intros x. split.
  - intros [<-|[<-|[<-|[]]]];
    [apply (H s1 (tri s0 s3 s1) (tri s0 s1 s2))|apply (H s2 (tri s0 s1 s2) (tri s0 s2 s3))|apply (H s3 (tri s0 s2 s3) (tri s0 s3 s1))]; auto;
    (split; [apply tri_on; [grid|grid|grid|reflexivity]|]; split; [apply tri_on; [grid|grid|grid|reflexivity]|]; split; [apply tri_on; [grid|grid|grid|reflexivity]|];
     eapply Rlt_le_trans with (57 / 100); [lra|]; apply (tri_open _ _ _ _ _ _ _ _ _ 28 16 16); try grid; try lia; try (vm_compute; split; reflexivity || discriminate); [lra|];
     match goal with |- _ <= IZR ?z => replace z with 4096%Z by (vm_compute; reflexivity) end; replace (28 * 16 * 16)%Z with 7168%Z by reflexivity; lra).
  - intros [(p1 & p2 & A & B & X) _]. destruct (slope_blur p1 p2 x A B X) as (_ & _ & _ & [->|[->| ->]]); cbn; auto.
Qed.

Lemma slope_distinct : NoDup slope_corners.
Proof.
  repeat constructor; cbn [In slope_corners map]; intros H; repeat destruct H as [H|H]; try contradiction; unfold reals in H; cbn [vx vy vz s1 s2 s3] in H; injection H; intros; lra.
Qed.

Lemma slope_spread : spread 1 3 slope_corners.
Proof.
  assert (G : average slope_corners = V3 (4 / 3) (4 / 3) (4 / 3)) by (unfold average, slope_corners, reals; cbn; f_equal; field).
  unfold spread. rewrite G. cbn zeta. split.
  - intros x [<-|[<-|[<-|[]]]]; (apply Rle_trans with (sqrt (3 * 3)); [rewrite sqrt_square; lra|]); unfold norm; apply sqrt_le_1_alt; unfold inner, minus, reals; cbn [vx vy vz s1 s2 s3]; lra.
  - intros x y [<-|[<-|[<-|[]]]] [<-|[<-|[<-|[]]]] N; try (now elim N); left; unfold inner, minus, reals; cbn [vx vy vz s1 s2 s3]; lra.
Qed.

Lemma slope_blurred : blurred (/ 10000) pyramid slope.
Proof. intros p1 p2 x A B X _. apply (slope_blur p1 p2 x A B X). Qed.

Lemma slope_room : (64 + 4 * INR (length slope_corners)) * (/ 10000 + / 10 ^ 20) <= 1 * 3.
Proof. cbn [length slope_corners map INR]. replace (10 ^ 20) with 100000000000000000000 by ring. lra. Qed.

Lemma slope_thick : thick (4 * (/ 10000 + / 10 ^ 20)) slope_corners.
Proof.
  assert (N : forall a b, In a slope_corners -> In b slope_corners -> norm (minus a b) <= 6).
  { intros a b A B. apply norm_le; [lra|]. destruct A as [<-|[<-|[<-|[]]]], B as [<-|[<-|[<-|[]]]]; unfold inner, minus, reals; cbn [vx vy vz s1 s2 s3]; lra. }
  intros x y z A B C X Y Z. pose proof (N y x B A). pose proof (N z x C A).
  assert (27 <= norm (outer (minus y x) (minus z x))).
  { apply Rle_trans with (sqrt (27 * 27)); [rewrite sqrt_square; lra|]. unfold norm. apply sqrt_le_1_alt.
    destruct A as [<-|[<-|[<-|[]]]], B as [<-|[<-|[<-|[]]]]; try (now elim X); destruct C as [<-|[<-|[<-|[]]]]; try (now elim Y); try (now elim Z); unfold inner, outer, minus, reals; cbn [vx vy vz s1 s2 s3]; lra. }
  set (h := 4 * (/ 10000 + / 10 ^ 20)). assert (0 <= h <= / 1000) by (unfold h; replace (10 ^ 20) with 100000000000000000000 by ring; lra). nra.
Qed.

Theorem slope_example : forall simd, exists f, build_face (f32_num (measured simd)) textures (world []) pyramid slope = Ok f
  /\ (forall q, In q (slope :: pyramid) -> grid_plane q) /\ clear pyramid slope /\ simple pyramid slope /\ accurate_angle (/ 1000000) (p_atan2 (measured simd))
  /\ NoDup slope_corners /\ (forall x, In x slope_corners <-> true_corner pyramid slope x) /\ spread 1 3 slope_corners /\ blurred (/ 10000) pyramid slope
  /\ (64 + 4 * INR (length slope_corners)) * (/ 10000 + / 10 ^ 20) <= 1 * 3 /\ thick (4 * (/ 10000 + / 10 ^ 20)) slope_corners.
Proof.
  intros simd. destruct (slope_measured simd) as [f E]. exists f.
  exact (conj E (conj pyramid_grid (conj (proj1 slope_clear) (conj (proj2 slope_clear) (conj best_accurate (conj slope_distinct (conj slope_true (conj slope_spread (conj slope_blurred (conj slope_room slope_thick)))))))))).
Qed.
