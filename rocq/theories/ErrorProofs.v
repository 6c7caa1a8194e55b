(** Rounding errors of plane normals, projections and meeting points (C89 to C91). *)
From Coq Require Import Reals Lra Lia ZArith.
From Flocq Require Import Core BinarySingleNaN Relative.
From Verif Require Import Prelude F32 Text MapModel GeoModel GeoSpec NumberSpec BaseProofs FloatProofs NumberProofs ColorProofs ExactProofs RealSpec BoxSpec BoxProofs ArithProofs ErrorSpec.
Local Open Scope R_scope.

Notation u := (/ 16777216).
Definition eta : R := bpow radix2 (-150).
Definition B50 : R := 1125899906842624.
Definition B60 : R := 1152921504606846976.

Lemma eta_small : 0 < eta <= / 1000000000000000000000000000000000000000000.
Proof.
  split; [apply bpow_gt_0|]. unfold eta. change (-150)%Z with (- (150))%Z. rewrite bpow_opp. change (bpow radix2 150) with (IZR (2 ^ 150)).
  apply Rinv_le_contravar; [lra|]. apply IZR_le. lia.
Qed.

Lemma u_bpow : u = / 2 * bpow radix2 (- (24) + 1).
Proof. change (bpow radix2 (- (24) + 1)) with (/ 8388608). lra. Qed.

Lemma rnd_rel : forall r, r = 0 \/ bpow radix2 (-126) <= Rabs r -> Rabs (rnd32 r - r) <= u * Rabs r.
Proof.
  intros r [->|H]; [rewrite round_0, Rminus_0_r, Rabs_R0 by apply valid_rnd_N; lra|].
  rewrite u_bpow. apply (relative_error_N_FLT radix2 (SpecFloat.emin 24 128) 24 prec24 (fun x => negb (Z.even x)) r). exact H.
Qed.

Lemma rnd_err : forall r, Rabs (rnd32 r - r) <= u * Rabs r + eta.
Proof.
  intros r. destruct (Rle_or_lt (bpow radix2 (-126)) (Rabs r)) as [H|H].
  - pose proof (rnd_rel r (or_intror H)). pose proof eta_small. lra.
  - assert (E : Rabs (rnd32 r - r) <= / 2 * ulp radix2 fexp32 r) by (apply error_le_half_ulp; apply fexp32_valid).
    assert (U : ulp radix2 fexp32 r = bpow radix2 (-149)).
    { apply (ulp_FLT_small radix2 (SpecFloat.emin 24 128) 24 r). eapply Rlt_le_trans; [exact H|]. apply bpow_le. cbn. lia. }
    rewrite U in E. replace (/ 2 * bpow radix2 (-149)) with eta in E.
    + pose proof (Rabs_pos r). lra.
    + unfold eta. change (-149)%Z with (1 + -150)%Z. rewrite bpow_plus. cbn [bpow]. change (IZR (Z.pow_pos radix2 1)) with 2. lra.
Qed.

Lemma big_bound : IZR (2 ^ 110) < bpow radix2 128.
Proof. change (bpow radix2 128) with (IZR (2 ^ 128)). apply IZR_lt. lia. Qed.

Lemma rnd_big : forall r, Rabs r <= IZR (2 ^ 105) -> Rabs (rnd32 r) < bpow radix2 128.
Proof.
  intros r H. pose proof (rnd_err r) as E. pose proof eta_small. pose proof big_bound.
  change (IZR (2 ^ 105)) with 40564819207303340847894502572032 in H. change (IZR (2 ^ 110)) with 1298074214633706907132624082305024 in *.
  replace (rnd32 r) with ((rnd32 r - r) + r) by ring.
  eapply Rle_lt_trans; [apply Rabs_triang|]. lra.
Qed.

Lemma prod_bound : forall x y a b, Rabs x <= a -> Rabs y <= b -> Rabs (x * y) <= a * b.
Proof. intros x y a b Hx Hy. rewrite Rabs_mult. apply Rmult_le_compat; auto using Rabs_pos. Qed.

Lemma mul_err : forall x y, fin x -> fin y -> Rabs (val x) <= B50 -> Rabs (val y) <= B50 ->
  fin (f32_mul x y) /\ Rabs (val (f32_mul x y) - val x * val y) <= u * Rabs (val x * val y) + eta.
Proof.
  intros x y Fx Fy Bx By. destruct (mul_correct x y Fx Fy) as [F V].
  - apply rnd_big. eapply Rle_trans; [apply (prod_bound _ _ _ _ Bx By)|]. unfold B50. rewrite <- mult_IZR. apply IZR_le. vm_compute. discriminate.
  - split; [exact F|]. rewrite V. apply rnd_err.
Qed.

Lemma add_err : forall x y, fin x -> fin y -> Rabs (val x) <= B60 -> Rabs (val y) <= B60 ->
  fin (f32_add x y) /\ Rabs (val (f32_add x y) - (val x + val y)) <= u * Rabs (val x + val y) + eta.
Proof.
  intros x y Fx Fy Bx By. destruct (add_correct x y Fx Fy) as [F V].
  - apply rnd_big. eapply Rle_trans; [apply Rabs_triang|]. unfold B60 in *. change (IZR (2 ^ 105)) with 40564819207303340847894502572032. lra.
  - split; [exact F|]. rewrite V. apply rnd_err.
Qed.

Lemma sub_err : forall x y, fin x -> fin y -> Rabs (val x) <= B60 -> Rabs (val y) <= B60 ->
  fin (f32_sub x y) /\ Rabs (val (f32_sub x y) - (val x - val y)) <= u * Rabs (val x - val y) + eta.
Proof.
  intros x y Fx Fy Bx By. destruct (sub_correct x y Fx Fy) as [F V].
  - apply rnd_big. unfold Rminus. eapply Rle_trans; [apply Rabs_triang|]. rewrite Rabs_Ropp. unfold B60 in *. change (IZR (2 ^ 105)) with 40564819207303340847894502572032. lra.
  - split; [exact F|]. rewrite V. apply rnd_err.
Qed.

(** ** Norms *)
Definition vabs (a : vec3 R) : vec3 R := V3 (Rabs (vx a)) (Rabs (vy a)) (Rabs (vz a)).
Definition vplus (a b : vec3 R) : vec3 R := V3 (vx a + vx b) (vy a + vy b) (vz a + vz b).
Definition vscale (k : R) (a : vec3 R) : vec3 R := V3 (k * vx a) (k * vy a) (k * vz a).

Lemma inner_pos : forall a, 0 <= inner a a.
Proof. intros a. unfold inner. pose proof (Rle_0_sqr (vx a)). pose proof (Rle_0_sqr (vy a)). pose proof (Rle_0_sqr (vz a)). unfold Rsqr in *. lra. Qed.
Lemma norm_pos : forall a, 0 <= norm a.
Proof. intros a. apply sqrt_pos. Qed.
Lemma norm_sq : forall a, norm a * norm a = inner a a.
Proof. intros a. apply sqrt_sqrt, inner_pos. Qed.
Lemma norm_le : forall a k, 0 <= k -> inner a a <= k * k -> norm a <= k.
Proof. intros a k K H. unfold norm. rewrite <- (sqrt_square k K). apply sqrt_le_1_alt. exact H. Qed.
Lemma le_sq : forall x k, 0 <= k -> x * x <= k * k -> x <= k.
Proof. intros x k K H. apply Rnot_lt_le. intros L. assert (k * k < x * x) by (apply Rmult_le_0_lt_compat; lra). lra. Qed.

Lemma cauchy : forall a b, inner a b <= norm a * norm b.
Proof.
  intros a b. apply le_sq; [apply Rmult_le_pos; apply norm_pos|].
  replace (norm a * norm b * (norm a * norm b)) with (inner a a * inner b b) by (rewrite <- !norm_sq; ring).
  unfold inner. destruct a as [a b0 c], b as [d e f]. cbn [vx vy vz].
  pose proof (Rle_0_sqr (a * e - b0 * d)). pose proof (Rle_0_sqr (a * f - c * d)). pose proof (Rle_0_sqr (b0 * f - c * e)). unfold Rsqr in *. lra.
Qed.

Lemma norm_vabs : forall a, norm (vabs a) = norm a.
Proof. intros a. unfold norm, inner, vabs. cbn [vx vy vz]. f_equal. rewrite <- !Rabs_mult. rewrite !Rabs_pos_eq by apply Rle_0_sqr. reflexivity. Qed.

Lemma cauchy_abs : forall a b, Rabs (vx a * vx b) + Rabs (vy a * vy b) + Rabs (vz a * vz b) <= norm a * norm b.
Proof. intros a b. rewrite <- (norm_vabs a), <- (norm_vabs b). rewrite !Rabs_mult. apply (cauchy (vabs a) (vabs b)). Qed.

Lemma abs_inner : forall a b, Rabs (inner a b) <= norm a * norm b.
Proof.
  intros a b. eapply Rle_trans; [|apply cauchy_abs]. unfold inner.
  eapply Rle_trans; [apply Rabs_triang|]. apply Rplus_le_compat_r. apply Rabs_triang.
Qed.

Lemma norm_triangle : forall a b, norm (vplus a b) <= norm a + norm b.
Proof.
  intros a b. apply norm_le; [pose proof (norm_pos a); pose proof (norm_pos b); lra|].
  replace ((norm a + norm b) * (norm a + norm b)) with (inner a a + 2 * (norm a * norm b) + inner b b) by (rewrite <- !norm_sq; ring).
  pose proof (cauchy a b). unfold inner, vplus in *. cbn [vx vy vz] in *. lra.
Qed.

Lemma norm_scale : forall k a, norm (vscale k a) = Rabs k * norm a.
Proof.
  intros k a. unfold norm. rewrite <- (sqrt_Rsqr_abs k). rewrite <- sqrt_mult by (auto using inner_pos, Rle_0_sqr). f_equal. unfold inner, vscale, Rsqr. cbn [vx vy vz]. ring.
Qed.

Lemma sq_mono : forall x y, Rabs x <= y -> x * x <= y * y.
Proof.
  intros x y H. replace (x * x) with (Rabs x * Rabs x).
  - apply Rmult_le_compat; auto using Rabs_pos.
  - rewrite <- Rabs_mult. apply Rabs_pos_eq, Rle_0_sqr.
Qed.

Lemma norm_mono : forall a b, Rabs (vx a) <= vx b -> Rabs (vy a) <= vy b -> Rabs (vz a) <= vz b -> norm a <= norm b.
Proof.
  intros a b X Y Z. apply norm_le; [apply norm_pos|]. rewrite norm_sq. unfold inner.
  pose proof (sq_mono _ _ X). pose proof (sq_mono _ _ Y). pose proof (sq_mono _ _ Z). lra.
Qed.

(** A vector with small coordinates is short. *)
Lemma norm_cube : forall a k, Rabs (vx a) <= k -> Rabs (vy a) <= k -> Rabs (vz a) <= k -> norm a <= 7 / 4 * k.
Proof.
  intros a k X Y Z. assert (K : 0 <= k) by (pose proof (Rabs_pos (vx a)); lra). apply norm_le; [lra|]. unfold inner.
  pose proof (sq_mono _ _ X). pose proof (sq_mono _ _ Y). pose proof (sq_mono _ _ Z). pose proof (Rle_0_sqr k). unfold Rsqr in *. lra.
Qed.

Lemma coord_norm : forall a, Rabs (vx a) <= norm a /\ Rabs (vy a) <= norm a /\ Rabs (vz a) <= norm a.
Proof.
  intros a. assert (H : forall x, x * x <= inner a a -> Rabs x <= norm a).
  { intros x H. apply le_sq; [apply norm_pos|]. rewrite norm_sq. rewrite <- Rabs_mult, Rabs_pos_eq by apply Rle_0_sqr. exact H. }
  pose proof (Rle_0_sqr (vx a)). pose proof (Rle_0_sqr (vy a)). pose proof (Rle_0_sqr (vz a)). unfold Rsqr in *.
  repeat split; apply H; unfold inner; lra.
Qed.

(** Coordinatewise error bounds give a bound of the norm. *)
Lemma norm_combine : forall a b c i j k, 0 <= i -> 0 <= j -> 0 <= k ->
  Rabs (vx a) <= i * Rabs (vx b) + j * Rabs (vx c) + k ->
  Rabs (vy a) <= i * Rabs (vy b) + j * Rabs (vy c) + k ->
  Rabs (vz a) <= i * Rabs (vz b) + j * Rabs (vz c) + k -> norm a <= i * norm b + j * norm c + 7 / 4 * k.
Proof.
  intros a b c i j k I J K X Y Z.
  eapply Rle_trans; [apply (norm_mono a (vplus (vplus (vscale i (vabs b)) (vscale j (vabs c))) (V3 k k k))); cbn; lra|].
  eapply Rle_trans; [apply norm_triangle|]. apply Rplus_le_compat.
  - eapply Rle_trans; [apply norm_triangle|]. rewrite !norm_scale, !norm_vabs, !(Rabs_pos_eq i), !(Rabs_pos_eq j) by assumption. lra.
  - apply norm_cube; cbn; rewrite Rabs_pos_eq; lra.
Qed.

(** ** Unit normals *)
Lemma fin_finite : forall x, fin x -> finite x.
Proof. intros x [A B]. split; [exact A|]. rewrite is_finite_SF_finite. exact B. Qed.

Definition fins (v : vec3 f32) : Prop := fin (vx v) /\ fin (vy v) /\ fin (vz v).
Lemma finite_fins : forall v, finite_point v <-> fins v.
Proof. intros v. split; intros (A & B & C); (split; [|split]); auto using finite_fin, fin_finite. Qed.

(** [v] is [n] up to a relative error in every coordinate. *)
Definition close (k : R) (v : vec3 f32) (n : vec3 R) : Prop :=
  fins v /\ Rabs (val (vx v) - vx n) <= k * Rabs (vx n) /\ Rabs (val (vy v) - vy n) <= k * Rabs (vy n) /\ Rabs (val (vz v) - vz n) <= k * Rabs (vz n).

Definition unit_along (F : vec3 R) : vec3 R := vscale (/ norm F) F.
Lemma unit_norm : forall F, norm F <> 0 -> norm (unit_along F) = 1.
Proof.
  intros F H. unfold unit_along. rewrite norm_scale. pose proof (norm_pos F). rewrite Rabs_pos_eq; [apply Rinv_l; exact H|].
  apply Rlt_le, Rinv_0_lt_compat. lra.
Qed.

Definition reals (k : vec3 Z) : vec3 R := V3 (IZR (vx k)) (IZR (vy k)) (IZR (vz k)).

Lemma int_square : forall x k, int x k -> (Z.abs k < 2 ^ 24)%Z ->
  fin (f32_mul x x) /\ Rabs (val (f32_mul x x) - IZR k * IZR k) <= u * (IZR k * IZR k).
Proof.
  intros x k I K. destruct (square x k I K) as [F V]. split; [exact F|]. rewrite V.
  replace (IZR (Z.abs k) * IZR (Z.abs k)) with (IZR k * IZR k).
  2:{ rewrite <- !mult_IZR. f_equal. lia. }
  eapply Rle_trans; [apply rnd_rel|].
  - destruct (Z.eq_dec k 0) as [->|N]; [left; ring|right]. rewrite <- mult_IZR, <- abs_IZR.
    apply Rle_trans with 1; [change 1 with (bpow radix2 0); apply bpow_le; lia|]. apply (IZR_le 1). nia.
  - rewrite Rabs_pos_eq; [lra|]. apply Rle_0_sqr.
Qed.

Lemma pos_add : forall x y, fin x -> fin y -> 0 <= val x <= B60 -> 0 <= val y <= B60 -> val x + val y = 0 \/ / 2 <= val x + val y ->
  fin (f32_add x y) /\ Rabs (val (f32_add x y) - (val x + val y)) <= u * (val x + val y).
Proof.
  intros x y Fx Fy Bx By L. destruct (add_correct x y Fx Fy) as [F V].
  - apply rnd_big. rewrite Rabs_pos_eq by lra. unfold B60 in *. change (IZR (2 ^ 105)) with 40564819207303340847894502572032. lra.
  - split; [exact F|]. rewrite V. eapply Rle_trans; [apply rnd_rel|rewrite Rabs_pos_eq; lra].
    destruct L as [L|L]; [left; exact L|right]. rewrite Rabs_pos_eq by lra. eapply Rle_trans; [|exact L].
    change (/ 2) with (bpow radix2 (-1)). apply bpow_le. lia.
Qed.

Lemma sq_range : forall k, (Z.abs k < 2 ^ 24)%Z -> (k = 0%Z \/ 1 <= IZR k * IZR k) /\ 0 <= IZR k * IZR k <= 281474976710656.
Proof.
  intros k K. rewrite <- mult_IZR. split.
  - destruct (Z.eq_dec k 0) as [E|E]; [left; exact E|right; apply (IZR_le 1); nia].
  - split; [apply (IZR_le 0); nia|apply IZR_le; nia].
Qed.

Lemma root_err : forall s r, fin s -> 1 <= r -> Rabs (val s - r) <= 31 / 10 * u * r ->
  fin (f32_sqrt s) /\ Rabs (val (f32_sqrt s) - sqrt r) <= 27 / 10 * u * sqrt r.
Proof.
  intros s r F R1 E. apply Rabs_le_inv in E. assert (P : 0 < val s) by lra.
  destruct (sqrt_correct s F P) as [G V]. split; [exact G|]. rewrite V.
  assert (S1 : 1 <= sqrt r) by (rewrite <- sqrt_1; apply sqrt_le_1_alt; exact R1).
  assert (S2 : 9 / 10 <= sqrt (val s)).
  { apply le_sq; [apply sqrt_pos|]. rewrite sqrt_sqrt by lra. lra. }
  assert (D : Rabs (sqrt (val s) - sqrt r) <= 16 / 10 * u * sqrt r).
  { assert (M : (sqrt (val s) - sqrt r) * (sqrt (val s) + sqrt r) = val s - r).
    { transitivity (sqrt (val s) * sqrt (val s) - sqrt r * sqrt r); [ring|]. rewrite !sqrt_sqrt by lra. reflexivity. }
    assert (S3 : 99 / 100 * sqrt r <= sqrt (val s)).
    { apply le_sq; [apply sqrt_pos|]. rewrite sqrt_sqrt by lra.
      replace (99 / 100 * sqrt r * (99 / 100 * sqrt r)) with (9801 / 10000 * (sqrt r * sqrt r)) by field. rewrite sqrt_sqrt by lra. lra. }
    assert (Q : sqrt r * sqrt r = r) by (apply sqrt_sqrt; lra).
    apply Rabs_le. split.
    - apply Rnot_lt_le. intros L. assert (sqrt (val s) - sqrt r < 0) by lra.
      assert ((sqrt (val s) - sqrt r) * (sqrt (val s) + sqrt r) < - (16 / 10 * u * sqrt r) * (199 / 100 * sqrt r)).
      { apply Ropp_lt_cancel. replace (- (- (16 / 10 * u * sqrt r) * (199 / 100 * sqrt r))) with ((16 / 10 * u * sqrt r) * (199 / 100 * sqrt r)) by ring.
        replace (- ((sqrt (val s) - sqrt r) * (sqrt (val s) + sqrt r))) with ((sqrt r - sqrt (val s)) * (sqrt (val s) + sqrt r)) by ring.
        apply Rle_lt_trans with ((16 / 10 * u * sqrt r) * (sqrt (val s) + sqrt r)).
        - apply Rmult_le_compat_l; lra.
        - apply Rmult_lt_compat_r; lra. }
      rewrite M in *. replace (- (16 / 10 * u * sqrt r) * (199 / 100 * sqrt r)) with (- (3184 / 1000 * u) * (sqrt r * sqrt r)) in * by field. rewrite Q in *. lra.
    - apply Rnot_lt_le. intros L. assert (sqrt (val s) - sqrt r > 0) by lra.
      assert ((16 / 10 * u * sqrt r) * (199 / 100 * sqrt r) < (sqrt (val s) - sqrt r) * (sqrt (val s) + sqrt r)).
      { apply Rle_lt_trans with ((16 / 10 * u * sqrt r) * (sqrt (val s) + sqrt r)).
        - apply Rmult_le_compat_l; lra.
        - apply Rmult_lt_compat_r; lra. }
      rewrite M in *. replace ((16 / 10 * u * sqrt r) * (199 / 100 * sqrt r)) with (3184 / 1000 * u * (sqrt r * sqrt r)) in * by field. rewrite Q in *. lra. }
  assert (X : Rabs (rnd32 (sqrt (val s)) - sqrt (val s)) <= u * Rabs (sqrt (val s))).
  { apply rnd_rel. right. rewrite Rabs_pos_eq by apply sqrt_pos. apply Rle_trans with (/ 2); [|lra]. change (/ 2) with (bpow radix2 (-1)). apply bpow_le. lia. }
  rewrite (Rabs_pos_eq (sqrt (val s))) in X by apply sqrt_pos.
  apply Rabs_le_inv in D. apply Rabs_le_inv in X. apply Rabs_le. lra.
Qed.

(** The length of a vector of integers. *)
Lemma length_err : forall v k, at_ints v k -> coords (fun c => Z.abs c < 2 ^ 24)%Z k -> norm (reals k) <> 0 ->
  1 <= norm (reals k) <= 33554432 /\
  let l := f32_sqrt (f32_add (f32_add (f32_mul (vx v) (vx v)) (f32_mul (vy v) (vy v))) (f32_mul (vz v) (vz v))) in
  fin l /\ Rabs (val l - norm (reals k)) <= 27 / 10 * u * norm (reals k).
Proof.
  intros v k (A & B & C) (D & E & F) N.
  destruct (int_square _ _ A D) as [Fx Vx]. destruct (int_square _ _ B E) as [Fy Vy]. destruct (int_square _ _ C F) as [Fz Vz].
  destruct (sq_range _ D) as [Dx Rx]. destruct (sq_range _ E) as [Dy Ry]. destruct (sq_range _ F) as [Dz Rz].
  set (X := IZR (vx k) * IZR (vx k)) in *. set (Y := IZR (vy k) * IZR (vy k)) in *. set (Z := IZR (vz k) * IZR (vz k)) in *.
  assert (Q : norm (reals k) = sqrt (X + Y + Z)) by reflexivity.
  assert (X0 : X = 0 \/ 1 <= X) by (destruct Dx as [e|e]; [left; unfold X; rewrite e; ring|right; exact e]).
  assert (Y0 : Y = 0 \/ 1 <= Y) by (destruct Dy as [e|e]; [left; unfold Y; rewrite e; ring|right; exact e]).
  assert (Z0 : Z = 0 \/ 1 <= Z) by (destruct Dz as [e|e]; [left; unfold Z; rewrite e; ring|right; exact e]).
  assert (L : 1 <= X + Y + Z).
  { destruct X0 as [e|e], Y0 as [e1|e1], Z0 as [e2|e2]; try lra. exfalso. apply N. rewrite Q, e, e1, e2, !Rplus_0_r. apply sqrt_0. }
  apply Rabs_le_inv in Vx, Vy, Vz. clearbody X Y Z.
  destruct (pos_add _ _ Fx Fy) as [F1 V1]; [unfold B60; lra|unfold B60; lra|destruct X0, Y0; [left|right|right|right]; lra|].
  apply Rabs_le_inv in V1.
  destruct (pos_add _ _ F1 Fz) as [F2 V2]; [unfold B60; lra|unfold B60; lra|right; destruct X0, Y0, Z0; lra|].
  apply Rabs_le_inv in V2.
  destruct (root_err _ (X + Y + Z) F2 L) as [F3 V3]; [apply Rabs_le; lra|].
  rewrite Q. split; [|split; [exact F3|exact V3]]. split.
  - rewrite <- sqrt_1. apply sqrt_le_1_alt. exact L.
  - rewrite <- (sqrt_square 33554432) by lra. apply sqrt_le_1_alt. lra.
Qed.

Lemma quotient_err : forall x k l N, int x k -> (Z.abs k < 2 ^ 24)%Z -> fin l -> 1 <= N <= 33554432 -> Rabs (val l - N) <= 27 / 10 * u * N ->
  fin (f32_div x l) /\ Rabs (val (f32_div x l) - IZR k / N) <= 38 / 10 * u * Rabs (IZR k / N).
Proof.
  intros x k l N [Fx Vx] K Fl HN E. apply Rabs_le_inv in E.
  assert (L : 0 < val l) by lra. set (A := IZR k / N). set (t := N / val l).
  assert (T : Rabs (t - 1) <= 271 / 100 * u).
  { replace (t - 1) with ((N - val l) / val l) by (unfold t; field; lra). unfold Rdiv. rewrite Rabs_mult, (Rabs_pos_eq (/ val l)) by (apply Rlt_le, Rinv_0_lt_compat; lra).
    apply Rmult_le_reg_r with (val l); [exact L|]. rewrite Rmult_assoc, Rinv_l, Rmult_1_r by lra. apply Rabs_le. lra. }
  assert (Q : val x / val l = A * t) by (unfold A, t; rewrite Vx; field; lra).
  assert (AT : Rabs (A * t - A) <= 271 / 100 * u * Rabs A).
  { replace (A * t - A) with (A * (t - 1)) by ring. rewrite Rabs_mult, Rmult_comm. apply Rmult_le_compat_r; [apply Rabs_pos|exact T]. }
  assert (S : k = 0%Z \/ / 67108864 <= Rabs (A * t)).
  { destruct (Z.eq_dec k 0) as [e|e]; [left; exact e|right]. rewrite <- Q, Vx. unfold Rdiv. rewrite Rabs_mult, (Rabs_pos_eq (/ val l)) by (apply Rlt_le, Rinv_0_lt_compat; lra).
    assert (1 <= Rabs (IZR k)) by (rewrite <- abs_IZR; apply (IZR_le 1); lia).
    assert (/ 67108864 <= / val l) by (apply Rinv_le_contravar; lra). rewrite <- (Rmult_1_l (/ 67108864)). apply Rmult_le_compat; lra. }
  assert (G : Rabs (A * t) <= 33554432).
  { assert (AB : Rabs A <= 16777216).
    { unfold A, Rdiv. rewrite Rabs_mult, (Rabs_pos_eq (/ N)) by (apply Rlt_le, Rinv_0_lt_compat; lra). rewrite <- abs_IZR.
      assert (/ N <= 1) by (rewrite <- Rinv_1; apply Rinv_le_contravar; lra). assert (IZR (Z.abs k) <= 16777216) by (apply IZR_le; lia).
      rewrite <- (Rmult_1_r 16777216). apply Rmult_le_compat; try lra; [apply (IZR_le 0); lia|apply Rlt_le, Rinv_0_lt_compat; lra]. }
    replace (A * t) with ((A * t - A) + A) by ring. eapply Rle_trans; [apply Rabs_triang|]. lra. }
  destruct (div_correct x l Fx Fl) as [F V]; [lra|rewrite Q; apply rnd_big; change (IZR (2 ^ 105)) with 40564819207303340847894502572032; lra|].
  split; [exact F|]. rewrite V, Q.
  assert (X : Rabs (rnd32 (A * t) - A * t) <= u * Rabs (A * t)).
  { apply rnd_rel. destruct S as [e|S]; [left; unfold A; rewrite e; unfold Rdiv; ring|right]. eapply Rle_trans; [|exact S].
    change (/ 67108864) with (bpow radix2 (-26)). apply bpow_le. lia. }
  assert (M : Rabs (A * t) <= Rabs A + 271 / 100 * u * Rabs A).
  { replace (A * t) with (A + (A * t - A)) by ring. eapply Rle_trans; [apply Rabs_triang|]. lra. }
  replace (rnd32 (A * t) - A) with ((rnd32 (A * t) - A * t) + (A * t - A)) by ring.
  eapply Rle_trans; [apply Rabs_triang|]. pose proof (Rabs_pos A). lra.
Qed.

Lemma product_err : forall x k r N, int x k -> (Z.abs k < 2 ^ 24)%Z -> fin r -> 1 <= N <= 33554432 -> Rabs (val r - / N) <= 38 / 10 * u * / N ->
  fin (f32_mul x r) /\ Rabs (val (f32_mul x r) - IZR k / N) <= 5 * u * Rabs (IZR k / N).
Proof.
  intros x k r N [Fx Vx] K Fr HN E.
  assert (I : 0 < / N) by (apply Rinv_0_lt_compat; lra).
  assert (I1 : / N <= 1) by (rewrite <- Rinv_1; apply Rinv_le_contravar; lra).
  assert (I2 : / 33554432 <= / N) by (apply Rinv_le_contravar; lra).
  assert (KB : Rabs (IZR k) <= 16777216) by (rewrite <- abs_IZR; apply IZR_le; lia).
  assert (A : Rabs (IZR k / N) = Rabs (IZR k) * / N) by (unfold Rdiv; rewrite Rabs_mult, (Rabs_pos_eq (/ N)) by lra; reflexivity).
  assert (D : Rabs (IZR k * val r - IZR k / N) <= 38 / 10 * u * Rabs (IZR k / N)).
  { replace (IZR k * val r - IZR k / N) with (IZR k * (val r - / N)) by (unfold Rdiv; ring). rewrite Rabs_mult, A.
    replace (38 / 10 * u * (Rabs (IZR k) * / N)) with (Rabs (IZR k) * (38 / 10 * u * / N)) by ring. apply Rmult_le_compat_l; [apply Rabs_pos|exact E]. }
  apply Rabs_le_inv in E.
  assert (M : Rabs (IZR k * val r) <= Rabs (IZR k / N) + 38 / 10 * u * Rabs (IZR k / N)).
  { replace (IZR k * val r) with (IZR k / N + (IZR k * val r - IZR k / N)) by ring. eapply Rle_trans; [apply Rabs_triang|]. lra. }
  assert (C : Rabs (IZR k / N) <= 16777216).
  { rewrite A, <- (Rmult_1_r 16777216). apply Rmult_le_compat; try lra. apply Rabs_pos. }
  destruct (mul_correct x r Fx Fr) as [F V]; [rewrite Vx; apply rnd_big; change (IZR (2 ^ 105)) with 40564819207303340847894502572032; lra|].
  split; [exact F|]. rewrite V, Vx.
  assert (X : Rabs (rnd32 (IZR k * val r) - IZR k * val r) <= u * Rabs (IZR k * val r)).
  { apply rnd_rel. destruct (Z.eq_dec k 0) as [e|e]; [left; rewrite e; ring|right].
    apply Rle_trans with (/ 67108864); [change (/ 67108864) with (bpow radix2 (-26)); apply bpow_le; lia|].
    rewrite Rabs_mult, (Rabs_pos_eq (val r)) by lra. assert (1 <= Rabs (IZR k)) by (rewrite <- abs_IZR; apply (IZR_le 1); lia).
    rewrite <- (Rmult_1_l (/ 67108864)). apply Rmult_le_compat; lra. }
  replace (rnd32 (IZR k * val r) - IZR k / N) with ((rnd32 (IZR k * val r) - IZR k * val r) + (IZR k * val r - IZR k / N)) by ring.
  eapply Rle_trans; [apply Rabs_triang|]. pose proof (Rabs_pos (IZR k / N)). lra.
Qed.

Section WithPlatform.
Variable p : platform.
Notation O := (f32_num p).

Lemma normalize_close : forall v k, at_ints v k -> coords (fun c => Z.abs c < 2 ^ 24)%Z k -> norm (reals k) <> 0 ->
  close (5 * u) (n_normalize O v) (unit_along (reals k)).
Proof.
  intros v k I K N. destruct (length_err v k I K N) as (LN & Fl & El). destruct I as (A & B & C). destruct K as (D & E & F).
  unfold n_normalize, f32_num, normalize_with, unit_along, close, fins, vscale. cbn zeta.
  set (l := f32_sqrt _) in *. clearbody l.
  assert (U : forall z, / norm (reals k) * IZR z = IZR z / norm (reals k)) by (intros z; unfold Rdiv; ring).
  destruct (p_simd p); cbn [vx vy vz reals]; rewrite !U.
  - destruct (quotient_err _ _ _ _ A D Fl LN El) as [F1 V1]. destruct (quotient_err _ _ _ _ B E Fl LN El) as [F2 V2]. destruct (quotient_err _ _ _ _ C F Fl LN El) as [F3 V3].
    pose proof (Rabs_pos (IZR (vx k) / norm (reals k))). pose proof (Rabs_pos (IZR (vy k) / norm (reals k))). pose proof (Rabs_pos (IZR (vz k) / norm (reals k))).
    repeat split; try apply F1; try apply F2; try apply F3; lra.
  - assert (I1 : int f32_one 1) by (split; [apply fin_one|apply val_one]).
    destruct (quotient_err _ 1 _ _ I1 ltac:(lia) Fl LN El) as [Fr Vr].
    assert (IP : 0 < / norm (reals k)) by (apply Rinv_0_lt_compat; lra).
    replace (1 / norm (reals k)) with (/ norm (reals k)) in Vr by (unfold Rdiv; ring). rewrite (Rabs_pos_eq (/ norm (reals k))) in Vr by lra.
    destruct (product_err _ _ _ _ A D Fr LN Vr) as [F1 V1]. destruct (product_err _ _ _ _ B E Fr LN Vr) as [F2 V2]. destruct (product_err _ _ _ _ C F Fr LN Vr) as [F3 V3].
    repeat split; try apply F1; try apply F2; try apply F3; assumption.
Qed.

(** ** Planes *)
Lemma grid_ints : forall v, grid_point v -> exists k, at_ints v k /\ point_of v = reals k /\ coords (fun c => Z.abs c <= 2 ^ 20)%Z k.
Proof.
  intros v (F & x & y & z & E & X & Y & Z). exists (V3 x y z). apply finite_fins in F. destruct F as (A & B & C). unfold point_of in E. injection E as E1 E2 E3.
  split; [|split].
  - split; [|split]; split; cbn [vx vy vz]; assumption.
  - unfold point_of, reals. cbn [vx vy vz]. congruence.
  - split; [|split]; assumption.
Qed.

Lemma extent_ints : forall m a b, extent m (minus (reals a) (reals b)) -> coords (fun c => Z.abs c <= m)%Z (zminus a b).
Proof.
  intros m a b (X & Y & Z). unfold minus, reals in *. cbn [vx vy vz] in *. rewrite <- !minus_IZR, <- !abs_IZR in *.
  apply le_IZR in X, Y, Z. split; [|split]; assumption.
Qed.

Lemma plane_close : forall pl, grid_plane pl -> close (5 * u) (plane_normal O pl) (unit_along (facing (plane_of pl))).
Proof.
  intros pl (P0 & P1 & P2 & N & m & n & M1 & M2 & MN).
  destruct (grid_ints _ P0) as (a & A & Ea & Ba). destruct (grid_ints _ P1) as (b & B & Eb & Bb). destruct (grid_ints _ P2) as (c & C & Ec & Bc).
  rewrite Ea, Ec in M1. rewrite Ea, Eb in M2. apply extent_ints in M1, M2.
  assert (F : facing (plane_of pl) = reals (zouter (zminus c a) (zminus b a))).
  { unfold facing, plane_of. cbn [bp_v0 bp_v1 bp_v2]. rewrite Ea, Eb, Ec. unfold outer, minus, reals, zouter, zminus. cbn [vx vy vz].
    rewrite !minus_IZR, !mult_IZR, !minus_IZR. reflexivity. }
  rewrite F. unfold proper in N. rewrite F in N. unfold plane_normal. apply normalize_close; [| |exact N].
  - apply (at_cross p _ _ _ _ m n); [| |exact M1|exact M2|exact MN]; apply at_sub; auto.
    + destruct Ba as (? & ? & ?), Bc as (? & ? & ?). unfold coords, zminus. cbn [vx vy vz]. lia.
    + destruct Ba as (? & ? & ?), Bb as (? & ? & ?). unfold coords, zminus. cbn [vx vy vz]. lia.
  - assert (W : forall x y z w, (Z.abs x <= m -> Z.abs y <= n -> Z.abs z <= m -> Z.abs w <= n -> Z.abs (x * y - z * w) < 2 ^ 24)%Z).
    { intros x y z w H1 H2 H3 H4. pose proof (mul_bound x y m n H1 H2). pose proof (mul_bound z w m n H3 H4). lia. }
    destruct M1 as (? & ? & ?), M2 as (? & ? & ?). unfold coords, zouter. cbn [vx vy vz] in *. split; [|split]; apply W; assumption.
Qed.

(** ** Products of vectors *)
Definition below (k : R) (v : vec3 R) : Prop := Rabs (vx v) <= k /\ Rabs (vy v) <= k /\ Rabs (vz v) <= k.

Lemma two_sum : forall a b x y s e f, Rabs (a - x) <= e -> Rabs (b - y) <= f -> Rabs (s - (a + b)) <= u * Rabs (a + b) + eta ->
  Rabs (s - (x + y)) <= e + f + u * (Rabs x + e + Rabs y + f) + eta.
Proof.
  intros a b x y s e f A B S. replace (s - (x + y)) with ((s - (a + b)) + ((a - x) + (b - y))) by ring.
  eapply Rle_trans; [apply Rabs_triang|]. pose proof (Rabs_triang (a - x) (b - y)).
  assert (Rabs (a + b) <= Rabs x + e + Rabs y + f).
  { replace (a + b) with ((x + (a - x)) + (y + (b - y))) by ring. eapply Rle_trans; [apply Rabs_triang|].
    pose proof (Rabs_triang x (a - x)). pose proof (Rabs_triang y (b - y)). lra. }
  lra.
Qed.

Lemma near_bound : forall a x e, Rabs (a - x) <= e -> Rabs a <= Rabs x + e.
Proof. intros a x e H. replace a with (x + (a - x)) by ring. eapply Rle_trans; [apply Rabs_triang|]. lra. Qed.

Lemma dot_err : forall a b, fins a -> fins b -> below 4 (point_of a) -> below B50 (point_of b) ->
  fin (v3_dot O a b) /\ Rabs (val (v3_dot O a b) - inner (point_of a) (point_of b)) <= 301 / 100 * u * (norm (point_of a) * norm (point_of b)) + 6 * eta.
Proof.
  intros a b (A1 & A2 & A3) (B1 & B2 & B3) (C1 & C2 & C3) (D1 & D2 & D3). pose proof (cauchy_abs (point_of a) (point_of b)) as CS.
  unfold inner. cbn [point_of vx vy vz] in *. unfold v3_dot. cbn [n_add n_mul f32_num].
  assert (H4 : 4 <= B50) by (unfold B50; lra).
  destruct (mul_err (vx a) (vx b)) as [F1 E1]; auto; [lra|]. destruct (mul_err (vy a) (vy b)) as [F2 E2]; auto; [lra|]. destruct (mul_err (vz a) (vz b)) as [F3 E3]; auto; [lra|].
  pose proof (prod_bound _ _ _ _ C1 D1) as G1. pose proof (prod_bound _ _ _ _ C2 D2) as G2. pose proof (prod_bound _ _ _ _ C3 D3) as G3.
  pose proof eta_small as HE. unfold B50 in *.
  set (x := val (vx a) * val (vx b)) in *. set (y := val (vy a) * val (vy b)) in *. set (z := val (vz a) * val (vz b)) in *.
  pose proof (near_bound _ _ _ E1) as N1. pose proof (near_bound _ _ _ E2) as N2. pose proof (near_bound _ _ _ E3) as N3.
  destruct (add_err _ _ F1 F2) as [F4 E4]; [unfold B60; lra|unfold B60; lra|].
  pose proof (two_sum _ _ _ _ _ _ _ E1 E2 E4) as E5. pose proof (near_bound _ _ _ E5) as N5. pose proof (Rabs_triang x y).
  destruct (add_err _ _ F4 F3) as [F6 E6]; [unfold B60; lra|unfold B60; lra|].
  pose proof (two_sum _ _ _ _ _ _ _ E5 E3 E6) as E7. split; [exact F6|]. pose proof (Rabs_pos x). pose proof (Rabs_pos y). pose proof (Rabs_pos z). lra.
Qed.

Lemma cross_term : forall a b c d, Rabs (a * b) + Rabs (c * d) <= sqrt ((a * a + c * c) * (b * b + d * d)).
Proof.
  intros a b c d. apply le_sq; [apply sqrt_pos|]. rewrite sqrt_sqrt.
  - rewrite !Rabs_mult. set (i := Rabs a). set (j := Rabs b). set (k := Rabs c). set (l := Rabs d).
    replace (a * a) with (i * i) by (unfold i; rewrite <- Rabs_mult; apply Rabs_pos_eq, Rle_0_sqr).
    replace (b * b) with (j * j) by (unfold j; rewrite <- Rabs_mult; apply Rabs_pos_eq, Rle_0_sqr).
    replace (c * c) with (k * k) by (unfold k; rewrite <- Rabs_mult; apply Rabs_pos_eq, Rle_0_sqr).
    replace (d * d) with (l * l) by (unfold l; rewrite <- Rabs_mult; apply Rabs_pos_eq, Rle_0_sqr).
    pose proof (Rle_0_sqr (i * l - k * j)). unfold Rsqr in *. lra.
  - pose proof (Rle_0_sqr a). pose proof (Rle_0_sqr b). pose proof (Rle_0_sqr c). pose proof (Rle_0_sqr d). unfold Rsqr in *. apply Rmult_le_pos; lra.
Qed.

Lemma cross_norm : forall a b x y z w, x * x + z * z <= inner a a -> y * y + w * w <= inner b b -> Rabs (x * y) + Rabs (z * w) <= norm a * norm b.
Proof.
  intros a b x y z w H K. eapply Rle_trans; [apply cross_term|].
  unfold norm. pose proof (Rle_0_sqr x). pose proof (Rle_0_sqr y). pose proof (Rle_0_sqr z). pose proof (Rle_0_sqr w). unfold Rsqr in *.
  rewrite <- sqrt_mult by apply inner_pos. apply sqrt_le_1_alt. apply Rmult_le_compat; lra.
Qed.

Lemma outer_norm : forall a b, norm (outer a b) <= norm a * norm b.
Proof.
  intros a b. apply norm_le; [apply Rmult_le_pos; apply norm_pos|].
  replace (norm a * norm b * (norm a * norm b)) with (inner a a * inner b b) by (rewrite <- !norm_sq; ring).
  pose proof (Rle_0_sqr (inner a b)) as H. unfold Rsqr, inner, outer in *. cbn [vx vy vz] in *. lra.
Qed.

Lemma cross_err : forall a b, fins a -> fins b -> below 4 (point_of a) -> below 4 (point_of b) ->
  fins (v3_cross O a b) /\ below (201 / 100 * u * (norm (point_of a) * norm (point_of b)) + 4 * eta) (minus (point_of (v3_cross O a b)) (outer (point_of a) (point_of b))).
Proof.
  intros a b (A1 & A2 & A3) (B1 & B2 & B3) (C1 & C2 & C3) (D1 & D2 & D3).
  assert (H : forall x y z w, fin x -> fin y -> fin z -> fin w -> Rabs (val x) <= 4 -> Rabs (val y) <= 4 -> Rabs (val z) <= 4 -> Rabs (val w) <= 4 ->
    Rabs (val x * val y) + Rabs (val z * val w) <= norm (point_of a) * norm (point_of b) ->
    fin (f32_sub (f32_mul x y) (f32_mul z w)) /\ Rabs (val (f32_sub (f32_mul x y) (f32_mul z w)) - (val x * val y - val z * val w)) <= 201 / 100 * u * (norm (point_of a) * norm (point_of b)) + 4 * eta).
  { intros x y z w Fx Fy Fz Fw Bx By Bz Bw L. assert (H4 : 4 <= B50) by (unfold B50; lra).
    destruct (mul_err x y) as [F1 E1]; auto; [lra|lra|]. destruct (mul_err z w) as [F2 E2]; auto; [lra|lra|].
    pose proof (prod_bound _ _ _ _ Bx By) as G1. pose proof (prod_bound _ _ _ _ Bz Bw) as G2. pose proof eta_small as HE.
    pose proof (near_bound _ _ _ E1) as N1. pose proof (near_bound _ _ _ E2) as N2.
    destruct (sub_err _ _ F1 F2) as [F3 E3]; [unfold B60; lra|unfold B60; lra|]. split; [exact F3|].
    assert (E2' : Rabs (- val (f32_mul z w) - - (val z * val w)) <= u * Rabs (val z * val w) + eta).
    { replace (- val (f32_mul z w) - - (val z * val w)) with (- (val (f32_mul z w) - val z * val w)) by ring. rewrite Rabs_Ropp. exact E2. }
    pose proof (two_sum _ _ _ _ (val (f32_sub (f32_mul x y) (f32_mul z w))) _ _ E1 E2') as E5.
    replace (val (f32_mul x y) + - val (f32_mul z w)) with (val (f32_mul x y) - val (f32_mul z w)) in E5 by ring. specialize (E5 E3).
    rewrite Rabs_Ropp in E5. replace (val x * val y + - (val z * val w)) with (val x * val y - val z * val w) in E5 by ring.
    pose proof (Rabs_pos (val x * val y)). pose proof (Rabs_pos (val z * val w)). lra. }
  assert (Q : forall v, 0 <= vx v * vx v /\ 0 <= vy v * vy v /\ 0 <= vz v * vz v) by (intros v; repeat split; apply Rle_0_sqr).
  pose proof (Q (point_of a)) as (Q1 & Q2 & Q3). pose proof (Q (point_of b)) as (Q4 & Q5 & Q6).
  cbn [point_of vx vy vz] in *.
  destruct (H (vy a) (vz b) (vz a) (vy b)) as [F1 E1]; auto; [apply cross_norm; unfold inner; cbn [point_of vx vy vz]; lra|].
  destruct (H (vz a) (vx b) (vx a) (vz b)) as [F2 E2]; auto; [apply cross_norm; unfold inner; cbn [point_of vx vy vz]; lra|].
  destruct (H (vx a) (vy b) (vy a) (vx b)) as [F3 E3]; auto; [apply cross_norm; unfold inner; cbn [point_of vx vy vz]; lra|].
  unfold v3_cross, fins, below, minus, outer. cbn [n_sub n_mul f32_num vx vy vz point_of]. repeat split; try assumption; try apply F1; try apply F2; apply F3.
Qed.

(** Consequences of being close to a unit vector. *)
Lemma close_unit : forall v n, close (5 * u) v n -> norm n = 1 ->
  fins v /\ norm (point_of v) <= 1 + 5 * u /\ norm (minus (point_of v) n) <= 5 * u /\ below 4 (point_of v).
Proof.
  intros v n (F & X & Y & Z) N. split; [exact F|].
  assert (P : norm (point_of v) <= 1 + 5 * u).
  { pose proof (norm_combine (point_of v) n (V3 0 0 0) (1 + 5 * u) 0 0 ltac:(lra) ltac:(lra) ltac:(lra)) as H. rewrite N in H. cbn [point_of vx vy vz] in H.
    apply near_bound in X, Y, Z. rewrite Rabs_R0 in H. specialize (H ltac:(lra) ltac:(lra) ltac:(lra)). lra. }
  assert (E : norm (minus (point_of v) n) <= 5 * u).
  { pose proof (norm_combine (minus (point_of v) n) n (V3 0 0 0) (5 * u) 0 0 ltac:(lra) ltac:(lra) ltac:(lra)) as H. rewrite N in H. cbn [minus point_of vx vy vz] in H.
    rewrite Rabs_R0 in H. specialize (H ltac:(lra) ltac:(lra) ltac:(lra)). lra. }
  split; [exact P|]. split; [exact E|]. destruct (coord_norm (point_of v)) as (A & B & C). unfold below. lra.
Qed.
End WithPlatform.
