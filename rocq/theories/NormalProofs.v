(** The length and direction of computed normals (C95, C96). *)
From Coq Require Import Reals Lra Lia ZArith.
From Flocq Require Import Core BinarySingleNaN.
From Verif Require Import Prelude F32 Text MapModel GeoModel GatherSpec GeoSpec NumberSpec RealSpec ArithProofs FloatProofs ExactProofs BoxSpec BoxProofs ColorProofs BaseProofs GeoProofs AttributeProofs ErrorSpec ErrorProofs ErrorFinal CornerProofs.
Local Open Scope R_scope.

(** ** Normalising a vector that is neither tiny nor huge *)
Lemma root_small : forall s r, fin s -> / 67108864 <= r -> Rabs (val s - r) <= 31 / 10 * u * r ->
  fin (f32_sqrt s) /\ Rabs (val (f32_sqrt s) - sqrt r) <= 27 / 10 * u * sqrt r.
Proof.
  intros s r F R1 E. apply Rabs_le_inv in E. assert (P : 0 < val s) by lra.
  destruct (sqrt_correct s F P) as [G V]. split; [exact G|]. rewrite V.
  assert (S1 : / 8192 <= sqrt r).
  { apply le_sq; [apply sqrt_pos|]. rewrite sqrt_sqrt by lra. lra. }
  assert (Q : sqrt r * sqrt r = r) by (apply sqrt_sqrt; lra).
  assert (S3 : 99 / 100 * sqrt r <= sqrt (val s)).
  { apply le_sq; [apply sqrt_pos|]. rewrite sqrt_sqrt by lra.
    replace (99 / 100 * sqrt r * (99 / 100 * sqrt r)) with (9801 / 10000 * (sqrt r * sqrt r)) by field. rewrite Q. lra. }
  assert (M : (sqrt (val s) - sqrt r) * (sqrt (val s) + sqrt r) = val s - r).
  { transitivity (sqrt (val s) * sqrt (val s) - sqrt r * sqrt r); [ring|]. rewrite !sqrt_sqrt by lra. reflexivity. }
  assert (D : Rabs (sqrt (val s) - sqrt r) <= 16 / 10 * u * sqrt r).
  { apply Rmult_le_reg_r with (sqrt (val s) + sqrt r); [lra|]. rewrite <- (Rabs_pos_eq (sqrt (val s) + sqrt r)) at 1 by lra. rewrite <- Rabs_mult, M.
    apply Rle_trans with (16 / 10 * u * sqrt r * (199 / 100 * sqrt r)).
    - replace (16 / 10 * u * sqrt r * (199 / 100 * sqrt r)) with (3184 / 1000 * u * (sqrt r * sqrt r)) by field. rewrite Q. apply Rabs_le. lra.
    - apply Rmult_le_compat_l; [|lra]. lra. }
  assert (X : Rabs (rnd32 (sqrt (val s)) - sqrt (val s)) <= u * Rabs (sqrt (val s))).
  { apply rnd_rel. right. rewrite Rabs_pos_eq by apply sqrt_pos. apply Rle_trans with (/ 16384); [|lra]. change (/ 16384) with (bpow radix2 (-14)). apply bpow_le. lia. }
  rewrite (Rabs_pos_eq (sqrt (val s))) in X by apply sqrt_pos.
  apply Rabs_le_inv in D. apply Rabs_le_inv in X. apply Rabs_le. lra.
Qed.

Section WithPlatform.
Variable p : platform.
Notation O := (f32_num p).
Notation normal_of pl := (unit_along (facing (plane_of pl))).

Lemma length_small : forall v, fins v -> / 4096 <= norm (point_of v) <= 4 ->
  fin (f32_sqrt (v3_dot O v v)) /\ Rabs (val (f32_sqrt (v3_dot O v v)) - norm (point_of v)) <= 27 / 10 * u * norm (point_of v).
Proof.
  intros v F N. destruct (coord_norm (point_of v)) as (Bx & By & Bz).
  destruct (dot_err p v v F F) as [G E]; [unfold below; lra|unfold below, B50; lra|]. pose proof eta_small as He.
  rewrite <- norm_sq in E. assert (Lo : / 16777216 <= norm (point_of v) * norm (point_of v)) by (replace (/ 16777216) with (/ 4096 * / 4096) by lra; apply Rmult_le_compat; lra).
  destruct (root_small _ (norm (point_of v) * norm (point_of v)) G) as [H K]; [lra|lra|]. rewrite sqrt_square in K by lra. split; assumption.
Qed.

Lemma quotient_small : forall x l N, fin x -> Rabs (val x) <= 4 -> fin l -> / 4096 <= N <= 4 -> Rabs (val l - N) <= 27 / 10 * u * N ->
  fin (f32_div x l) /\ Rabs (val (f32_div x l) - val x / N) <= 38 / 10 * u * Rabs (val x / N) + eta.
Proof.
  intros x l N Fx X Fl HN E. apply Rabs_le_inv in E.
  assert (L : 0 < val l) by lra. set (A := val x / N). set (t := N / val l).
  assert (T : Rabs (t - 1) <= 271 / 100 * u).
  { replace (t - 1) with ((N - val l) / val l) by (unfold t; field; lra). unfold Rdiv. rewrite Rabs_mult, (Rabs_pos_eq (/ val l)) by (apply Rlt_le, Rinv_0_lt_compat; lra).
    apply Rmult_le_reg_r with (val l); [exact L|]. rewrite Rmult_assoc, Rinv_l, Rmult_1_r by lra. apply Rabs_le. lra. }
  assert (Q : val x / val l = A * t) by (unfold A, t; field; lra).
  assert (AT : Rabs (A * t - A) <= 271 / 100 * u * Rabs A).
  { replace (A * t - A) with (A * (t - 1)) by ring. rewrite Rabs_mult, Rmult_comm. apply Rmult_le_compat_r; [apply Rabs_pos|exact T]. }
  assert (AB : Rabs A <= 16384).
  { unfold A, Rdiv. rewrite Rabs_mult, (Rabs_pos_eq (/ N)) by (apply Rlt_le, Rinv_0_lt_compat; lra).
    assert (/ N <= 4096) by (rewrite <- (Rinv_inv 4096); apply Rinv_le_contravar; lra).
    replace 16384 with (4 * 4096) by ring. apply Rmult_le_compat; try lra; [apply Rabs_pos|apply Rlt_le, Rinv_0_lt_compat; lra]. }
  assert (M : Rabs (A * t) <= Rabs A + 271 / 100 * u * Rabs A).
  { replace (A * t) with (A + (A * t - A)) by ring. eapply Rle_trans; [apply Rabs_triang|]. lra. }
  destruct (div_correct x l Fx Fl) as [F V]; [lra|rewrite Q; apply rnd_big; change (IZR (2 ^ 105)) with 40564819207303340847894502572032; lra|].
  split; [exact F|]. rewrite V, Q. pose proof (rnd_err (A * t)) as R.
  replace (rnd32 (A * t) - A) with ((rnd32 (A * t) - A * t) + (A * t - A)) by ring.
  eapply Rle_trans; [apply Rabs_triang|]. pose proof (Rabs_pos A). lra.
Qed.

Lemma product_small : forall x r N, fin x -> Rabs (val x) <= 4 -> fin r -> / 4096 <= N <= 4 -> Rabs (val r - / N) <= 39 / 10 * u * / N ->
  fin (f32_mul x r) /\ Rabs (val (f32_mul x r) - val x / N) <= 5 * u * Rabs (val x / N) + eta.
Proof.
  intros x r N Fx X Fr HN E.
  assert (I : 0 < / N) by (apply Rinv_0_lt_compat; lra).
  assert (I1 : / N <= 4096) by (rewrite <- (Rinv_inv 4096); apply Rinv_le_contravar; lra).
  assert (A : Rabs (val x / N) = Rabs (val x) * / N) by (unfold Rdiv; rewrite Rabs_mult, (Rabs_pos_eq (/ N)) by lra; reflexivity).
  assert (D : Rabs (val x * val r - val x / N) <= 39 / 10 * u * Rabs (val x / N)).
  { replace (val x * val r - val x / N) with (val x * (val r - / N)) by (unfold Rdiv; ring). rewrite Rabs_mult, A.
    replace (39 / 10 * u * (Rabs (val x) * / N)) with (Rabs (val x) * (39 / 10 * u * / N)) by ring. apply Rmult_le_compat_l; [apply Rabs_pos|exact E]. }
  apply Rabs_le_inv in E.
  assert (M : Rabs (val x * val r) <= Rabs (val x / N) + 39 / 10 * u * Rabs (val x / N)).
  { replace (val x * val r) with (val x / N + (val x * val r - val x / N)) by ring. eapply Rle_trans; [apply Rabs_triang|]. lra. }
  destruct (mul_err x r Fx Fr) as [F V]; [unfold B50; lra|apply Rabs_le; unfold B50; lra|].
  split; [exact F|].
  replace (val (f32_mul x r) - val x / N) with ((val (f32_mul x r) - val x * val r) + (val x * val r - val x / N)) by ring.
  eapply Rle_trans; [apply Rabs_triang|]. pose proof (Rabs_pos (val x / N)). lra.
Qed.

Lemma norm_near : forall a b, Rabs (norm a - norm b) <= norm (minus a b).
Proof. intros a b. pose proof (minus_norm a b). pose proof (minus_norm b a). rewrite (minus_sym b a) in *. apply Rabs_le. lra. Qed.

Lemma normalize_unit : forall v, fins v -> / 4096 <= norm (point_of v) <= 4 ->
  fins (n_normalize O v) /\ norm (minus (point_of (n_normalize O v)) (unit_along (point_of v))) <= 51 / 10 * u
  /\ Rabs (norm (point_of (n_normalize O v)) - 1) <= 51 / 10 * u.
Proof.
  intros v F HN. destruct (length_small v F HN) as [Fl El]. destruct (coord_norm (point_of v)) as (Bx & By & Bz). destruct F as (Fx & Fy & Fz).
  set (N := norm (point_of v)) in *. set (l := f32_sqrt (v3_dot O v v)) in *.
  assert (C : exists q : f32 -> f32, n_normalize O v = V3 (q (vx v)) (q (vy v)) (q (vz v))
    /\ forall x, fin x -> Rabs (val x) <= 4 -> fin (q x) /\ Rabs (val (q x) - val x / N) <= 5 * u * Rabs (val x / N) + eta).
  { exists (fun x => if p_simd p then f32_div x l else f32_mul x (f32_div f32_one l)). split.
    { unfold n_normalize, f32_num, normalize_with, l. cbn zeta. destruct (p_simd p); reflexivity. }
    intros x Fi Xi. pose proof eta_small. pose proof (Rabs_pos (val x / N)). destruct (p_simd p).
    - destruct (quotient_small x l N Fi Xi Fl HN El) as [G E]. split; [exact G|lra].
    - destruct (quotient_small f32_one l N fin_one) as [G E]; [rewrite val_one, Rabs_R1; lra|exact Fl|exact HN|exact El|]. rewrite val_one in E.
      assert (I1 : 0 < / N) by (apply Rinv_0_lt_compat; lra). assert (I2 : / 4 <= / N) by (apply Rinv_le_contravar; lra).
      replace (1 / N) with (/ N) in E by (unfold Rdiv; ring). rewrite (Rabs_pos_eq (/ N)) in E by lra.
      apply product_small; auto. lra. }
  destruct C as (q & -> & C).
  destruct (C (vx v) Fx) as [Gx Ex]; [unfold point_of in Bx; cbn [vx vy vz] in Bx; lra|]. destruct (C (vy v) Fy) as [Gy Ey]; [unfold point_of in By; cbn [vx vy vz] in By; lra|].
  destruct (C (vz v) Fz) as [Gz Ez]; [unfold point_of in Bz; cbn [vx vy vz] in Bz; lra|]. clear C.
  set (a := q (vx v)) in *. set (b := q (vy v)) in *. set (c := q (vz v)) in *. clearbody a b c.
  assert (U : norm (unit_along (point_of v)) = 1) by (apply unit_norm; fold N; lra).
  split; [split; [|split]; assumption|].
  assert (D : norm (minus (point_of (V3 a b c)) (unit_along (point_of v))) <= 51 / 10 * u).
  { assert (Q : forall x, / N * x = x / N) by (intros; unfold Rdiv; ring). pose proof eta_small as He.
    eapply Rle_trans; [apply (norm_combine _ (unit_along (point_of v)) (V3 0 0 0) (5 * u) 0 eta); [lra|lra|lra|..]|rewrite U; lra];
    unfold minus, unit_along, vscale; cbn [vx vy vz]; fold N; rewrite !Q; cbn [point_of vx vy vz]; lra. }
  split; [exact D|]. pose proof (norm_near (point_of (V3 a b c)) (unit_along (point_of v))) as T. rewrite U in T. lra.
Qed.

(** ** Sums of normals *)
Lemma add_near : forall a b A B e f, fins a -> fins b -> 0 <= e <= / 1000 -> 0 <= f <= / 1000 -> norm A <= 3 -> norm B <= 3 ->
  norm (minus (point_of a) A) <= e -> norm (minus (point_of b) B) <= f ->
  fins (v3_add O a b) /\ norm (minus (point_of (v3_add O a b)) (vplus A B)) <= e + f + 7 * u.
Proof.
  intros a b A B e f (A1 & A2 & A3) (B1 & B2 & B3) He Hf NA NB DA DB.
  pose proof (minus_norm (point_of a) A) as Na. pose proof (minus_norm (point_of b) B) as Nb.
  destruct (coord_norm (point_of a)) as (X1 & X2 & X3). destruct (coord_norm (point_of b)) as (Y1 & Y2 & Y3).
  set (na := norm (point_of a)) in *. set (nb := norm (point_of b)) in *. cbn [point_of vx vy vz] in X1, X2, X3, Y1, Y2, Y3.
  destruct (add_err _ _ A1 B1) as [F1 E1]; [unfold B60; lra|unfold B60; lra|]. destruct (add_err _ _ A2 B2) as [F2 E2]; [unfold B60; lra|unfold B60; lra|].
  destruct (add_err _ _ A3 B3) as [F3 E3]; [unfold B60; lra|unfold B60; lra|].
  split; [split; [|split]; assumption|].
  eapply Rle_trans; [apply (minus_triangle _ (vplus (point_of a) (point_of b)))|].
  assert (S1 : norm (minus (point_of (v3_add O a b)) (vplus (point_of a) (point_of b))) <= u * norm (vplus (point_of a) (point_of b)) + 0 * norm (V3 0 0 0) + 7 / 4 * eta).
  { pose proof eta_small. apply norm_combine; [lra|lra|lra|..]; unfold minus, vplus, v3_add; cbn [point_of vx vy vz n_add f32_num]; lra. }
  pose proof (norm_triangle (point_of a) (point_of b)) as T. fold na nb in T.
  assert (S2 : norm (minus (vplus (point_of a) (point_of b)) (vplus A B)) <= e + f).
  { replace (minus (vplus (point_of a) (point_of b)) (vplus A B)) with (vplus (minus (point_of a) A) (minus (point_of b) B)); [|unfold minus, vplus; cbn [vx vy vz]; f_equal; ring].
    eapply Rle_trans; [apply norm_triangle|]. lra. }
  pose proof eta_small. lra.
Qed.

Lemma det_part : forall (A B C S : vec3 R), norm B = 1 -> norm C = 1 -> inner (outer S B) C = inner (outer A B) C -> inner (outer A B) C <= norm S.
Proof.
  intros A B C S NB NC <-. eapply Rle_trans; [apply cauchy|]. pose proof (outer_norm S B) as H. rewrite NB in H. rewrite NC. lra.
Qed.

(** The smoothed normal before it is normalised is near a sum of unit normals. *)
Definition smoothed (plane p1 p2 : brush_plane f32) (S : vec3 R) : Prop :=
  S = normal_of plane \/ S = vplus (normal_of plane) (normal_of p1) \/ S = vplus (normal_of plane) (normal_of p2)
  \/ S = vplus (vplus (normal_of plane) (normal_of p1)) (normal_of p2).

Lemma smoothed_size : forall p0 p1 p2 S, grid_plane p0 -> grid_plane p1 -> grid_plane p2 -> 99 / 100000 <= det_of p0 p1 p2 -> smoothed p0 p1 p2 S ->
  99 / 100000 <= norm S <= 3.
Proof.
  intros p0 p1 p2 S G0 G1 G2 D H. pose proof (grid_unit _ G0) as N0. pose proof (grid_unit _ G1) as N1. pose proof (grid_unit _ G2) as N2.
  unfold smoothed, det_of in *. set (A := normal_of p0) in *. set (B := normal_of p1) in *. set (C := normal_of p2) in *.
  pose proof (norm_triangle A B) as TB. pose proof (norm_triangle A C) as TC. pose proof (norm_triangle (vplus A B) C) as T3.
  assert (L : inner (outer S B) C = inner (outer A B) C).
  { destruct H as [->|[->|[->| ->]]]; unfold inner, outer, vplus; cbn [vx vy vz]; ring. }
  pose proof (det_part A B C S N1 N2 L). split; [lra|]. destruct H as [->|[->|[->| ->]]]; lra.
Qed.

Lemma normal_near : forall q, grid_plane q -> fins (plane_normal O q) /\ norm (minus (point_of (plane_normal O q)) (normal_of q)) <= 5 * u.
Proof. intros q G. destruct (close_unit _ _ (plane_close p q G) (grid_unit _ G)) as (F & _ & E & _). split; assumption. Qed.

Lemma taken_sum : forall limit n0 q s s', taken O limit n0 q s s' -> s' = v3_add O s q \/ s' = s.
Proof. intros limit n0 q s s' [(_ & ->)|(_ & ->)]; auto. Qed.

Lemma smooth_near : forall angle p0 p1 p2 n, grid_plane p0 -> grid_plane p1 -> grid_plane p2 -> smooth O angle p0 p1 p2 n ->
  exists s S, n = n_normalize O s /\ smoothed p0 p1 p2 S /\ fins s /\ norm (minus (point_of s) S) <= 29 * u.
Proof.
  intros angle p0 p1 p2 n G0 G1 G2 H. destruct (normal_near _ G0) as (F0 & E0). destruct (normal_near _ G1) as (F1 & E1). destruct (normal_near _ G2) as (F2 & E2).
  pose proof (grid_unit _ G0) as N0. pose proof (grid_unit _ G1) as N1. pose proof (grid_unit _ G2) as N2.
  destruct (add_near _ _ (normal_of p0) (normal_of p1) (5 * u) (5 * u) F0 F1 ltac:(lra) ltac:(lra) ltac:(lra) ltac:(lra) E0 E1) as (F01 & E01).
  destruct (add_near _ _ (normal_of p0) (normal_of p2) (5 * u) (5 * u) F0 F2 ltac:(lra) ltac:(lra) ltac:(lra) ltac:(lra) E0 E2) as (F02 & E02).
  pose proof (norm_triangle (normal_of p0) (normal_of p1)) as T.
  destruct (add_near _ _ (vplus (normal_of p0) (normal_of p1)) (normal_of p2) (5 * u + 5 * u + 7 * u) (5 * u) F01 F2 ltac:(lra) ltac:(lra) ltac:(lra) ltac:(lra) E01 E2) as (F3 & E3).
  unfold smooth in H. destruct (match angle with Some s => n_parse O s | None => None end) as [a|].
  - cbn zeta in H. destruct H as (s1 & s2 & T1 & T2 & ->). apply taken_sum in T1, T2.
    destruct T1 as [->| ->]; destruct T2 as [->| ->].
    + eexists; eexists. split; [reflexivity|]. split; [right; right; right; reflexivity|]. split; [exact F3|lra].
    + eexists; eexists. split; [reflexivity|]. split; [right; left; reflexivity|]. split; [exact F01|lra].
    + eexists; eexists. split; [reflexivity|]. split; [right; right; left; reflexivity|]. split; [exact F02|lra].
    + eexists; eexists. split; [reflexivity|]. split; [left; reflexivity|]. split; [exact F0|lra].
  - eexists; eexists. split; [exact H|]. split; [right; right; right; reflexivity|]. split; [exact F3|lra].
Qed.

(** ** Normals of a face have unit length *)
Theorem unit_normals : forall tx e planes plane f v, build_face O tx e planes plane = Ok f -> (forall q, In q (plane :: planes) -> grid_plane q) ->
  In v (f_vertices f) -> finite_point (vt_normal v) /\ Rabs (norm (point_of (vt_normal v)) - 1) <= / 2 ^ 21.
Proof.
  intros tx e planes plane f v E G V. replace (2 ^ 21) with 2097152 by ring. assert (G0 : grid_plane plane) by (apply G; now left).
  destruct (is_phong e) eqn:P.
  - apply is_phong_iff in P. destruct (phong_c64 p tx e planes plane f v E V P) as (p1 & p2 & x & n & (l1 & l2 & _ & (I1 & I2 & X & _) & _) & _ & SM & ->).
    assert (G1 : grid_plane p1) by (apply G; now right). assert (G2 : grid_plane p2) by (apply G; now right).
    destruct (meet_size p _ _ _ _ G0 G1 G2 X) as (D & _ & _).
    destruct (smooth_near _ _ _ _ _ G0 G1 G2 SM) as (s & S & -> & HS & Fs & Es). destruct (smoothed_size _ _ _ _ G0 G1 G2 D HS) as (L & H).
    pose proof (norm_near (point_of s) S) as K. assert (K' : Rabs (norm (point_of s) - norm S) <= 29 * u) by lra. apply Rabs_le_inv in K'.
    destruct (normalize_unit s Fs) as (F1 & _ & U1); [lra|]. apply Rabs_le_inv in U1.
    destruct (normalize_unit _ F1) as (F2 & _ & U2); [lra|]. split; [apply finite_fins; exact F2|lra].
  - assert (NP : ~ phong e) by (intros H; apply is_phong_iff in H; congruence). rewrite (flat_normals O tx e planes plane f v E V NP).
    destruct (normal_near _ G0) as (F & N). split; [apply finite_fins; exact F|].
    pose proof (norm_near (point_of (plane_normal O plane)) (normal_of plane)) as K. rewrite (grid_unit _ G0) in K. lra.
Qed.

(** ** Smoothed normals and the side they face *)
Lemma unit_inner : forall pl x, grid_plane pl -> inner (facing (plane_of pl)) x = norm (facing (plane_of pl)) * inner (normal_of pl) x.
Proof.
  intros pl x G. assert (N : norm (facing (plane_of pl)) <> 0) by apply G. unfold unit_along, vscale, inner. cbn [vx vy vz]. field. exact N.
Qed.

Lemma dot_sign : forall p0 q, grid_plane p0 -> grid_plane q -> Rabs (val (v3_dot O (plane_normal O p0) (plane_normal O q)) - inner (normal_of p0) (normal_of q)) <= 14 * u
  /\ fin (v3_dot O (plane_normal O p0) (plane_normal O q)).
Proof.
  intros p0 q G0 G1. destruct (close_unit _ _ (plane_close p p0 G0) (grid_unit _ G0)) as (F0 & N0 & E0 & B0). destruct (close_unit _ _ (plane_close p q G1) (grid_unit _ G1)) as (F1 & N1 & E1 & B1).
  destruct (dot_err p _ _ F0 F1 B0) as [F D]; [destruct B1 as (? & ? & ?); unfold below, B50; lra|]. split; [|exact F].
  set (a := point_of (plane_normal O p0)) in *. set (b := point_of (plane_normal O q)) in *. set (A := normal_of p0) in *. set (B := normal_of q) in *.
  assert (H1 : Rabs (inner (minus a A) b) <= 5 * u * (1 + 5 * u)).
  { eapply Rle_trans; [apply abs_inner|]. apply Rmult_le_compat; auto using norm_pos. }
  assert (H2 : Rabs (inner A (minus b B)) <= 1 * (5 * u)).
  { eapply Rle_trans; [apply abs_inner|]. apply Rmult_le_compat; auto using norm_pos. unfold A. rewrite (grid_unit _ G0). lra. }
  assert (H3 : inner a b - inner A B = inner (minus a A) b + inner A (minus b B)) by (unfold inner, minus; cbn [vx vy vz]; ring).
  assert (H4 : norm a * norm b <= (1 + 5 * u) * (1 + 5 * u)) by (apply Rmult_le_compat; auto using norm_pos).
  apply Rabs_le_inv in H1, H2, D. pose proof eta_small. apply Rabs_le. lra.
Qed.

(** A sum of the normal and at most two others that do not face away leans towards the normal. *)
Lemma lean : forall (A B C : vec3 R) S, norm A = 1 -> norm B = 1 -> norm C = 1 -> - / 100000 <= inner A B -> - / 100000 <= inner A C ->
  S = A \/ S = vplus A B \/ S = vplus A C \/ S = vplus (vplus A B) C -> 42 / 100 * norm S <= inner A S.
Proof.
  intros A B C S NA NB NC IB IC H.
  assert (Q : exists D, S = vplus A D /\ norm D <= 2 /\ - / 50000 <= inner A D).
  { destruct H as [->|[->|[->| ->]]].
    - exists (V3 0 0 0). split; [destruct A as [a1 a2 a3]; unfold vplus; cbn [vx vy vz]; f_equal; ring|]. split; [apply norm_le; [lra|unfold inner; cbn; lra]|unfold inner; cbn [vx vy vz]; lra].
    - exists B. split; [reflexivity|]. lra.
    - exists C. split; [reflexivity|]. lra.
    - exists (vplus B C). split; [unfold vplus; cbn [vx vy vz]; f_equal; ring|]. pose proof (norm_triangle B C). split; [lra|].
      replace (inner A (vplus B C)) with (inner A B + inner A C) by (unfold inner, vplus; cbn [vx vy vz]; ring). lra. }
  destruct Q as (D & -> & ND & ID). set (x := inner A D) in *.
  assert (IA : inner A (vplus A D) = 1 + x).
  { replace (inner A (vplus A D)) with (inner A A + inner A D) by (unfold inner, vplus; cbn [vx vy vz]; ring). rewrite <- norm_sq, NA. unfold x. ring. }
  rewrite IA. assert (X2 : x <= 2) by (unfold x; pose proof (cauchy A D) as CS; rewrite NA in CS; lra).
  assert (M : norm (vplus A D) <= 100 / 42 * (1 + x)); [|lra].
  apply norm_le; [lra|].
  replace (inner (vplus A D) (vplus A D)) with (inner A A + 2 * inner A D + inner D D) by (unfold inner, vplus; cbn [vx vy vz]; ring).
  rewrite <- !norm_sq, NA. fold x. assert (norm D * norm D <= 2 * 2) by (apply Rmult_le_compat; auto using norm_pos). nra.
Qed.

Lemma facing_kept : forall p0 p1 p2 s S, grid_plane p0 -> grid_plane p1 -> grid_plane p2 -> 99 / 100000 <= det_of p0 p1 p2 -> smoothed p0 p1 p2 S ->
  fins s -> norm (minus (point_of s) S) <= 29 * u -> 42 / 100 * norm S <= inner (normal_of p0) S -> 99 / 100 <= inner (normal_of p0) S ->
  2 / 5 <= inner (normal_of p0) (point_of (n_normalize O (n_normalize O s))).
Proof.
  intros p0 p1 p2 s S G0 G1 G2 D HS Fs Es LN L1. destruct (smoothed_size _ _ _ _ G0 G1 G2 D HS) as (L & H).
  pose proof (norm_near (point_of s) S) as K. assert (K' : Rabs (norm (point_of s) - norm S) <= 29 * u) by lra. apply Rabs_le_inv in K'.
  destruct (normalize_unit s Fs) as (F1 & E1 & U1); [lra|]. apply Rabs_le_inv in U1.
  destruct (normalize_unit _ F1) as (F2 & E2 & U2); [lra|].
  set (A := normal_of p0) in *. pose proof (grid_unit _ G0) as NA. fold A in NA.
  assert (IN : forall a b e, norm (minus a b) <= e -> inner A b - e <= inner A a).
  { intros a b e HE. pose proof (abs_inner A (minus a b)) as C. rewrite NA in C. apply Rabs_le_inv in C.
    replace (inner A (minus a b)) with (inner A a - inner A b) in C by (unfold inner, minus; cbn [vx vy vz]; ring). lra. }
  pose proof (IN _ _ _ Es) as I0. pose proof (IN _ _ _ E1) as I1. pose proof (IN _ _ _ E2) as I2.
  assert (SC : forall w, inner A (unit_along w) = / norm w * inner A w) by (intros w; unfold unit_along, vscale, inner; cbn [vx vy vz]; ring).
  rewrite SC in I1, I2. set (n1 := n_normalize O s) in *. set (n2 := n_normalize O n1) in *.
  assert (J1 : 419 / 1000 <= / norm (point_of s) * inner A (point_of s)).
  { apply Rmult_le_reg_l with (norm (point_of s)); [lra|]. rewrite <- Rmult_assoc, Rinv_r, Rmult_1_l by lra. lra. }
  assert (J2 : 41 / 100 <= / norm (point_of n1) * inner A (point_of n1)).
  { apply Rmult_le_reg_l with (norm (point_of n1)); [lra|]. rewrite <- Rmult_assoc, Rinv_r, Rmult_1_l by lra. lra. }
  lra.
Qed.

Lemma near_lean : forall p0 p1 p2 S, grid_plane p0 -> grid_plane p1 -> grid_plane p2 -> - / 100000 <= inner (normal_of p0) (normal_of p1) -> - / 100000 <= inner (normal_of p0) (normal_of p2) ->
  smoothed p0 p1 p2 S -> 42 / 100 * norm S <= inner (normal_of p0) S /\ 99 / 100 <= inner (normal_of p0) S.
Proof.
  intros p0 p1 p2 S G0 G1 G2 I1 I2 H. split; [exact (lean _ _ _ _ (grid_unit _ G0) (grid_unit _ G1) (grid_unit _ G2) I1 I2 H)|].
  pose proof (grid_unit _ G0) as N. set (A := normal_of p0) in *. set (B := normal_of p1) in *. set (C := normal_of p2) in *.
  assert (AA : inner A A = 1) by (rewrite <- norm_sq, N; ring).
  assert (AP : forall a b, inner A (vplus a b) = inner A a + inner A b) by (intros; unfold inner, vplus; cbn [vx vy vz]; ring).
  destruct H as [->|[->|[->| ->]]]; fold A B C; rewrite ?AP; lra.
Qed.

(** With a smoothing angle below a right angle. *)
Lemma taken_lean : forall limit p0 q s s', grid_plane p0 -> grid_plane q -> finite limit -> 0 <= val limit ->
  taken O limit (plane_normal O p0) (plane_normal O q) s s' -> s' = s \/ (s' = v3_add O s (plane_normal O q) /\ - / 100000 <= inner (normal_of p0) (normal_of q)).
Proof.
  intros limit p0 q s s' G0 G1 FL L [(G & ->)|(_ & ->)]; [right; split; [reflexivity|]|now left].
  destruct (dot_sign _ _ G0 G1) as (D & F). unfold greater in G. cbn [n_cmp f32_num] in G. rewrite cmp_real in G by (try exact FL; apply fin_finite; exact F).
  injection G as G. apply Rcompare_Gt_inv in G. apply Rabs_le_inv in D.
  assert (K : val limit < val (v3_dot O (plane_normal O p0) (plane_normal O q))) by exact G. lra.
Qed.

Theorem outward_angle : forall tx e planes plane f v s a, build_face O tx e planes plane = Ok f -> (forall q, In q (plane :: planes) -> grid_plane q) ->
  In v (f_vertices f) -> phong e -> hget (e_props e) (lit "_phong_angle") = Some s -> n_parse O s = Some a ->
  finite (n_cos O (n_mul O (n_add O a (n_centi O)) (n_degree O))) -> 0 <= val (n_cos O (n_mul O (n_add O a (n_centi O)) (n_degree O))) ->
  2 / 5 * norm (facing (plane_of plane)) <= inner (facing (plane_of plane)) (point_of (vt_normal v)).
Proof.
  intros tx e planes plane f v str a E G V P HA PA FL L0. assert (G0 : grid_plane plane) by (apply G; now left).
  destruct (phong_c64 p tx e planes plane f v E V P) as (p1 & p2 & x & n & (l1 & l2 & _ & (I1 & I2 & X & _) & _) & _ & SM & ->).
  assert (G1 : grid_plane p1) by (apply G; now right). assert (G2 : grid_plane p2) by (apply G; now right).
  destruct (meet_size p _ _ _ _ G0 G1 G2 X) as (D & _ & _). rewrite HA in SM.
  rewrite unit_inner by exact G0. rewrite (Rmult_comm (2 / 5)). apply Rmult_le_compat_l; [apply norm_pos|].
  destruct (normal_near _ G0) as (F0 & E0). destruct (normal_near _ G1) as (F1 & E1). destruct (normal_near _ G2) as (F2 & E2).
  pose proof (grid_unit _ G0) as N0. pose proof (grid_unit _ G1) as N1. pose proof (grid_unit _ G2) as N2.
  destruct (add_near _ _ (normal_of plane) (normal_of p1) (5 * u) (5 * u) F0 F1 ltac:(lra) ltac:(lra) ltac:(lra) ltac:(lra) E0 E1) as (F01 & E01).
  destruct (add_near _ _ (normal_of plane) (normal_of p2) (5 * u) (5 * u) F0 F2 ltac:(lra) ltac:(lra) ltac:(lra) ltac:(lra) E0 E2) as (F02 & E02).
  pose proof (norm_triangle (normal_of plane) (normal_of p1)) as T.
  destruct (add_near _ _ (vplus (normal_of plane) (normal_of p1)) (normal_of p2) (5 * u + 5 * u + 7 * u) (5 * u) F01 F2 ltac:(lra) ltac:(lra) ltac:(lra) ltac:(lra) E01 E2) as (F3 & E3).
  assert (AA : inner (normal_of plane) (normal_of plane) = 1) by (rewrite <- norm_sq, N0; ring).
  unfold smooth in SM. rewrite PA in SM. cbn zeta in SM. destruct SM as (s1 & s2 & T1 & T2 & ->).
  apply (taken_lean _ _ _ _ _ G0 G1 FL L0) in T1. apply (taken_lean _ _ _ _ _ G0 G2 FL L0) in T2.
  destruct T1 as [->|(-> & J1)]; destruct T2 as [->|(-> & J2)].
  - assert (HS : smoothed plane plane plane (normal_of plane)) by (left; reflexivity). destruct (near_lean _ _ _ _ G0 G0 G0 ltac:(lra) ltac:(lra) HS) as (A & B).
    apply (facing_kept plane p1 p2 _ (normal_of plane)); try assumption; [left; reflexivity|lra].
  - assert (HS : smoothed plane plane p2 (vplus (normal_of plane) (normal_of p2))) by (right; right; left; reflexivity). destruct (near_lean _ _ _ _ G0 G0 G2 ltac:(lra) J2 HS) as (A & B).
    apply (facing_kept plane p1 p2 _ (vplus (normal_of plane) (normal_of p2))); try assumption; [right; right; left; reflexivity|lra].
  - assert (HS : smoothed plane p1 plane (vplus (normal_of plane) (normal_of p1))) by (right; left; reflexivity). destruct (near_lean _ _ _ _ G0 G1 G0 J1 ltac:(lra) HS) as (A & B).
    apply (facing_kept plane p1 p2 _ (vplus (normal_of plane) (normal_of p1))); try assumption; [right; left; reflexivity|lra].
  - assert (HS : smoothed plane p1 p2 (vplus (vplus (normal_of plane) (normal_of p1)) (normal_of p2))) by (right; right; right; reflexivity). destruct (near_lean _ _ _ _ G0 G1 G2 J1 J2 HS) as (A & B).
    apply (facing_kept plane p1 p2 _ (vplus (vplus (normal_of plane) (normal_of p1)) (normal_of p2))); try assumption. lra.
Qed.

(** Or if no planes meet at a corner of the face at a sharp angle. *)
Theorem outward_blunt : forall tx e planes plane f v, build_face O tx e planes plane = Ok f -> (forall q, In q (plane :: planes) -> grid_plane q) ->
  In v (f_vertices f) -> phong e ->
  (forall p1 p2 x, meets O planes plane p1 p2 x -> 0 <= inner (facing (plane_of plane)) (facing (plane_of p1)) /\ 0 <= inner (facing (plane_of plane)) (facing (plane_of p2))) ->
  2 / 5 * norm (facing (plane_of plane)) <= inner (facing (plane_of plane)) (point_of (vt_normal v)).
Proof.
  intros tx e planes plane f v E G V P B. assert (G0 : grid_plane plane) by (apply G; now left).
  destruct (phong_c64 p tx e planes plane f v E V P) as (p1 & p2 & x & n & (l1 & l2 & _ & M & _) & _ & SM & ->).
  pose proof M as (I1 & I2 & X & _).
  assert (G1 : grid_plane p1) by (apply G; now right). assert (G2 : grid_plane p2) by (apply G; now right).
  destruct (meet_size p _ _ _ _ G0 G1 G2 X) as (D & _ & _).
  rewrite unit_inner by exact G0. rewrite (Rmult_comm (2 / 5)). apply Rmult_le_compat_l; [apply norm_pos|].
  assert (K : forall q, grid_plane q -> 0 <= inner (facing (plane_of plane)) (facing (plane_of q)) -> - / 100000 <= inner (normal_of plane) (normal_of q)).
  { intros q Gq H. rewrite unit_inner in H by exact G0. assert (N0 : norm (facing (plane_of plane)) <> 0) by apply G0. assert (Nq : norm (facing (plane_of q)) <> 0) by apply Gq.
    pose proof (norm_pos (facing (plane_of plane))). pose proof (norm_pos (facing (plane_of q))).
    assert (0 <= inner (normal_of plane) (facing (plane_of q))).
    { apply Rmult_le_reg_l with (norm (facing (plane_of plane))); [lra|]. lra. }
    replace (inner (normal_of plane) (normal_of q)) with (/ norm (facing (plane_of q)) * inner (normal_of plane) (facing (plane_of q))) by (unfold unit_along at 3; unfold vscale, inner; cbn [vx vy vz]; ring).
    assert (0 <= / norm (facing (plane_of q)) * inner (normal_of plane) (facing (plane_of q))) by (apply Rmult_le_pos; [apply Rlt_le, Rinv_0_lt_compat; lra|assumption]). lra. }
  destruct (B _ _ _ M) as (B1 & B2). apply (K _ G1) in B1. apply (K _ G2) in B2.
  destruct (smooth_near _ _ _ _ _ G0 G1 G2 SM) as (s & S & -> & HS & Fs & Es). destruct (near_lean _ _ _ _ G0 G1 G2 B1 B2 HS) as (L & L1).
  apply (facing_kept plane p1 p2 s S); assumption.
Qed.
End WithPlatform.
