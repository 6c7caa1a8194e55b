(** Rounding errors of corners (C89 to C91). *)
From Coq Require Import Reals Lra Lia ZArith.
From Flocq Require Import Core BinarySingleNaN.
From Verif Require Import Prelude F32 Text MapModel GeoModel GatherSpec GeoSpec GeoFinal NumberSpec BaseProofs FloatProofs NumberProofs ColorProofs ExactProofs RealSpec ArithProofs ErrorSpec ErrorProofs.
Local Open Scope R_scope.

Lemma inner_minus_r : forall a b c, inner a (minus b c) = inner a b - inner a c.
Proof. intros a b c. unfold inner, minus. cbn [vx vy vz]. ring. Qed.
Lemma inner_minus_l : forall a b c, inner (minus a b) c = inner a c - inner b c.
Proof. intros a b c. unfold inner, minus. cbn [vx vy vz]. ring. Qed.

Section WithPlatform.
Variable p : platform.
Notation O := (f32_num p).
Notation normal_of pl := (unit_along (facing (plane_of pl))).

Lemma below_weaken : forall a b v, a <= b -> below a v -> below b v.
Proof. intros a b v L (X & Y & Z). unfold below. lra. Qed.

(** ** Projections *)
Lemma proj_err : forall pl v, grid_plane pl -> fins v -> below B50 (point_of v) ->
  fin (v3_dot O (plane_normal O pl) v) /\
  Rabs (val (v3_dot O (plane_normal O pl) v) - inner (normal_of pl) (point_of v)) <= 81 / 10 * u * norm (point_of v) + 6 * eta.
Proof.
  intros pl v G F L. pose proof (plane_close p pl G) as C. assert (N : norm (normal_of pl) = 1) by (apply unit_norm; apply G).
  destruct (close_unit _ _ C N) as (Fn & Nn & Dn & Bn). destruct (dot_err p _ _ Fn F Bn L) as [Fd Ed]. split; [exact Fd|].
  set (n := point_of (plane_normal O pl)) in *. set (x := point_of v) in *.
  assert (A : Rabs (inner n x - inner (normal_of pl) x) <= 5 * u * norm x).
  { rewrite <- inner_minus_l. eapply Rle_trans; [apply abs_inner|]. apply Rmult_le_compat_r; [apply norm_pos|exact Dn]. }
  assert (B : norm n * norm x <= (1 + 5 * u) * norm x) by (apply Rmult_le_compat_r; [apply norm_pos|exact Nn]).
  replace (val (v3_dot O (plane_normal O pl) v) - inner (normal_of pl) x)
    with ((val (v3_dot O (plane_normal O pl) v) - inner n x) + (inner n x - inner (normal_of pl) x)) by ring.
  eapply Rle_trans; [apply Rabs_triang|]. pose proof (norm_pos x). lra.
Qed.

Lemma grid_below : forall v, grid_point v -> fins v /\ below 1048576 (point_of v) /\ norm (point_of v) <= 1835008.
Proof.
  intros v (F & x & y & z & E & X & Y & Z). split; [apply finite_fins; exact F|].
  assert (B : below 1048576 (point_of v)).
  { rewrite E. unfold below. cbn [vx vy vz]. rewrite <- !abs_IZR. repeat split; apply IZR_le; lia. }
  split; [exact B|]. destruct B as (B1 & B2 & B3). pose proof (norm_cube _ _ B1 B2 B3). lra.
Qed.

Lemma dist_err : forall pl, grid_plane pl -> fin (plane_dist O pl) /\
  Rabs (val (plane_dist O pl) - inner (normal_of pl) (point_of (bp_v0 pl))) <= 81 / 10 * u * norm (point_of (bp_v0 pl)) + 6 * eta
  /\ Rabs (val (plane_dist O pl)) <= (1 + 81 / 10 * u) * norm (point_of (bp_v0 pl)) + 6 * eta /\ Rabs (val (plane_dist O pl)) <= 2097152.
Proof.
  intros pl G. destruct (grid_below _ (proj1 G)) as (F & B & N).
  destruct (proj_err pl (bp_v0 pl) G F) as [Fd Ed]; [eapply below_weaken; [|exact B]; unfold B50; lra|].
  unfold plane_dist. split; [exact Fd|]. split; [exact Ed|].
  pose proof (near_bound _ _ _ Ed) as H. pose proof (abs_inner (normal_of pl) (point_of (bp_v0 pl))) as I.
  rewrite (unit_norm _ (proj1 (proj2 (proj2 (proj2 G))))) in I. pose proof eta_small. split; lra.
Qed.

(** The hull test against the true plane. *)
Lemma eps_near : fin (n_eps O) /\ 999999 / 1000000000 <= val (n_eps O) <= 1000001 / 1000000000.
Proof.
  destruct (constants p) as ((C & _) & _). pose proof (rnd_err (/ 1000)) as E. pose proof eta_small. rewrite (Rabs_pos_eq (/ 1000)) in E by lra.
  destruct C as (F & V & _); [apply rnd_big; rewrite Rabs_pos_eq by lra; change (IZR (2 ^ 105)) with 40564819207303340847894502572032; lra|].
  split; [apply finite_fin; exact F|]. rewrite V. unfold nearest. change (FLT_exp (-149) 24) with fexp32. apply Rabs_le_inv in E. lra.
Qed.

Lemma greater_iff : forall a b, fin a -> fin b -> (greater O a b <-> val b < val a).
Proof.
  intros a b Fa Fb. unfold greater. cbn [n_cmp f32_num]. rewrite cmp_real by (apply finite_fin; assumption). split; intros H.
  - apply Rcompare_Gt_inv. congruence.
  - rewrite Rcompare_Gt by exact H. reflexivity.
Qed.

Lemma hull_test : forall q v, grid_plane q -> fins v -> below B50 (point_of v) ->
  let t := inner (normal_of q) (minus (point_of v) (point_of (bp_v0 q))) in
  let e := 81 / 10 * u * (norm (point_of v) + norm (point_of (bp_v0 q))) + 14 * eta in
  (behind O v q -> t <= 100001 / 100000000 + e) /\ (t + e <= 99999 / 100000000 -> behind O v q).
Proof.
  intros q v G F B. cbn zeta. destruct (proj_err q v G F B) as [Fp Ep]. destruct (dist_err q G) as (Fd & Ed & _ & Bd).
  set (n := normal_of q) in *. rewrite inner_minus_r. set (a := inner n (point_of v)) in *. set (b := inner n (point_of (bp_v0 q))) in *.
  unfold behind. set (P := v3_dot O (plane_normal O q) v) in *. set (D := plane_dist O q) in *.
  assert (NB : norm (point_of v) <= 7 / 4 * B50) by (destruct B as (? & ? & ?); apply norm_cube; assumption).
  assert (A : Rabs a <= norm (point_of v)).
  { unfold a. eapply Rle_trans; [apply abs_inner|]. unfold n. rewrite (unit_norm _ (proj1 (proj2 (proj2 (proj2 G))))). lra. }
  pose proof eta_small as HE. pose proof (near_bound _ _ _ Ep) as Bp. unfold B50 in *.
  destruct (sub_err P D Fp Fd) as [Fs Es]; [unfold B60; lra|unfold B60; lra|]. destruct eps_near as [Fe Ve].
  change (n_sub O P D) with (f32_sub P D).
  rewrite (greater_iff P D Fp Fd), (greater_iff _ _ Fs Fe).
  apply Rabs_le_inv in Ep, Ed. split.
  - intros H. destruct (Rle_or_lt (val P) (val D)) as [L|L]; [lra|].
    destruct (Rle_or_lt (val (f32_sub P D)) (val (n_eps O))) as [M|M]; [|exfalso; apply H; split; assumption].
    rewrite (Rabs_pos_eq (val P - val D)) in Es by lra. apply Rabs_le_inv in Es. lra.
  - intros H [L M]. rewrite (Rabs_pos_eq (val P - val D)) in Es by lra. apply Rabs_le_inv in Es. lra.
Qed.

(** ** Meeting points *)
Lemma comb_err : forall c0 c1 c2 o0 o1 o2 d0 d1 d2, fin c0 -> fin c1 -> fin c2 -> fin d0 -> fin d1 -> fin d2 ->
  Rabs (val c0 - o0) <= 202 / 100 * u -> Rabs (val c1 - o1) <= 202 / 100 * u -> Rabs (val c2 - o2) <= 202 / 100 * u ->
  Rabs o0 <= 1 + / 100000 -> Rabs o1 <= 1 + / 100000 -> Rabs o2 <= 1 + / 100000 ->
  Rabs (val d0) <= 2097152 -> Rabs (val d1) <= 2097152 -> Rabs (val d2) <= 2097152 ->
  let w := f32_add (f32_add (f32_mul c0 d0) (f32_mul c1 d1)) (f32_mul c2 d2) in
  fin w /\ Rabs (val w - (o0 * val d0 + o1 * val d1 + o2 * val d2)) <= 505 / 100 * u * (Rabs (val d0) + Rabs (val d1) + Rabs (val d2)) + 6 * eta.
Proof.
  intros c0 c1 c2 o0 o1 o2 d0 d1 d2 F0 F1 F2 G0 G1 G2 E0 E1 E2 B0 B1 B2 D0 D1 D2. cbn zeta. pose proof eta_small as HE.
  assert (H : forall c o d, fin c -> fin d -> Rabs (val c - o) <= 202 / 100 * u -> Rabs o <= 1 + / 100000 -> Rabs (val d) <= 2097152 ->
    fin (f32_mul c d) /\ Rabs (val (f32_mul c d) - o * val d) <= 303 / 100 * u * Rabs (val d) + eta /\ Rabs (o * val d) <= (1 + / 100000) * Rabs (val d)).
  { intros c o d Fc Fd E B D. pose proof (near_bound _ _ _ E) as Nc.
    destruct (mul_err c d Fc Fd) as [Fm Em]; [unfold B50; lra|unfold B50; lra|]. split; [exact Fm|].
    assert (P : Rabs (o * val d) <= (1 + / 100000) * Rabs (val d)) by (apply prod_bound; [exact B|lra]). split; [|exact P].
    assert (Q : Rabs (val c * val d - o * val d) <= 202 / 100 * u * Rabs (val d)).
    { rewrite <- Rmult_minus_distr_r. apply prod_bound; [exact E|lra]. }
    pose proof (near_bound _ _ _ Q) as Ncd.
    replace (val (f32_mul c d) - o * val d) with ((val (f32_mul c d) - val c * val d) + (val c * val d - o * val d)) by ring.
    eapply Rle_trans; [apply Rabs_triang|]. pose proof (Rabs_pos (val d)). lra. }
  destruct (H c0 o0 d0) as (H0 & I0 & J0); auto. destruct (H c1 o1 d1) as (H1 & I1 & J1); auto. destruct (H c2 o2 d2) as (H2 & I2 & J2); auto.
  pose proof (near_bound _ _ _ I0) as N0. pose proof (near_bound _ _ _ I1) as N1. pose proof (near_bound _ _ _ I2) as N2.
  destruct (add_err _ _ H0 H1) as [H3 I3]; [unfold B60; lra|unfold B60; lra|].
  pose proof (two_sum _ _ _ _ _ _ _ I0 I1 I3) as I4. pose proof (near_bound _ _ _ I4) as N4. pose proof (Rabs_triang (o0 * val d0) (o1 * val d1)) as T.
  destruct (add_err _ _ H3 H2) as [H5 I5]; [unfold B60; lra|unfold B60; lra|].
  pose proof (two_sum _ _ _ _ _ _ _ I4 I2 I5) as I6. split; [exact H5|].
  pose proof (Rabs_pos (val d0)). pose proof (Rabs_pos (val d1)). pose proof (Rabs_pos (val d2)). lra.
Qed.

Lemma cross_unit : forall a b m n, close (5 * u) a m -> norm m = 1 -> close (5 * u) b n -> norm n = 1 ->
  fins (v3_cross O a b) /\ below (202 / 100 * u) (minus (point_of (v3_cross O a b)) (outer (point_of a) (point_of b)))
  /\ norm (outer (point_of a) (point_of b)) <= 1 + / 1000000 /\ below (1 + / 1000000) (outer (point_of a) (point_of b)).
Proof.
  intros a b m n Ca Nm Cb Nn. destruct (close_unit _ _ Ca Nm) as (Fa & Na & _ & Ba). destruct (close_unit _ _ Cb Nn) as (Fb & Nb & _ & Bb).
  destruct (cross_err p a b Fa Fb Ba Bb) as [F E]. split; [exact F|].
  assert (M : norm (point_of a) * norm (point_of b) <= 1 + / 1000000).
  { apply Rle_trans with ((1 + 5 * u) * (1 + 5 * u)); [apply Rmult_le_compat; auto using norm_pos|lra]. }
  assert (N : norm (outer (point_of a) (point_of b)) <= 1 + / 1000000) by (eapply Rle_trans; [apply outer_norm|exact M]).
  split; [|split; [exact N|]].
  - eapply below_weaken; [|exact E]. pose proof eta_small. lra.
  - destruct (coord_norm (outer (point_of a) (point_of b))) as (? & ? & ?). unfold below. lra.
Qed.

Lemma det_err : forall a b c l m n, close (5 * u) a l -> norm l = 1 -> close (5 * u) b m -> norm m = 1 -> close (5 * u) c n -> norm n = 1 ->
  let d := v3_dot O (v3_cross O a b) c in
  fin d /\ Rabs (val d - inner (outer (point_of a) (point_of b)) (point_of c)) <= 67 / 10 * u
  /\ Rabs (inner (outer (point_of a) (point_of b)) (point_of c) - inner (outer l m) n) <= 151 / 10 * u.
Proof.
  intros a b c l m n Ca Nl Cb Nm Cc Nn. cbn zeta.
  destruct (cross_unit a b l m Ca Nl Cb Nm) as (Fx & (E1 & E2 & E3) & No & Bo).
  destruct (close_unit _ _ Ca Nl) as (_ & Na & Da & _). destruct (close_unit _ _ Cb Nm) as (_ & Nb & Db & _). destruct (close_unit _ _ Cc Nn) as (Fc & Nc & Dc & Bc).
  set (X := point_of (v3_cross O a b)) in *. set (A := point_of a) in *. set (B := point_of b) in *. set (C := point_of c) in *.
  pose proof (norm_cube _ _ E1 E2 E3) as NE.
  assert (NX : norm X <= 1 + / 500000).
  { replace X with (vplus (outer A B) (minus X (outer A B))); [eapply Rle_trans; [apply norm_triangle|lra]|].
    unfold vplus, minus. destruct X as [x y z]. cbn [vx vy vz]. f_equal; ring. }
  destruct (coord_norm X) as (X1 & X2 & X3).
  destruct (dot_err p (v3_cross O a b) c Fx Fc) as [Fd Ed]; [unfold below; fold X; lra|eapply below_weaken; [|exact Bc]; unfold B50; lra|].
  fold X C in Ed. split; [exact Fd|]. pose proof eta_small as HE. split.
  - replace (val (v3_dot O (v3_cross O a b) c) - inner (outer A B) C) with ((val (v3_dot O (v3_cross O a b) c) - inner X C) + inner (minus X (outer A B)) C) by (rewrite inner_minus_l; ring).
    eapply Rle_trans; [apply Rabs_triang|]. pose proof (abs_inner (minus X (outer A B)) C) as I.
    assert (norm (minus X (outer A B)) * norm C <= 354 / 100 * u * (1 + 5 * u)) by (apply Rmult_le_compat; auto using norm_pos; lra).
    assert (norm X * norm C <= (1 + / 500000) * (1 + 5 * u)) by (apply Rmult_le_compat; auto using norm_pos). lra.
  - replace (inner (outer A B) C - inner (outer l m) n)
      with (inner (outer (minus A l) B) C + inner (outer l (minus B m)) C + inner (outer l m) (minus C n)) by (unfold inner, outer, minus; cbn [vx vy vz]; ring).
    assert (T : forall f g h x y z, norm f <= x -> norm g <= y -> norm h <= z -> Rabs (inner (outer f g) h) <= x * y * z).
    { intros f g h x y z Hf Hg Hh. eapply Rle_trans; [apply abs_inner|]. apply Rmult_le_compat; auto using norm_pos.
      eapply Rle_trans; [apply outer_norm|]. apply Rmult_le_compat; auto using norm_pos. }
    pose proof (T _ _ _ _ _ _ Da Nb Nc) as T1. pose proof (T _ _ _ _ _ _ (Req_le _ _ Nl) Db Nc) as T2. pose proof (T _ _ _ _ _ _ (Req_le _ _ Nl) (Req_le _ _ Nm) Dc) as T3.
    eapply Rle_trans; [apply Rabs_triang|]. pose proof (Rabs_triang (inner (outer (minus A l) B) C) (inner (outer l (minus B m)) C)). lra.
Qed.

(** The combination of the normals' outer products. *)
Definition combined (A B C : vec3 R) (i j k : R) : vec3 R :=
  vplus (vplus (vscale i (outer B C)) (vscale j (outer C A))) (vscale k (outer A B)).

Lemma combined_point : forall A B C x, combined A B C (inner A x) (inner B x) (inner C x) = vscale (inner (outer A B) C) x.
Proof. intros A B C x. unfold combined, vplus, vscale, inner, outer. destruct x as [x y z]. cbn [vx vy vz]. f_equal; ring. Qed.

Lemma combined_minus : forall A B C i j k i' j' k', minus (combined A B C i j k) (combined A B C i' j' k') = combined A B C (i - i') (j - j') (k - k').
Proof. intros. unfold combined, vplus, vscale, inner, outer, minus. cbn [vx vy vz]. f_equal; ring. Qed.

Lemma combined_norm : forall A B C i j k h, norm (outer B C) <= h -> norm (outer C A) <= h -> norm (outer A B) <= h ->
  norm (combined A B C i j k) <= h * (Rabs i + Rabs j + Rabs k).
Proof.
  intros A B C i j k h X Y Z. unfold combined. eapply Rle_trans; [apply norm_triangle|].
  assert (H : forall t v, norm v <= h -> norm (vscale t v) <= h * Rabs t).
  { intros t v Hv. rewrite norm_scale, (Rmult_comm h). apply Rmult_le_compat_l; [apply Rabs_pos|exact Hv]. }
  pose proof (norm_triangle (vscale i (outer B C)) (vscale j (outer C A))). pose proof (H i _ X). pose proof (H j _ Y). pose proof (H k _ Z). lra.
Qed.

Lemma numerator_err : forall a b c l m n d0 d1 d2, close (5 * u) a l -> norm l = 1 -> close (5 * u) b m -> norm m = 1 -> close (5 * u) c n -> norm n = 1 ->
  fin d0 -> fin d1 -> fin d2 -> Rabs (val d0) <= 2097152 -> Rabs (val d1) <= 2097152 -> Rabs (val d2) <= 2097152 ->
  let w := v3_add O (v3_add O (v3_scale O (v3_cross O b c) d0) (v3_scale O (v3_cross O c a) d1)) (v3_scale O (v3_cross O a b) d2) in
  fins w /\ norm (minus (point_of w) (combined (point_of a) (point_of b) (point_of c) (val d0) (val d1) (val d2)))
    <= 885 / 100 * u * (Rabs (val d0) + Rabs (val d1) + Rabs (val d2)) + 12 * eta.
Proof.
  intros a b c l m n d0 d1 d2 Ca Nl Cb Nm Cc Nn F0 F1 F2 B0 B1 B2. cbn zeta.
  destruct (cross_unit b c m n Cb Nm Cc Nn) as ((Fx0 & Fy0 & Fz0) & (Ex0 & Ey0 & Ez0) & _ & (Bx0 & By0 & Bz0)).
  destruct (cross_unit c a n l Cc Nn Ca Nl) as ((Fx1 & Fy1 & Fz1) & (Ex1 & Ey1 & Ez1) & _ & (Bx1 & By1 & Bz1)).
  destruct (cross_unit a b l m Ca Nl Cb Nm) as ((Fx2 & Fy2 & Fz2) & (Ex2 & Ey2 & Ez2) & _ & (Bx2 & By2 & Bz2)).
  set (f0 := v3_cross O b c) in *. set (f1 := v3_cross O c a) in *. set (f2 := v3_cross O a b) in *.
  set (o0 := outer (point_of b) (point_of c)) in *. set (o1 := outer (point_of c) (point_of a)) in *. set (o2 := outer (point_of a) (point_of b)) in *.
  unfold minus in Ex0, Ey0, Ez0, Ex1, Ey1, Ez1, Ex2, Ey2, Ez2. cbn [vx vy vz point_of] in Ex0, Ey0, Ez0, Ex1, Ey1, Ez1, Ex2, Ey2, Ez2.
  destruct (comb_err (vx f0) (vx f1) (vx f2) (vx o0) (vx o1) (vx o2) d0 d1 d2) as [Gx Hx]; auto; try lra.
  destruct (comb_err (vy f0) (vy f1) (vy f2) (vy o0) (vy o1) (vy o2) d0 d1 d2) as [Gy Hy]; auto; try lra.
  destruct (comb_err (vz f0) (vz f1) (vz f2) (vz o0) (vz o1) (vz o2) d0 d1 d2) as [Gz Hz]; auto; try lra.
  unfold v3_add, v3_scale. cbn [n_add n_mul f32_num vx vy vz]. split; [split; [|split]; assumption|].
  match goal with |- norm ?M <= _ => pose proof (norm_cube M (505 / 100 * u * (Rabs (val d0) + Rabs (val d1) + Rabs (val d2)) + 6 * eta)) as NC end.
  unfold minus, combined, vplus, vscale in *. fold o0 o1 o2 in NC |- *. cbn [vx vy vz point_of] in *.
  rewrite (Rmult_comm (val d0) (vx o0)), (Rmult_comm (val d1) (vx o1)), (Rmult_comm (val d2) (vx o2)),
    (Rmult_comm (val d0) (vy o0)), (Rmult_comm (val d1) (vy o1)), (Rmult_comm (val d2) (vy o2)),
    (Rmult_comm (val d0) (vz o0)), (Rmult_comm (val d1) (vz o1)), (Rmult_comm (val d2) (vz o2)) in *.
  specialize (NC Hx Hy Hz). pose proof eta_small. pose proof (Rabs_pos (val d0)). pose proof (Rabs_pos (val d1)). pose proof (Rabs_pos (val d2)). lra.
Qed.

Definition det_of (p0 p1 p2 : brush_plane f32) : R := inner (outer (normal_of p0) (normal_of p1)) (normal_of p2).
Definition reach (p0 p1 p2 : brush_plane f32) : R := norm (point_of (bp_v0 p0)) + norm (point_of (bp_v0 p1)) + norm (point_of (bp_v0 p2)).
Definition level_with (pl : brush_plane f32) (x : vec3 R) : Prop := inner (normal_of pl) x = inner (normal_of pl) (point_of (bp_v0 pl)).

Lemma grid_unit : forall pl, grid_plane pl -> norm (normal_of pl) = 1.
Proof. intros pl G. apply unit_norm. apply G. Qed.

Lemma meeting_exists : forall p0 p1 p2, det_of p0 p1 p2 <> 0 -> exists x, level_with p0 x /\ level_with p1 x /\ level_with p2 x.
Proof.
  intros p0 p1 p2. unfold det_of, level_with. set (A := normal_of p0). set (B := normal_of p1). set (C := normal_of p2). intros D.
  set (i := inner A (point_of (bp_v0 p0))). set (j := inner B (point_of (bp_v0 p1))). set (k := inner C (point_of (bp_v0 p2))).
  exists (vscale (/ inner (outer A B) C) (combined A B C i j k)).
  assert (H : forall F t v, inner F (vscale t v) = t * inner F v) by (intros F t v; unfold inner, vscale; cbn [vx vy vz]; ring).
  assert (I0 : inner A (combined A B C i j k) = i * inner (outer A B) C) by (unfold combined, inner, outer, vplus, vscale; cbn [vx vy vz]; ring).
  assert (I1 : inner B (combined A B C i j k) = j * inner (outer A B) C) by (unfold combined, inner, outer, vplus, vscale; cbn [vx vy vz]; ring).
  assert (I2 : inner C (combined A B C i j k) = k * inner (outer A B) C) by (unfold combined, inner, outer, vplus, vscale; cbn [vx vy vz]; ring).
  rewrite !H, I0, I1, I2. repeat split; field; exact D.
Qed.

Lemma det_bound : forall p0 p1 p2, grid_plane p0 -> grid_plane p1 -> grid_plane p2 -> det_of p0 p1 p2 <= 1.
Proof.
  intros p0 p1 p2 G0 G1 G2. unfold det_of. eapply Rle_trans; [apply cauchy|]. rewrite (grid_unit _ G2), Rmult_1_r.
  eapply Rle_trans; [apply outer_norm|]. rewrite (grid_unit _ G0), (grid_unit _ G1). lra.
Qed.

Lemma meeting_bound : forall p0 p1 p2 x, grid_plane p0 -> grid_plane p1 -> grid_plane p2 -> 0 < det_of p0 p1 p2 ->
  level_with p0 x -> level_with p1 x -> level_with p2 x -> det_of p0 p1 p2 * norm x <= reach p0 p1 p2.
Proof.
  intros p0 p1 p2 x G0 G1 G2 D L0 L1 L2. pose proof (combined_point (normal_of p0) (normal_of p1) (normal_of p2) x) as E.
  unfold level_with in *. rewrite L0, L1, L2 in E. fold (det_of p0 p1 p2) in E.
  rewrite <- (Rabs_pos_eq (det_of p0 p1 p2)) by lra. rewrite <- norm_scale, <- E.
  assert (U : forall q r, grid_plane q -> grid_plane r -> norm (outer (normal_of q) (normal_of r)) <= 1).
  { intros q r Gq Gr. eapply Rle_trans; [apply outer_norm|]. rewrite (grid_unit _ Gq), (grid_unit _ Gr). lra. }
  eapply Rle_trans; [apply (combined_norm _ _ _ _ _ _ 1); apply U; assumption|]. unfold reach.
  assert (V : forall q, grid_plane q -> Rabs (inner (normal_of q) (point_of (bp_v0 q))) <= norm (point_of (bp_v0 q))).
  { intros q Gq. eapply Rle_trans; [apply abs_inner|]. rewrite (grid_unit _ Gq). lra. }
  pose proof (V _ G0). pose proof (V _ G1). pose proof (V _ G2). lra.
Qed.

(** Whether and where three planes are found to meet. *)
Lemma denominator : forall p0 p1 p2, grid_plane p0 -> grid_plane p1 -> grid_plane p2 ->
  let d := v3_dot O (v3_cross O (plane_normal O p0) (plane_normal O p1)) (plane_normal O p2) in
  fin d /\ Rabs (val d - det_of p0 p1 p2) <= 22 * u /\ (n_ltb O d (n_eps O) = false <-> val (n_eps O) <= val d).
Proof.
  intros p0 p1 p2 G0 G1 G2. cbn zeta.
  destruct (det_err _ _ _ _ _ _ (plane_close p _ G0) (grid_unit _ G0) (plane_close p _ G1) (grid_unit _ G1) (plane_close p _ G2) (grid_unit _ G2)) as (F & E1 & E2).
  set (d := v3_dot O _ _) in *. split; [exact F|]. split.
  - unfold det_of. apply Rabs_le_inv in E1, E2. apply Rabs_le. lra.
  - destruct eps_near as [Fe _]. unfold n_ltb. cbn [n_cmp f32_num]. rewrite cmp_real by (apply finite_fin; assumption).
    destruct (Rcompare_spec (val d) (val (n_eps O))); split; intros; try reflexivity; try discriminate; try lra.
Qed.

Lemma quotients : forall w d, fins w -> fin d -> / 2000 <= val d -> below 1000000000 (point_of w) ->
  let y := vscale (/ val d) (point_of w) in
  fins (v3_divs O w d) /\ norm (minus (point_of (v3_divs O w d)) y) <= u * norm y + 2 * eta.
Proof.
  intros w d (A & B & C) Fd D (X & Y & Z). cbn zeta.
  assert (I : 0 < / val d <= 2000).
  { split; [apply Rinv_0_lt_compat; lra|]. rewrite <- (Rinv_inv 2000). apply Rinv_le_contravar; lra. }
  assert (H : forall x, fin x -> Rabs (val x) <= 1000000000 -> fin (f32_div x d) /\ Rabs (val (f32_div x d) - / val d * val x) <= u * Rabs (/ val d * val x) + eta).
  { intros x Fx Bx. assert (E : val x / val d = / val d * val x) by (unfold Rdiv; ring).
    destruct (div_correct x d Fx Fd) as [F V]; [lra| |split; [exact F|rewrite V, E; apply rnd_err]].
    rewrite E. apply rnd_big. apply Rle_trans with (2000 * 1000000000).
    - apply prod_bound; [rewrite Rabs_pos_eq; lra|exact Bx].
    - rewrite <- mult_IZR. apply IZR_le. vm_compute. discriminate. }
  cbn [point_of vx vy vz] in X, Y, Z.
  destruct (H _ A X) as [Fx Ex]. destruct (H _ B Y) as [Fy Ey]. destruct (H _ C Z) as [Fz Ez].
  split; [split; [|split]; assumption|].
  pose proof eta_small as HE.
  match goal with |- norm ?M <= u * norm ?y + _ => pose proof (norm_combine M y (V3 0 0 0) u 0 eta ltac:(lra) ltac:(lra) ltac:(lra)) as NC end.
  unfold minus, vscale, v3_divs in *. cbn [point_of vx vy vz n_div f32_num] in *. specialize (NC ltac:(lra) ltac:(lra) ltac:(lra)). lra.
Qed.

Lemma meet_err : forall p0 p1 p2 v x, grid_plane p0 -> grid_plane p1 -> grid_plane p2 -> intersect_planes O p0 p1 p2 = Some v ->
  level_with p0 x -> level_with p1 x -> level_with p2 x ->
  fins v /\ norm (minus (point_of v) x) * det_of p0 p1 p2 <= 23 * u * (reach p0 p1 p2 + norm x) + 100 * eta.
Proof.
  intros p0 p1 p2 v x G0 G1 G2 E L0 L1 L2. unfold intersect_planes in E.
  destruct (denominator p0 p1 p2 G0 G1 G2) as (Fd & Ed & Cd). destruct eps_near as [Fe Ve].
  pose proof (plane_close p _ G0) as C0. pose proof (plane_close p _ G1) as C1. pose proof (plane_close p _ G2) as C2.
  pose proof (grid_unit _ G0) as N0. pose proof (grid_unit _ G1) as N1. pose proof (grid_unit _ G2) as N2.
  destruct (det_err _ _ _ _ _ _ C0 N0 C1 N1 C2 N2) as (_ & E1 & _). cbn zeta in E1.
  set (d := v3_dot O (v3_cross O (plane_normal O p0) (plane_normal O p1)) (plane_normal O p2)) in *. clearbody d.
  destruct (n_ltb O d (n_eps O)); [discriminate|]. pose proof (proj1 Cd eq_refl) as D. injection E as <-.
  destruct (dist_err p0 G0) as (F0 & X0 & Y0 & B0). destruct (dist_err p1 G1) as (F1 & X1 & Y1 & B1). destruct (dist_err p2 G2) as (F2 & X2 & Y2 & B2).
  destruct (numerator_err _ _ _ _ _ _ _ _ _ C0 N0 C1 N1 C2 N2 F0 F1 F2 B0 B1 B2) as [Fw Ew].
  destruct (close_unit _ _ C0 N0) as (_ & NA & DA & _). destruct (close_unit _ _ C1 N1) as (_ & NB & DB & _). destruct (close_unit _ _ C2 N2) as (_ & NC & DC & _).
  set (w := v3_add O _ _) in *. clearbody w.
  set (A := point_of (plane_normal O p0)) in *. set (B := point_of (plane_normal O p1)) in *. set (C := point_of (plane_normal O p2)) in *.
  set (i := val (plane_dist O p0)) in *. set (j := val (plane_dist O p1)) in *. set (k := val (plane_dist O p2)) in *.
  destruct (cross_unit _ _ _ _ C1 N1 C2 N2) as (_ & _ & O0 & _). destruct (cross_unit _ _ _ _ C2 N2 C0 N0) as (_ & _ & O1 & _). destruct (cross_unit _ _ _ _ C0 N0 C1 N1) as (_ & _ & O2 & _).
  fold A B C in O0, O1, O2.
  pose proof eta_small as HE.
  assert (S : Rabs i + Rabs j + Rabs k <= (1 + 81 / 10 * u) * reach p0 p1 p2 + 18 * eta) by (unfold reach; lra).
  assert (RB : reach p0 p1 p2 <= 5505024).
  { unfold reach. destruct (grid_below _ (proj1 G0)) as (_ & _ & ?). destruct (grid_below _ (proj1 G1)) as (_ & _ & ?). destruct (grid_below _ (proj1 G2)) as (_ & _ & ?). lra. }
  assert (RP : 0 <= reach p0 p1 p2).
  { unfold reach. pose proof (norm_pos (point_of (bp_v0 p0))). pose proof (norm_pos (point_of (bp_v0 p1))). pose proof (norm_pos (point_of (bp_v0 p2))). lra. }
  (* the combination at the computed distances against that at the point *)
  assert (Dist : forall pl n, level_with pl x -> Rabs (val (plane_dist O pl) - inner (normal_of pl) (point_of (bp_v0 pl))) <= 81 / 10 * u * norm (point_of (bp_v0 pl)) + 6 * eta ->
    norm (minus n (normal_of pl)) <= 5 * u -> Rabs (val (plane_dist O pl) - inner n x) <= 81 / 10 * u * norm (point_of (bp_v0 pl)) + 6 * eta + 5 * u * norm x).
  { intros pl n L Hd Hn. unfold level_with in L.
    replace (val (plane_dist O pl) - inner n x) with ((val (plane_dist O pl) - inner (normal_of pl) (point_of (bp_v0 pl))) + - inner (minus n (normal_of pl)) x) by (rewrite inner_minus_l, L; ring).
    eapply Rle_trans; [apply Rabs_triang|]. rewrite Rabs_Ropp. pose proof (abs_inner (minus n (normal_of pl)) x).
    assert (norm (minus n (normal_of pl)) * norm x <= 5 * u * norm x) by (apply Rmult_le_compat_r; [apply norm_pos|exact Hn]). lra. }
  pose proof (Dist _ _ L0 X0 DA) as H0. pose proof (Dist _ _ L1 X1 DB) as H1. pose proof (Dist _ _ L2 X2 DC) as H2. clear Dist.
  fold i in H0. fold j in H1. fold k in H2.
  pose proof (combined_norm A B C (i - inner A x) (j - inner B x) (k - inner C x) _ O0 O1 O2) as CN.
  rewrite <- combined_minus, combined_point in CN. set (W := combined A B C i j k) in *.
  set (Dx := inner (outer A B) C) in *.
  assert (CN' : norm (minus W (vscale Dx x)) <= (1 + / 1000000) * (81 / 10 * u * reach p0 p1 p2 + 18 * eta + 15 * u * norm x)) by (unfold reach; lra).
  clear CN H0 H1 H2 X0 X1 X2.
  (* sizes *)
  assert (BW : norm (point_of w) <= 1000000000).
  { assert (norm W <= (1 + / 1000000) * (Rabs i + Rabs j + Rabs k)) by (apply combined_norm; assumption).
    replace (point_of w) with (vplus W (minus (point_of w) W)); [eapply Rle_trans; [apply norm_triangle|lra]|].
    unfold vplus, minus, point_of. cbn [vx vy vz]. f_equal; ring. }
  destruct (quotients w d Fw Fd) as [Fv Ev]; [lra|destruct (coord_norm (point_of w)) as (? & ? & ?); unfold below; lra|]. cbn zeta in Ev. split; [exact Fv|].
  set (h := / val d) in *. set (y := vscale h (point_of w)) in *. set (v := v3_divs O w d) in *.
  assert (Hd : h * val d = 1) by (apply Rinv_l; lra). assert (Hp : 0 < h) by (apply Rinv_0_lt_compat; lra).
  assert (Hy : norm (minus y x) <= h * (norm (minus (point_of w) W) + norm (minus W (vscale Dx x)) + 67 / 10 * u * norm x)).
  { replace (minus y x) with (vscale h (vplus (vplus (minus (point_of w) W) (minus W (vscale Dx x))) (vscale (Dx - val d) x))).
    - rewrite norm_scale, (Rabs_pos_eq h) by lra. apply Rmult_le_compat_l; [lra|]. eapply Rle_trans; [apply norm_triangle|].
      apply Rplus_le_compat; [apply norm_triangle|]. rewrite norm_scale. apply Rmult_le_compat_r; [apply norm_pos|]. rewrite Rabs_minus_sym. exact E1.
    - unfold y, vscale, vplus, minus. cbn [vx vy vz]. destruct x as [x1 x2 x3]. cbn [vx vy vz].
      f_equal; match goal with |- _ = h * ?a - ?b => transitivity (h * a - (h * val d) * b); [ring|rewrite Hd; ring] end. }
  assert (Hv : norm (minus (point_of v) x) <= norm (minus (point_of v) y) + norm (minus y x)).
  { replace (minus (point_of v) x) with (vplus (minus (point_of v) y) (minus y x)); [apply norm_triangle|]. unfold vplus, minus. cbn [vx vy vz]. f_equal; ring. }
  assert (Hn : norm y <= norm x + norm (minus y x)).
  { replace y with (vplus x (minus y x)) at 1; [apply norm_triangle|]. unfold vplus, minus, y, vscale. cbn [vx vy vz]. f_equal; ring. }
  set (T := 171 / 10 * u * reach p0 p1 p2 + 2172 / 100 * u * norm x + 60 * eta).
  assert (HT : norm (minus (point_of w) W) + norm (minus W (vscale Dx x)) + 67 / 10 * u * norm x <= T) by (unfold T; pose proof (norm_pos x); lra).
  set (M := norm (minus y x)) in *. set (N := norm (minus (point_of v) x)) in *. set (X := norm x) in *.
  assert (PX : 0 <= X) by apply norm_pos. assert (PN : 0 <= N) by apply norm_pos. assert (PM : 0 <= M) by apply norm_pos.
  assert (MT : M * val d <= T).
  { apply Rle_trans with (h * T * val d).
    - apply Rmult_le_compat_r; [lra|]. eapply Rle_trans; [exact Hy|]. apply Rmult_le_compat_l; [lra|exact HT].
    - replace (h * T * val d) with (h * val d * T) by ring. rewrite Hd. lra. }
  assert (DB1 : val d <= 1 + 22 * u) by (pose proof (det_bound _ _ _ G0 G1 G2); apply Rabs_le_inv in Ed; lra).
  assert (N1' : N <= (1 + u) * M + u * X + 2 * eta) by lra.
  assert (ND : N * val d <= (1 + u) * T + (1 + 22 * u) * (u * X + 2 * eta)).
  { apply Rle_trans with (((1 + u) * M + u * X + 2 * eta) * val d); [apply Rmult_le_compat_r; lra|].
    assert ((u * X + 2 * eta) * val d <= (u * X + 2 * eta) * (1 + 22 * u)) by (apply Rmult_le_compat_l; lra). lra. }
  assert (NI : N <= 1011 * (N * val d)).
  { replace (1011 * (N * val d)) with (N * (1011 * val d)) by ring. rewrite <- (Rmult_1_r N) at 1. apply Rmult_le_compat_l; lra. }
  assert (NT : N * det_of p0 p1 p2 <= N * (val d + 22 * u)) by (apply Rmult_le_compat_l; [exact PN|apply Rabs_le_inv in Ed; lra]).
  unfold T in ND. lra.
Qed.

(** ** Corners of a face *)
Definition corner_bound : R := 8589934592.

Lemma meet_size : forall p0 p1 p2 v, grid_plane p0 -> grid_plane p1 -> grid_plane p2 -> intersect_planes O p0 p1 p2 = Some v ->
  99 / 100000 <= det_of p0 p1 p2 /\ fins v /\ norm (point_of v) <= corner_bound.
Proof.
  intros p0 p1 p2 v G0 G1 G2 E.
  assert (D : 99 / 100000 <= det_of p0 p1 p2).
  { destruct (denominator p0 p1 p2 G0 G1 G2) as (_ & Ed & Cd). destruct eps_near as [_ Ve]. unfold intersect_planes in E.
    destruct (n_ltb O _ _); [discriminate|]. pose proof (proj1 Cd eq_refl). apply Rabs_le_inv in Ed. lra. }
  split; [exact D|].
  destruct (meeting_exists p0 p1 p2) as (x & L0 & L1 & L2); [lra|]. destruct (meet_err _ _ _ _ _ G0 G1 G2 E L0 L1 L2) as [F H]. split; [exact F|].
  pose proof (meeting_bound p0 p1 p2 x G0 G1 G2 ltac:(lra) L0 L1 L2) as B.
  assert (RB : reach p0 p1 p2 <= 5505024).
  { unfold reach. destruct (grid_below _ (proj1 G0)) as (_ & _ & ?). destruct (grid_below _ (proj1 G1)) as (_ & _ & ?). destruct (grid_below _ (proj1 G2)) as (_ & _ & ?). lra. }
  pose proof (norm_pos x) as PX. pose proof (norm_pos (minus (point_of v) x)) as PV.
  assert (X : norm x <= 5700000000).
  { apply Rmult_le_reg_l with (99 / 100000); [lra|]. assert (99 / 100000 * norm x <= det_of p0 p1 p2 * norm x) by (apply Rmult_le_compat_r; lra). lra. }
  assert (Y : norm (minus (point_of v) x) <= 10000000).
  { apply Rmult_le_reg_r with (99 / 100000); [lra|].
    assert (norm (minus (point_of v) x) * (99 / 100000) <= norm (minus (point_of v) x) * det_of p0 p1 p2) by (apply Rmult_le_compat_l; lra). pose proof eta_small. lra. }
  replace (point_of v) with (vplus x (minus (point_of v) x)); [eapply Rle_trans; [apply norm_triangle|unfold corner_bound; lra]|].
  unfold vplus, minus, point_of. cbn [vx vy vz]. f_equal; ring.
Qed.

Definition multiple (k : Z) : R := IZR k * corner_bound.
Lemma multiple_format : forall k, (0 <= k < 2 ^ 24)%Z -> format32 (multiple k).
Proof. intros k K. unfold multiple, corner_bound. change 8589934592 with (bpow radix2 33). apply format_scaled; lia. Qed.

Lemma multiple_big : forall k, (0 <= k < 2 ^ 24)%Z -> 0 <= multiple k <= 144115188075855872.
Proof.
  intros k K. unfold multiple, corner_bound. rewrite <- mult_IZR. split; apply IZR_le; lia.
Qed.

Lemma add_multiple : forall x y k, fin x -> fin y -> (0 <= k)%Z -> (k + 1 < 2 ^ 24)%Z -> Rabs (val x) <= multiple k -> Rabs (val y) <= corner_bound ->
  fin (f32_add x y) /\ Rabs (val (f32_add x y)) <= multiple (k + 1).
Proof.
  intros x y k Fx Fy K0 K Bx By.
  assert (M : multiple (k + 1) = multiple k + corner_bound) by (unfold multiple; rewrite plus_IZR; ring).
  assert (R1 : Rabs (val x + val y) <= multiple (k + 1)) by (eapply Rle_trans; [apply Rabs_triang|lra]).
  assert (R2 : Rabs (rnd32 (val x + val y)) <= multiple (k + 1)) by (apply abs_round_le_generic; [apply fexp32_valid|apply valid_rnd_N|apply multiple_format; lia|exact R1]).
  destruct (add_correct x y Fx Fy) as [F V].
  - eapply Rle_lt_trans; [exact R2|]. pose proof (multiple_big (k + 1) ltac:(lia)). pose proof big_bound. change (IZR (2 ^ 110)) with 1298074214633706907132624082305024 in *. lra.
  - split; [exact F|]. rewrite V. exact R2.
Qed.

Lemma sum_bound : forall s l r, sum_from O s l r -> forall k, (0 <= k)%Z -> (k + Z.of_nat (length l) < 2 ^ 24)%Z -> fins s -> below (multiple k) (point_of s) ->
  (forall x, In x l -> fins x /\ below corner_bound (point_of x)) -> fins r /\ below (multiple (k + Z.of_nat (length l))) (point_of r).
Proof.
  intros s l r H. induction H as [s|s x l r H IH]; intros k K0 K F B A.
  - cbn [length]. rewrite Z.add_0_r. split; assumption.
  - cbn [length] in *. rewrite Nat2Z.inj_succ in *. destruct (A x (or_introl eq_refl)) as ((X1 & X2 & X3) & (Y1 & Y2 & Y3)). destruct F as (F1 & F2 & F3). destruct B as (B1 & B2 & B3).
    cbn [point_of vx vy vz] in *.
    destruct (add_multiple _ _ k F1 X1) as [G1 H1]; auto; [lia|]. destruct (add_multiple _ _ k F2 X2) as [G2 H2]; auto; [lia|]. destruct (add_multiple _ _ k F3 X3) as [G3 H3]; auto; [lia|].
    replace (k + Z.succ (Z.of_nat (length l)))%Z with (k + 1 + Z.of_nat (length l))%Z by lia.
    apply IH; [lia|lia|split; [|split]; assumption|split; [|split]; assumption|]. intros z Hz. apply A. now right.
Qed.

Lemma mean_bound : forall l c, is_mean O l c -> (Z.of_nat (length l) < 2 ^ 24)%Z -> (forall x, In x l -> fins x /\ below corner_bound (point_of x)) ->
  fins c /\ below corner_bound (point_of c).
Proof.
  intros l c (s & S & E) L A.
  assert (Z0 : fin f32_zero /\ val f32_zero = 0) by (split; [apply fin_zero|apply val_zero]).
  destruct (sum_bound _ _ _ S 0%Z ltac:(lia) ltac:(lia)) as [F B]; [split; [|split]; apply Z0| |exact A|].
  { unfold below. cbn [point_of vx vy vz n_zero f32_num]. destruct Z0 as [_ ->]. unfold multiple. rewrite Rabs_R0. lra. }
  set (n := Nat.max (length l) 1) in *. assert (N1 : (1 <= Z.of_nat n < 2 ^ 24)%Z) by (unfold n; lia).
  assert (I : int (f32_of_N (N.of_nat n)) (Z.of_nat n)) by (rewrite <- nat_N_Z; apply int_of_N; lia).
  assert (NL : (Z.of_nat (length l) <= Z.of_nat n)%Z) by (unfold n; lia). clearbody n. subst c.
  destruct I as [Fn Vn]. assert (NP : 1 <= IZR (Z.of_nat n)) by (apply (IZR_le 1); lia).
  assert (H : forall x, fin x -> Rabs (val x) <= multiple (0 + Z.of_nat (length l)) -> fin (f32_div x (f32_of_N (N.of_nat n))) /\ Rabs (val (f32_div x (f32_of_N (N.of_nat n)))) <= corner_bound).
  { intros x Fx Bx. rewrite Z.add_0_l in Bx.
    assert (R1 : Rabs (val x / val (f32_of_N (N.of_nat n))) <= corner_bound).
    { rewrite Vn. unfold Rdiv. rewrite Rabs_mult, (Rabs_pos_eq (/ IZR (Z.of_nat n))) by (apply Rlt_le, Rinv_0_lt_compat; lra).
      apply Rmult_le_reg_r with (IZR (Z.of_nat n)); [lra|]. rewrite Rmult_assoc, Rinv_l, Rmult_1_r by lra. eapply Rle_trans; [exact Bx|]. unfold multiple. rewrite Rmult_comm.
      apply Rmult_le_compat_l; [unfold corner_bound; lra|apply IZR_le; exact NL]. }
    assert (R2 : Rabs (rnd32 (val x / val (f32_of_N (N.of_nat n)))) <= corner_bound).
    { apply abs_round_le_generic; [apply fexp32_valid|apply valid_rnd_N| |exact R1]. replace corner_bound with (multiple 1) by (unfold multiple; ring). apply multiple_format. lia. }
    destruct (div_correct x _ Fx Fn) as [Fq Vq]; [rewrite Vn; lra| |split; [exact Fq|rewrite Vq; exact R2]].
    eapply Rle_lt_trans; [exact R2|]. pose proof big_bound. unfold corner_bound. change (IZR (2 ^ 110)) with 1298074214633706907132624082305024 in *. lra. }
  destruct F as (F1 & F2 & F3). destruct B as (B1 & B2 & B3). cbn [point_of vx vy vz] in *.
  destruct (H _ F1 B1) as [G1 H1]. destruct (H _ F2 B2) as [G2 H2]. destruct (H _ F3 B3) as [G3 H3].
  unfold v3_divs, fins, below. cbn [vx vy vz point_of n_div f32_num n_of_N]. repeat split; try assumption; try apply G1; try apply G2; apply G3.
Qed.

(** Moving a corner to the face's centre and back. *)
Lemma there_and_back : forall r c, fins r -> fins c -> below corner_bound (point_of r) -> below corner_bound (point_of c) ->
  let v := v3_add O (v3_sub O r c) c in
  fins v /\ norm (minus (point_of v) (point_of r)) <= 21 / 10 * u * norm (point_of v) + 11 / 10 * u * norm (point_of c) + 8 * eta.
Proof.
  intros r c (R1 & R2 & R3) (C1 & C2 & C3) (X1 & X2 & X3) (Y1 & Y2 & Y3). cbn zeta. pose proof eta_small as HE.
  assert (H : forall x y, fin x -> fin y -> Rabs (val x) <= corner_bound -> Rabs (val y) <= corner_bound ->
    fin (f32_add (f32_sub x y) y) /\ Rabs (val (f32_add (f32_sub x y) y) - val x) <= 21 / 10 * u * Rabs (val (f32_add (f32_sub x y) y)) + 11 / 10 * u * Rabs (val y) + 4 * eta).
  { intros x y Fx Fy Bx By. unfold corner_bound in *. destruct (sub_err x y Fx Fy) as [F1 E1]; [unfold B60; lra|unfold B60; lra|].
    assert (T1 : Rabs (val x - val y) <= Rabs (val x) + Rabs (val y)) by (unfold Rminus; eapply Rle_trans; [apply Rabs_triang|rewrite Rabs_Ropp; lra]).
    pose proof (near_bound _ _ _ E1) as N1.
    destruct (add_err _ _ F1 Fy) as [F2 E2]; [unfold B60; lra|unfold B60; lra|]. split; [exact F2|].
    set (s := val (f32_sub x y)) in *. set (v := val (f32_add (f32_sub x y) y)) in *.
    assert (E3 : Rabs (s + val y - val x) <= u * (Rabs (val x) + Rabs (val y)) + eta) by (replace (s + val y - val x) with (s - (val x - val y)) by ring; lra).
    pose proof (near_bound _ _ _ E3) as N3.
    assert (E4 : Rabs (v - val x) <= u * Rabs (s + val y) + eta + (u * (Rabs (val x) + Rabs (val y)) + eta)).
    { replace (v - val x) with ((v - (s + val y)) + (s + val y - val x)) by ring. eapply Rle_trans; [apply Rabs_triang|]. lra. }
    assert (N4 : Rabs (val x) <= Rabs v + Rabs (v - val x)).
    { replace (val x) with (v + - (v - val x)) at 1 by ring. eapply Rle_trans; [apply Rabs_triang|]. rewrite Rabs_Ropp. lra. }
    pose proof (Rabs_pos v). pose proof (Rabs_pos (val y)). lra. }
  cbn [point_of vx vy vz] in *.
  destruct (H _ _ R1 C1 X1 Y1) as [F1 E1]. destruct (H _ _ R2 C2 X2 Y2) as [F2 E2]. destruct (H _ _ R3 C3 X3 Y3) as [F3 E3].
  split; [split; [|split]; assumption|].
  pose proof (norm_combine (minus (point_of (v3_add O (v3_sub O r c) c)) (point_of r)) (point_of (v3_add O (v3_sub O r c) c)) (point_of c) (21 / 10 * u) (11 / 10 * u) (4 * eta)
    ltac:(lra) ltac:(lra) ltac:(lra) E1 E2 E3). lra.
Qed.

Lemma pos_eq_point : forall x y, fins x -> fins y -> (pos_eq O x y <-> point_of x = point_of y).
Proof.
  intros x y (A & B & C) (D & E & F). unfold pos_eq, point_of, num_eq. cbn [n_cmp f32_num].
  rewrite !cmp_real by (apply finite_fin; assumption).
  assert (H : forall a b, Some (Rcompare a b) = Some Eq <-> a = b).
  { intros a b. split; intros H; [apply Rcompare_Eq_inv; congruence|rewrite Rcompare_Eq by exact H; reflexivity]. }
  rewrite !H. split.
  - intros (-> & -> & ->). reflexivity.
  - intros G. injection G as -> -> ->. repeat split.
Qed.

Lemma meeting_fins : forall planes plane x, (forall q, In q (plane :: planes) -> grid_plane q) -> meeting_point O planes plane x ->
  fins x /\ below corner_bound (point_of x).
Proof.
  intros planes plane x G (p1 & p2 & I1 & I2 & E & _).
  destruct (meet_size plane p1 p2 x) as (_ & F & N); [apply G; now left|apply G; now right|apply G; now right|exact E|].
  split; [exact F|]. destruct (coord_norm (point_of x)) as (? & ? & ?). unfold below. lra.
Qed.

(** The number of corners. *)
Lemma raw_length : forall planes plane raw, (forall q, In q (plane :: planes) -> grid_plane q) -> corner_set O planes plane raw ->
  (length raw <= length planes * length planes)%nat.
Proof.
  intros planes plane raw G (A & _ & N).
  set (pts := map (fun pq => intersect_planes O plane (fst pq) (snd pq)) (list_prod planes planes)).
  assert (D : NoDup (map (fun v => Some (vt_pos v)) raw)).
  { apply NoDup_nth_error. intros i j Hi E. rewrite map_length in Hi.
    destruct (nth_error raw i) as [a|] eqn:Ei; [|apply nth_error_None in Ei; lia]. rewrite (map_nth_error _ _ _ Ei) in E.
    destruct (nth_error raw j) as [b|] eqn:Ej.
    2:{ apply nth_error_None in Ej. rewrite (proj2 (nth_error_None _ _)) in E; [discriminate|rewrite map_length; exact Ej]. }
    rewrite (map_nth_error _ _ _ Ej) in E. injection E as E.
    destruct (meeting_fins planes plane (vt_pos a) G (A a (nth_error_In _ _ Ei))) as [Fa _].
    destruct (meeting_fins planes plane (vt_pos b) G (A b (nth_error_In _ _ Ej))) as [Fb _].
    destruct (Nat.lt_trichotomy i j) as [L|[L|L]]; [exfalso|exact L|exfalso].
    - apply (N _ _ _ _ L Ei Ej). apply pos_eq_point; [exact Fa|exact Fb|now rewrite E].
    - apply (N _ _ _ _ L Ej Ei). apply pos_eq_point; [exact Fb|exact Fa|now rewrite E]. }
  assert (I : incl (map (fun v => Some (vt_pos v)) raw) pts).
  { intros o Ho. apply in_map_iff in Ho. destruct Ho as (v & <- & Hv). destruct (A v Hv) as (p1 & p2 & I1 & I2 & E & _).
    apply in_map_iff. exists (p1, p2). split; [exact E|]. apply in_prod; assumption. }
  apply (NoDup_incl_length D) in I. unfold pts in I. rewrite !map_length, prod_length in I. exact I.
Qed.

Definition back (f : face f32) (r : vec3 f32) : vec3 f32 := v3_add O (v3_sub O r (f_center f)) (f_center f).

Lemma Forall2_left : forall {A B} (R : A -> B -> Prop) l m a, Forall2 R l m -> In a l -> exists b, In b m /\ R a b.
Proof.
  intros A B R l m a H. induction H as [|x y l m Hxy H IH]; intros I; [destruct I|]. destruct I as [->|I].
  - exists y. split; [now left|exact Hxy].
  - destruct (IH I) as (b & Hb & Rb). exists b. split; [now right|exact Rb].
Qed.
Lemma Forall2_right : forall {A B} (R : A -> B -> Prop) l m b, Forall2 R l m -> In b m -> exists a, In a l /\ R a b.
Proof.
  intros A B R l m b H. induction H as [|x y l m Hxy H IH]; intros I; [destruct I|]. destruct I as [->|I].
  - exists x. split; [now left|exact Hxy].
  - destruct (IH I) as (a & Ha & Ra). exists a. split; [now right|exact Ra].
Qed.

Lemma face_points : forall tx e planes plane f, build_face O tx e planes plane = Ok f -> (forall q, In q (plane :: planes) -> grid_plane q) ->
  (Z.of_nat (length planes) <= 4000)%Z ->
  fins (f_center f) /\ below corner_bound (point_of (f_center f))
  /\ (forall v, In v (f_vertices f) -> exists r, meeting_point O planes plane r /\ vt_pos v = back f r)
  /\ (forall x, meeting_point O planes plane x -> exists v r, In v (f_vertices f) /\ fins r /\ point_of r = point_of x /\ vt_pos v = back f r).
Proof.
  intros tx e planes plane f E G L. destruct (corners_c15 p tx e planes plane f E) as (raw & centred & sorted & CS & M & F1 & P & F2).
  pose proof (raw_length planes plane raw G CS) as RL. destruct CS as (A & B & N).
  assert (AL : forall x, In x (map vt_pos raw) -> fins x /\ below corner_bound (point_of x)).
  { intros x Hx. apply in_map_iff in Hx. destruct Hx as (v & <- & Hv). apply (meeting_fins planes plane); auto. }
  destruct (mean_bound _ _ M) as [Fc Bc]; [rewrite map_length; nia|exact AL|].
  split; [exact Fc|]. split; [exact Bc|]. split.
  - intros v Hv. destruct (Forall2_right _ _ _ _ F2 Hv) as (s & Hs & D). apply (Permutation.Permutation_in _ (Permutation.Permutation_sym P)) in Hs.
    destruct (Forall2_right _ _ _ _ F1 Hs) as (r & Hr & D'). exists (vt_pos r). split; [apply A; exact Hr|].
    destruct D as (-> & _). destruct D' as (-> & _). reflexivity.
  - intros x Hx. destruct (B x Hx) as (r & Hr & EQ). destruct (Forall2_left _ _ _ _ F1 Hr) as (s & Hs & D).
    apply (Permutation.Permutation_in _ P) in Hs. destruct (Forall2_left _ _ _ _ F2 Hs) as (v & Hv & D').
    exists v, (vt_pos r). split; [exact Hv|].
    destruct (meeting_fins planes plane _ G (A r Hr)) as [Fr _]. destruct (meeting_fins planes plane _ G Hx) as [Fx _].
    split; [exact Fr|]. split.
    + destruct EQ as [->|EQ]; [reflexivity|]. apply pos_eq_point in EQ; auto.
    + destruct D as (D & _). destruct D' as (-> & _). rewrite D. reflexivity.
Qed.

(** ** In terms of the specification *)
Lemma level_on : forall pl x, grid_plane pl -> (on_plane (plane_of pl) x <-> level_with pl x).
Proof.
  intros pl x G. assert (N : norm (facing (plane_of pl)) <> 0) by apply G. unfold on_plane, level_with.
  rewrite inner_minus_r. cbn [plane_of bp_v0]. unfold unit_along.
  set (F := facing (plane_of pl)) in *. change (facing _) with F.
  assert (H : forall v, inner (vscale (/ norm F) F) v = / norm F * inner F v) by (intros v; unfold inner, vscale; cbn [vx vy vz]; ring). rewrite !H.
  assert (I : / norm F <> 0) by (apply Rinv_neq_0_compat; exact N). split; intros E.
  - apply f_equal. lra.
  - apply Rmult_eq_reg_l in E; [lra|exact I].
Qed.

Lemma within_on : forall pl d x, grid_plane pl -> (within d (plane_of pl) x <-> inner (normal_of pl) (minus x (point_of (bp_v0 pl))) <= d).
Proof.
  intros pl d x G. assert (N : norm (facing (plane_of pl)) <> 0) by apply G. unfold within. cbn [plane_of bp_v0]. unfold unit_along.
  set (F := facing (plane_of pl)) in *. change (facing _) with F. set (y := minus x (point_of (bp_v0 pl))). clearbody y F.
  assert (H : forall v, inner (vscale (/ norm F) F) v = / norm F * inner F v) by (intros v; unfold inner, vscale; cbn [vx vy vz]; ring). rewrite H.
  assert (P : 0 < norm F) by (pose proof (norm_pos F); lra). assert (I : 0 < / norm F) by (apply Rinv_0_lt_compat; exact P). split; intros E.
  - apply Rmult_le_reg_l with (norm F); [exact P|]. rewrite <- Rmult_assoc, Rinv_r, Rmult_1_l by exact N. lra.
  - apply Rmult_le_reg_l with (/ norm F); [exact I|]. rewrite (Rmult_comm d), <- Rmult_assoc, Rinv_l, Rmult_1_l by exact N. exact E.
Qed.

Lemma openness_det : forall p0 p1 p2, grid_plane p0 -> grid_plane p1 -> grid_plane p2 -> openness (plane_of p0) (plane_of p1) (plane_of p2) = det_of p0 p1 p2.
Proof.
  intros p0 p1 p2 G0 G1 G2. unfold openness, det_of. assert (N0 : norm (facing (plane_of p0)) <> 0) by apply G0. assert (N1 : norm (facing (plane_of p1)) <> 0) by apply G1. assert (N2 : norm (facing (plane_of p2)) <> 0) by apply G2.
  unfold unit_along, inner, outer, vscale. cbn [vx vy vz]. field. repeat split; assumption.
Qed.
Lemma distances_reach : forall p0 p1 p2 x, distances (plane_of p0) (plane_of p1) (plane_of p2) x = reach p0 p1 p2 + norm x.
Proof. reflexivity. Qed.

Theorem corners_inside : forall tx e planes plane f, build_face O tx e planes plane = Ok f -> (forall q, In q (plane :: planes) -> grid_plane q) ->
  (Z.of_nat (length planes) <= 4000)%Z ->
  finite_point (f_center f) /\ forall v, In v (f_vertices f) -> finite_point (vt_pos v) /\ forall q, In q planes ->
    within (10001 / 10000000 + / 2 ^ 20 * (norm (point_of (vt_pos v)) + norm (point_of (f_center f)) + norm (point_of (bp_v0 q)))) (plane_of q) (point_of (vt_pos v)).
Proof.
  intros tx e planes plane f E G L. destruct (face_points tx e planes plane f E G L) as (Fc & Bc & A & _).
  split; [apply finite_fins; exact Fc|]. intros v Hv. destruct (A v Hv) as (r & Mr & ->). destruct (meeting_fins planes plane r G Mr) as [Fr Br].
  destruct (there_and_back r (f_center f) Fr Fc Br Bc) as [Fv Ev]. fold (back f r) in Fv, Ev. split; [apply finite_fins; exact Fv|].
  intros q Hq. apply within_on; [apply G; now right|]. destruct Mr as (p1 & p2 & I1 & I2 & Er & In_).
  destruct (hull_test q r) as [H _]; [apply G; now right|exact Fr|eapply below_weaken; [|exact Br]; unfold corner_bound, B50; lra|]. cbn zeta in H. specialize (H (In_ q Hq)).
  set (n := normal_of q) in *. set (V := point_of (back f r)) in *. set (R := point_of r) in *. set (C := point_of (f_center f)) in *. set (q0 := point_of (bp_v0 q)) in *.
  assert (N : norm n = 1) by (apply grid_unit; apply G; now right).
  replace (inner n (minus V q0)) with (inner n (minus R q0) + inner n (minus V R)) by (rewrite !inner_minus_r; ring).
  pose proof (abs_inner n (minus V R)) as I. rewrite N, Rmult_1_l in I. apply Rabs_le_inv in I.
  assert (NR : norm R <= norm V + norm (minus V R)).
  { replace R with (vplus V (vscale (-1) (minus V R))) at 1.
    - eapply Rle_trans; [apply norm_triangle|]. rewrite norm_scale, (Rabs_left (-1)) by lra. lra.
    - unfold vplus, vscale, minus, R, V, point_of. cbn [vx vy vz]. f_equal; ring. }
  pose proof eta_small. pose proof (norm_pos V). pose proof (norm_pos C). pose proof (norm_pos q0). change (/ 2 ^ 20) with (/ (2 ^ 20)). replace (2 ^ 20) with 1048576 by ring. lra.
Qed.

Lemma minus_triangle : forall a b c, norm (minus a c) <= norm (minus a b) + norm (minus b c).
Proof.
  intros a b c. replace (minus a c) with (vplus (minus a b) (minus b c)); [apply norm_triangle|]. unfold vplus, minus. cbn [vx vy vz]. f_equal; ring.
Qed.
Lemma minus_norm : forall a b, norm a <= norm b + norm (minus a b).
Proof.
  intros a b. replace a with (vplus b (minus a b)) at 1; [apply norm_triangle|]. unfold vplus, minus. destruct a as [a1 a2 a3]. cbn [vx vy vz]. f_equal; ring.
Qed.

Lemma quotient_bounds : forall p0 p1 p2 r x, grid_plane p0 -> grid_plane p1 -> grid_plane p2 -> 99 / 100000 <= det_of p0 p1 p2 ->
  norm (minus (point_of r) x) * det_of p0 p1 p2 <= 23 * u * (reach p0 p1 p2 + norm x) + 100 * eta ->
  norm x <= (reach p0 p1 p2 + norm x) / det_of p0 p1 p2
  /\ norm (minus (point_of r) x) <= 23 * u * ((reach p0 p1 p2 + norm x) / det_of p0 p1 p2) + 200000 * eta.
Proof.
  intros p0 p1 p2 r x G0 G1 G2 D H. pose proof (det_bound _ _ _ G0 G1 G2) as D1.
  assert (RP : 0 <= reach p0 p1 p2).
  { unfold reach. pose proof (norm_pos (point_of (bp_v0 p0))). pose proof (norm_pos (point_of (bp_v0 p1))). pose proof (norm_pos (point_of (bp_v0 p2))). lra. }
  pose proof (norm_pos x) as PX. pose proof eta_small. set (d := det_of p0 p1 p2) in *. set (q := reach p0 p1 p2 + norm x) in *.
  assert (Q : q / d * d = q) by (field; lra). assert (Q0 : 0 <= q / d) by (apply Rmult_le_pos; [unfold q; lra|apply Rlt_le, Rinv_0_lt_compat; lra]). split.
  - assert (q / d * d <= q / d * 1) by (apply Rmult_le_compat_l; lra). unfold q in *. lra.
  - apply Rmult_le_reg_r with d; [lra|]. assert (200000 * eta * (99 / 100000) <= 200000 * eta * d) by (apply Rmult_le_compat_l; lra).
    replace ((23 * u * (q / d) + 200000 * eta) * d) with (23 * u * (q / d * d) + 200000 * eta * d) by ring. rewrite Q. lra.
Qed.

Theorem corners_accurate : forall tx e planes plane f v, build_face O tx e planes plane = Ok f -> (forall q, In q (plane :: planes) -> grid_plane q) ->
  (Z.of_nat (length planes) <= 4000)%Z -> In v (f_vertices f) ->
  exists p1 p2 x, In p1 planes /\ In p2 planes /\ on_plane (plane_of plane) x /\ on_plane (plane_of p1) x /\ on_plane (plane_of p2) x
    /\ 99 / 100000 <= openness (plane_of plane) (plane_of p1) (plane_of p2)
    /\ norm (minus (point_of (vt_pos v)) x) <= / 2 ^ 19 * (distances (plane_of plane) (plane_of p1) (plane_of p2) x / openness (plane_of plane) (plane_of p1) (plane_of p2))
         + / 2 ^ 23 * norm (point_of (f_center f)) + / 10 ^ 30.
Proof.
  intros tx e planes plane f v E G L Hv. destruct (face_points tx e planes plane f E G L) as (Fc & Bc & A & _).
  destruct (A v Hv) as (r & Mr & ->). destruct (meeting_fins planes plane r G Mr) as [Fr Br].
  destruct (there_and_back r (f_center f) Fr Fc Br Bc) as [Fv Ev]. fold (back f r) in Fv, Ev. destruct Mr as (p1 & p2 & I1 & I2 & Er & _).
  assert (G0 : grid_plane plane) by (apply G; now left). assert (G1 : grid_plane p1) by (apply G; now right). assert (G2 : grid_plane p2) by (apply G; now right).
  destruct (meet_size _ _ _ _ G0 G1 G2 Er) as (D & _ & _). destruct (meeting_exists plane p1 p2) as (x & L0 & L1 & L2); [lra|].
  destruct (meet_err _ _ _ _ _ G0 G1 G2 Er L0 L1 L2) as [_ H].
  exists p1, p2, x. split; [exact I1|]. split; [exact I2|]. split; [apply level_on; assumption|]. split; [apply level_on; assumption|]. split; [apply level_on; assumption|].
  rewrite openness_det by assumption. split; [exact D|]. rewrite distances_reach.
  assert (Q : norm x <= (reach plane p1 p2 + norm x) / det_of plane p1 p2 /\ norm (minus (point_of r) x) <= 23 * u * ((reach plane p1 p2 + norm x) / det_of plane p1 p2) + 200000 * eta).
  { apply quotient_bounds; assumption. }
  destruct Q as [Q1 Q2]. set (g := (reach plane p1 p2 + norm x) / det_of plane p1 p2) in *. clearbody g. clear H.
  set (V := point_of (back f r)) in *. set (R := point_of r) in *. set (C := point_of (f_center f)) in *.
  assert (T1 : norm (minus V x) <= norm (minus V R) + norm (minus R x)) by apply minus_triangle.
  assert (T2 : norm V <= norm x + norm (minus V x)) by apply minus_norm.
  pose proof eta_small. pose proof (norm_pos C). pose proof (norm_pos x).
  replace (2 ^ 19) with 524288 by ring. replace (2 ^ 23) with 8388608 by ring. replace (10 ^ 30) with 1000000000000000000000000000000 by ring. lra.
Qed.

Theorem corners_found : forall tx e planes plane f p1 p2 x, build_face O tx e planes plane = Ok f -> (forall q, In q (plane :: planes) -> grid_plane q) ->
  (Z.of_nat (length planes) <= 4000)%Z -> In p1 planes -> In p2 planes ->
  on_plane (plane_of plane) x -> on_plane (plane_of p1) x -> on_plane (plane_of p2) x ->
  101 / 100000 <= openness (plane_of plane) (plane_of p1) (plane_of p2) -> (forall q, In q planes -> within 0 (plane_of q) x) ->
  let g := distances (plane_of plane) (plane_of p1) (plane_of p2) x / openness (plane_of plane) (plane_of p1) (plane_of p2) in
  (forall q, In q planes -> / 2 ^ 19 * g + / 2 ^ 20 * norm (bp_v0 (plane_of q)) <= 999 / 1000000) ->
  exists v, In v (f_vertices f) /\ norm (minus (point_of (vt_pos v)) x) <= / 2 ^ 19 * g + / 2 ^ 23 * norm (point_of (f_center f)) + / 10 ^ 30.
Proof.
  intros tx e planes plane f p1 p2 x E G L I1 I2 L0 L1 L2 D IN. cbn zeta. intros S.
  assert (G0 : grid_plane plane) by (apply G; now left). assert (G1 : grid_plane p1) by (apply G; now right). assert (G2 : grid_plane p2) by (apply G; now right).
  rewrite openness_det in * by assumption. rewrite distances_reach in *. apply level_on in L0, L1, L2; try assumption.
  destruct (intersect_planes O plane p1 p2) as [r|] eqn:Er.
  2:{ exfalso. unfold intersect_planes in Er. destruct (denominator plane p1 p2 G0 G1 G2) as (_ & Ed & Cd). destruct eps_near as [_ Ve].
      destruct (n_ltb O _ _); [|discriminate]. assert (X : true = false) by (apply Cd; apply Rabs_le_inv in Ed; lra). discriminate. }
  destruct (meet_err _ _ _ _ _ G0 G1 G2 Er L0 L1 L2) as [Fr H]. destruct (meet_size _ _ _ _ G0 G1 G2 Er) as (_ & _ & Nr).
  destruct (quotient_bounds plane p1 p2 r x) as [Q1 Q2]; [assumption|assumption|assumption|lra|exact H|].
  set (g := (reach plane p1 p2 + norm x) / det_of plane p1 p2) in *. clearbody g. clear H.
  pose proof eta_small as HE. pose proof (norm_pos x) as PX.
  replace (2 ^ 19) with 524288 in * by ring. replace (2 ^ 20) with 1048576 in * by ring. replace (2 ^ 23) with 8388608 by ring. replace (10 ^ 30) with 1000000000000000000000000000000 by ring.
  assert (Mr : meeting_point O planes plane r).
  { exists p1, p2. split; [exact I1|]. split; [exact I2|]. split; [exact Er|]. intros q Hq.
    assert (Gq : grid_plane q) by (apply G; now right).
    destruct (hull_test q r Gq Fr) as [_ T]; [destruct (coord_norm (point_of r)) as (? & ? & ?); unfold corner_bound, B50, below in *; lra|]. cbn zeta in T. apply T.
    specialize (S q Hq). cbn [plane_of bp_v0] in S. specialize (IN q Hq). apply within_on in IN; [|exact Gq].
    set (n := normal_of q) in *. set (q0 := point_of (bp_v0 q)) in *. set (R := point_of r) in *.
    replace (inner n (minus R q0)) with (inner n (minus x q0) + inner n (minus R x)) by (rewrite !inner_minus_r; ring).
    pose proof (abs_inner n (minus R x)) as I. rewrite (grid_unit q Gq : norm n = 1), Rmult_1_l in I. apply Rabs_le_inv in I.
    pose proof (minus_norm R x). pose proof (norm_pos q0). lra. }
  destruct (face_points tx e planes plane f E G L) as (Fc & Bc & _ & A). destruct (A r Mr) as (v & r' & Hv & Fr' & Pr & Ev).
  exists v. split; [exact Hv|]. rewrite Ev. unfold back. destruct (meeting_fins planes plane r G Mr) as [_ Br].
  destruct (there_and_back r' (f_center f) Fr' Fc) as [_ Eb]; [rewrite Pr; exact Br|exact Bc|]. rewrite Pr in Eb.
  set (V := point_of (v3_add O (v3_sub O r' (f_center f)) (f_center f))) in *. set (R := point_of r) in *. set (C := point_of (f_center f)) in *.
  assert (T1 : norm (minus V x) <= norm (minus V R) + norm (minus R x)) by apply minus_triangle.
  assert (T2 : norm V <= norm x + norm (minus V x)) by apply minus_norm.
  pose proof (norm_pos C). lra.
Qed.
End WithPlatform.
