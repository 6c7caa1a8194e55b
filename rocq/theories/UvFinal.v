(** Texture coordinates of planes in the standard format (C101). *)
From Coq Require Import Reals Lra Lia ZArith.
From Flocq Require Import Core BinarySingleNaN.
From Verif Require Import Prelude F32 Text MapModel GeoModel GeoSpec GatherSpec GatherProofs GeoFinal AttributeProofs NumberSpec BaseProofs FloatProofs NumberProofs ColorProofs ExactProofs RealSpec BoxSpec BoxProofs ArithProofs ErrorSpec ErrorProofs ErrorFinal UvSpec UvProofs.
Local Open Scope R_scope.

(** Numbers of the same size stay so. *)
Lemma rnd_abs : forall a b, Rabs a = Rabs b -> Rabs (rnd32 a) = Rabs (rnd32 b).
Proof.
  intros a b H. assert (C : a = b \/ a = - b) by (unfold Rabs in H; destruct (Rcase_abs a), (Rcase_abs b); lra).
  destruct C as [->| ->]; [reflexivity|]. change (rnd32 (- b)) with (round radix2 fexp32 ZnearestE (- b)). rewrite round_NE_opp, Rabs_Ropp. reflexivity.
Qed.

Lemma quotient_sym : forall x y i j l N, int x i -> int y j -> (Z.abs i < 2 ^ 24)%Z -> (Z.abs j < 2 ^ 24)%Z -> fin l -> 1 <= N <= 33554432 ->
  Rabs (val l - N) <= 27 / 10 * u * N -> Z.abs i = Z.abs j -> Rabs (val (f32_div x l)) = Rabs (val (f32_div y l)).
Proof.
  intros x y i j l N [Fx Vx] [Fy Vy] I J Fl HN E H. apply Rabs_le_inv in E. assert (L : 9 / 10 <= val l) by lra.
  assert (G : forall z k, fin z -> val z = IZR k -> (Z.abs k < 2 ^ 24)%Z -> val (f32_div z l) = rnd32 (IZR k / val l)).
  { intros z k Fz Vz K. rewrite <- Vz. apply div_correct; [exact Fz|exact Fl|lra|]. rewrite Vz. apply rnd_big. unfold Rdiv.
    apply Rle_trans with (16777216 * 2).
    - apply prod_bound; [rewrite <- abs_IZR; apply IZR_le; lia|]. rewrite Rabs_inv, Rabs_pos_eq by lra.
      rewrite <- (Rinv_inv 2). apply Rinv_le_contravar; lra.
    - rewrite <- mult_IZR. apply IZR_le. vm_compute. discriminate. }
  rewrite (G x i), (G y j) by assumption. apply rnd_abs. unfold Rdiv. rewrite !Rabs_mult, <- !abs_IZR, H. reflexivity.
Qed.

Lemma product_sym : forall x y i j r, int x i -> int y j -> (Z.abs i < 2 ^ 24)%Z -> (Z.abs j < 2 ^ 24)%Z -> fin r -> Rabs (val r) <= 2 ->
  Z.abs i = Z.abs j -> Rabs (val (f32_mul x r)) = Rabs (val (f32_mul y r)).
Proof.
  intros x y i j r [Fx Vx] [Fy Vy] I J Fr HR H.
  assert (G : forall z k, fin z -> val z = IZR k -> (Z.abs k < 2 ^ 24)%Z -> val (f32_mul z r) = rnd32 (IZR k * val r)).
  { intros z k Fz Vz K. rewrite <- Vz. apply mul_correct; [exact Fz|exact Fr|]. rewrite Vz. apply rnd_big.
    apply Rle_trans with (16777216 * 2).
    - apply prod_bound; [rewrite <- abs_IZR; apply IZR_le; lia|exact HR].
    - rewrite <- mult_IZR. apply IZR_le. vm_compute. discriminate. }
  rewrite (G x i), (G y j) by assumption. apply rnd_abs. rewrite !Rabs_mult, <- !abs_IZR, H. reflexivity.
Qed.

Section WithPlatform.
Variable p : platform.
Notation O := (f32_num p).
Notation normal_of pl := (unit_along (facing (plane_of pl))).

Lemma normalize_sym : forall v k, at_ints v k -> coords (fun c => Z.abs c < 2 ^ 24)%Z k -> norm (reals k) <> 0 ->
  let n := n_normalize O v in
  (Z.abs (vx k) = Z.abs (vy k) -> Rabs (val (vx n)) = Rabs (val (vy n))) /\
  (Z.abs (vx k) = Z.abs (vz k) -> Rabs (val (vx n)) = Rabs (val (vz n))) /\
  (Z.abs (vy k) = Z.abs (vz k) -> Rabs (val (vy n)) = Rabs (val (vz n))).
Proof.
  intros v k I K N. destruct (length_err v k I K N) as (LN & Fl & El). destruct I as (A & B & C). destruct K as (D & E & F).
  unfold n_normalize, f32_num, normalize_with. cbn zeta. set (l := f32_sqrt _) in *. clearbody l.
  destruct (p_simd p); cbn [vx vy vz].
  - split; [|split]; intros H; eapply quotient_sym; eassumption.
  - assert (I1 : int f32_one 1) by (split; [apply fin_one|apply val_one]).
    destruct (quotient_err _ 1 _ _ I1 ltac:(lia) Fl LN El) as [Fr Vr].
    assert (IP : 0 < / norm (reals k) <= 1) by (split; [apply Rinv_0_lt_compat; lra|rewrite <- Rinv_1; apply Rinv_le_contravar; lra]).
    replace (1 / norm (reals k)) with (/ norm (reals k)) in Vr by (unfold Rdiv; ring). rewrite (Rabs_pos_eq (/ norm (reals k))) in Vr by lra.
    pose proof (near_bound _ _ _ Vr) as Br. rewrite (Rabs_pos_eq (/ norm (reals k))) in Br by lra.
    assert (B2 : Rabs (val (f32_div f32_one l)) <= 2) by lra.
    split; [|split]; intros H; eapply product_sym; eassumption.
Qed.

Lemma plane_ints : forall pl, grid_plane pl -> exists k, facing (plane_of pl) = reals k /\
  let n := plane_normal O pl in
  (Z.abs (vx k) = Z.abs (vy k) -> Rabs (val (vx n)) = Rabs (val (vy n))) /\
  (Z.abs (vx k) = Z.abs (vz k) -> Rabs (val (vx n)) = Rabs (val (vz n))) /\
  (Z.abs (vy k) = Z.abs (vz k) -> Rabs (val (vy n)) = Rabs (val (vz n))).
Proof.
  intros pl (P0 & P1 & P2 & N & m & n & M1 & M2 & MN).
  destruct (grid_ints _ P0) as (a & A & Ea & Ba). destruct (grid_ints _ P1) as (b & B & Eb & Bb). destruct (grid_ints _ P2) as (c & C & Ec & Bc).
  rewrite Ea, Ec in M1. rewrite Ea, Eb in M2. apply extent_ints in M1, M2.
  assert (F : facing (plane_of pl) = reals (zouter (zminus c a) (zminus b a))).
  { unfold facing, plane_of. cbn [bp_v0 bp_v1 bp_v2]. rewrite Ea, Eb, Ec. unfold outer, minus, reals, zouter, zminus. cbn [vx vy vz].
    rewrite !minus_IZR, !mult_IZR, !minus_IZR. reflexivity. }
  unfold proper in N. rewrite F in N. exists (zouter (zminus c a) (zminus b a)). split; [exact F|].
  unfold plane_normal. apply normalize_sym; [| |exact N].
  - apply (at_cross p _ _ _ _ m n); [| |exact M1|exact M2|exact MN]; apply at_sub; auto.
    + destruct Ba as (? & ? & ?), Bc as (? & ? & ?). unfold coords, zminus. cbn [vx vy vz]. lia.
    + destruct Ba as (? & ? & ?), Bb as (? & ? & ?). unfold coords, zminus. cbn [vx vy vz]. lia.
  - assert (W : forall x y z w, (Z.abs x <= m -> Z.abs y <= n -> Z.abs z <= m -> Z.abs w <= n -> Z.abs (x * y - z * w) < 2 ^ 24)%Z).
    { intros x y z w H1 H2 H3 H4. pose proof (mul_bound x y m n H1 H2). pose proof (mul_bound z w m n H3 H4). lia. }
    destruct M1 as (? & ? & ?), M2 as (? & ? & ?). unfold coords, zouter. cbn [vx vy vz] in *. split; [|split]; apply W; assumption.
Qed.

(** Products with an axis are exact. *)
Lemma axis_dots : forall n, fins n -> below 4 (point_of n) ->
  (fin (v3_dot O n (up_vector O)) /\ val (v3_dot O n (up_vector O)) = val (vz n)) /\
  (fin (v3_dot O n (right_vector O)) /\ val (v3_dot O n (right_vector O)) = val (vy n)) /\
  (fin (v3_dot O n (forward_vector O)) /\ val (v3_dot O n (forward_vector O)) = val (vx n)).
Proof.
  intros n (F1 & F2 & F3) (B1 & B2 & B3). cbn [point_of vx vy vz] in *.
  assert (Z0 : fin f32_zero /\ val f32_zero = 0) by (split; [split; reflexivity|reflexivity]). destruct Z0 as [Fz Vz].
  pose proof fin_one as Fo. pose proof val_one as Vo.
  assert (R0 : rnd32 0 = 0) by (apply round_0; apply valid_rnd_N).
  assert (big : forall r, Rabs r <= 4 -> Rabs r < bpow radix2 128).
  { intros r H. eapply Rle_lt_trans; [exact H|]. change (bpow radix2 128) with (IZR (2 ^ 128)). apply IZR_lt. lia. }
  assert (RV : forall x, fin x -> rnd32 (val x) = val x).
  { intros x [V _]. apply round_generic; [apply valid_rnd_N|]. apply val_format. exact V. }
  assert (M0 : forall x, fin x -> fin (f32_mul x f32_zero) /\ val (f32_mul x f32_zero) = 0).
  { intros x Fx. destruct (mul_correct x f32_zero Fx Fz) as [F V]; rewrite Vz, Rmult_0_r, R0 in *; [apply big; rewrite Rabs_R0; lra|].
    split; assumption. }
  assert (M1 : forall x, fin x -> Rabs (val x) <= 4 -> fin (f32_mul x f32_one) /\ val (f32_mul x f32_one) = val x).
  { intros x Fx Bx. destruct (mul_correct x f32_one Fx Fo) as [F V]; rewrite Vo, Rmult_1_r, (RV x Fx) in *; [apply big; exact Bx|].
    split; assumption. }
  assert (A0 : forall x y, fin x -> fin y -> Rabs (val x + val y) <= 4 -> (val x = 0 \/ val y = 0) -> fin (f32_add x y) /\ val (f32_add x y) = val x + val y).
  { intros x y Fx Fy Bs H. assert (RS : rnd32 (val x + val y) = val x + val y).
    { destruct H as [H|H]; rewrite H; [rewrite Rplus_0_l|rewrite Rplus_0_r]; apply RV; assumption. }
    destruct (add_correct x y Fx Fy) as [F V]; rewrite RS in *; [apply big; exact Bs|]. split; assumption. }
  destruct (M0 _ F1) as [G1 W1]. destruct (M0 _ F2) as [G2 W2]. destruct (M0 _ F3) as [G3 W3].
  destruct (M1 _ F1 B1) as [H1 X1]. destruct (M1 _ F2 B2) as [H2 X2]. destruct (M1 _ F3 B3) as [H3 X3].
  unfold v3_dot, up_vector, right_vector, forward_vector. cbn [vx vy vz n_add n_mul n_zero n_one f32_num].
  split; [|split].
  - destruct (A0 _ _ G1 G2) as [K1 Y1]; [rewrite W1, W2, Rplus_0_r, Rabs_R0; lra|left; exact W1|].
    destruct (A0 _ _ K1 H3) as [K2 Y2]; [rewrite Y1, W1, W2, X3, !Rplus_0_l; exact B3|left; rewrite Y1, W1, W2; lra|].
    split; [exact K2|]. rewrite Y2, Y1, W1, W2, X3. lra.
  - destruct (A0 _ _ G1 H2) as [K1 Y1]; [rewrite W1, X2, Rplus_0_l; exact B2|left; exact W1|].
    destruct (A0 _ _ K1 G3) as [K2 Y2]; [rewrite Y1, W1, W3, X2, Rplus_0_l, Rplus_0_r; exact B2|right; exact W3|].
    split; [exact K2|]. rewrite Y2, Y1, W1, W3, X2. lra.
  - destruct (A0 _ _ H1 G2) as [K1 Y1]; [rewrite W2, X1, Rplus_0_r; exact B1|right; exact W2|].
    destruct (A0 _ _ K1 G3) as [K2 Y2]; [rewrite Y1, W2, W3, X1, !Rplus_0_r; exact B1|right; exact W3|].
    split; [exact K2|]. rewrite Y2, Y1, W2, W3, X1. lra.
Qed.

Lemma geb_abs : forall a b, fin a -> fin b -> (n_geb O (n_abs O a) (n_abs O b) = true <-> Rabs (val b) <= Rabs (val a)).
Proof.
  intros a b Fa Fb. apply fin_finite in Fa, Fb. destruct (abs_real a Fa) as (Ga & Va & _). destruct (abs_real b Fb) as (Gb & Vb & _).
  unfold n_geb. cbn [n_cmp n_abs f32_num]. rewrite cmp_real by assumption. rewrite Va, Vb.
  destruct (Rcompare_spec (Rabs (val a)) (Rabs (val b))); split; intros; try reflexivity; try discriminate; lra.
Qed.
Lemma geb_abs_false : forall a b, fin a -> fin b -> (n_geb O (n_abs O a) (n_abs O b) = false <-> Rabs (val a) < Rabs (val b)).
Proof.
  intros a b Fa Fb. pose proof (geb_abs a b Fa Fb) as H. destruct (n_geb O (n_abs O a) (n_abs O b)); split; intros; try discriminate; try reflexivity.
  - assert (Rabs (val b) <= Rabs (val a)) by (apply H; reflexivity). lra.
  - destruct (Rlt_or_le (Rabs (val a)) (Rabs (val b))) as [L|L]; [exact L|]. apply H in L. discriminate.
Qed.

(** Comparing computed components compares the true ones up to rounding. *)
Lemma component_order : forall a b i j, Rabs (a - i) <= 5 * u * Rabs i -> Rabs (b - j) <= 5 * u * Rabs j -> Rabs a <= Rabs b ->
  Rabs i <= (1 + 101 / 10 * u) * Rabs j.
Proof.
  intros a b i j A B H. pose proof (near_bound _ _ _ B) as NB.
  assert (NA : Rabs i <= Rabs a + 5 * u * Rabs i).
  { replace i with (a + - (a - i)) at 1 by ring. eapply Rle_trans; [apply Rabs_triang|]. rewrite Rabs_Ropp. lra. }
  pose proof (Rabs_pos j). lra.
Qed.

Lemma int_order : forall i j, Rabs (IZR i) <= (1 + 101 / 10 * u) * Rabs (IZR j) -> Rabs (IZR j) <= IZR (2 ^ 19) -> (Z.abs i <= Z.abs j)%Z.
Proof.
  intros i j H B. rewrite <- !abs_IZR in *. apply Z.lt_succ_r, lt_IZR. rewrite succ_IZR. change (IZR (2 ^ 19)) with 524288 in B. lra.
Qed.

(** The axis chosen for projection. *)
Lemma axis_chosen : forall pl x, grid_plane pl -> fins x ->
  exists a t, match bp_uv pl with
    | UVQuake u0 v0 => forall size, vertex_uv O x pl size =
        Ok (v2_add O (v2_div O (v2_div O (p_mat2_rotate p (p_to_radians p (bp_rotation pl)) t) (texture_size O size)) (bp_scale pl)) (v2_div O (V2 u0 v0) (texture_size O size)))
    | UVValve _ _ _ _ => True
    end
    /\ nearly (facing (plane_of pl)) a /\ (extent (2 ^ 19) (facing (plane_of pl)) -> mostly (facing (plane_of pl)) a)
    /\ fin (ux t) /\ fin (uy t) /\ V2 (val (ux t)) (val (uy t)) = projected a (point_of x).
Proof.
  intros pl x G (X1 & X2 & X3). pose proof (plane_close p pl G) as CL. destruct (close_unit _ _ CL (grid_unit _ G)) as (Fn & _ & _ & Bn).
  destruct (axis_dots _ Fn Bn) as ((Fz & Vz) & (Fy & Vy) & (Fx & Vx)).
  destruct CL as (_ & C1 & C2 & C3). destruct (plane_ints pl G) as (k & Ek & S1 & S2 & S3).
  assert (NP : 0 < norm (facing (plane_of pl))).
  { destruct G as (_ & _ & _ & N & _). pose proof (norm_pos (facing (plane_of pl))). unfold proper in N. lra. }
  assert (SC : forall i j, Rabs (/ norm (facing (plane_of pl)) * i) <= (1 + 101 / 10 * u) * Rabs (/ norm (facing (plane_of pl)) * j) ->
    Rabs i <= (1 + 101 / 10 * u) * Rabs j).
  { intros i j H. assert (0 < / norm (facing (plane_of pl))) by (apply Rinv_0_lt_compat; exact NP).
    rewrite !Rabs_mult, (Rabs_pos_eq (/ norm (facing (plane_of pl)))) in H by lra.
    apply Rmult_le_reg_l with (/ norm (facing (plane_of pl))); [assumption|]. lra. }
  unfold unit_along, vscale in C1, C2, C3. cbn [vx vy vz] in C1, C2, C3.
  pose proof (fun H => SC _ _ (component_order _ _ _ _ C1 C2 H)) as Oxy. pose proof (fun H => SC _ _ (component_order _ _ _ _ C1 C3 H)) as Oxz.
  pose proof (fun H => SC _ _ (component_order _ _ _ _ C2 C1 H)) as Oyx. pose proof (fun H => SC _ _ (component_order _ _ _ _ C2 C3 H)) as Oyz.
  pose proof (fun H => SC _ _ (component_order _ _ _ _ C3 C1 H)) as Ozx. pose proof (fun H => SC _ _ (component_order _ _ _ _ C3 C2 H)) as Ozy.
  clear C1 C2 C3 SC. rewrite Ek in *. clear Ek. unfold extent, nearly. cbn [reals vx vy vz] in *.
  set (n := plane_normal O pl) in *. cbn zeta in S1, S2, S3.
  pose proof (Rabs_pos (IZR (vx k))) as P1. pose proof (Rabs_pos (IZR (vy k))) as P2. pose proof (Rabs_pos (IZR (vz k))) as P3.
  destruct (neg_correct (vy x) X2) as [Gy Wy]. destruct (neg_correct (vz x) X3) as [Gz Wz].
  assert (TS : 1 + 101 / 10 * u <= 1 + / 2 ^ 20) by lra.
  assert (MT : forall r, 0 <= r -> (1 + 101 / 10 * u) * r <= (1 + / 2 ^ 20) * r) by (intros r H; apply Rmult_le_compat_r; lra).
  pose proof (MT _ P1) as M1. pose proof (MT _ P2) as M2. pose proof (MT _ P3) as M3. clear MT TS.
  unfold vertex_uv. fold n.
  destruct (n_geb O (n_abs O (v3_dot O n (up_vector O))) (n_abs O (v3_dot O n (right_vector O)))
         && n_geb O (n_abs O (v3_dot O n (up_vector O))) (n_abs O (v3_dot O n (forward_vector O))))%bool eqn:EZ.
  { apply andb_prop in EZ. destruct EZ as [E1 E2]. apply geb_abs in E1, E2; try assumption. rewrite Vz, Vy, Vx in *.
    exists AxisZ, (V2 (vx x) (f32_neg (vy x))). split; [destruct (bp_uv pl); [intros size; reflexivity|exact I]|].
    specialize (Oyz E1). specialize (Oxz E2). split; [split; lra|]. split.
    - intros (B1 & B2 & B3). apply int_order in Oyz, Oxz; try assumption. cbn [mostly reals vx vy vz]. rewrite <- !abs_IZR. split; apply IZR_le; assumption.
    - cbn [ux uy projected point_of vx vy vz]. rewrite Wy. repeat split; try assumption; try apply X1; apply Gy. }
  apply Bool.andb_false_iff in EZ. rewrite !geb_abs_false in EZ by assumption. rewrite Vz, Vy, Vx in EZ.
  destruct (n_geb O (n_abs O (v3_dot O n (right_vector O))) (n_abs O (v3_dot O n (up_vector O)))
         && n_geb O (n_abs O (v3_dot O n (right_vector O))) (n_abs O (v3_dot O n (forward_vector O))))%bool eqn:EY.
  { apply andb_prop in EY. destruct EY as [E1 E2]. apply geb_abs in E1, E2; try assumption. rewrite Vz, Vy, Vx in *.
    exists AxisY, (V2 (vx x) (f32_neg (vz x))). split; [destruct (bp_uv pl); [intros size; reflexivity|exact I]|].
    specialize (Ozy E1). specialize (Oxy E2). split; [split; lra|]. split.
    - intros (B1 & B2 & B3). apply int_order in Ozy, Oxy; try assumption. cbn [mostly reals vx vy vz]. rewrite <- !abs_IZR. split; [|apply IZR_le; assumption].
      apply IZR_lt. destruct (Z.eq_dec (Z.abs (vz k)) (Z.abs (vy k))) as [e|ne]; [|lia]. symmetry in e. apply S3 in e. exfalso. lra.
    - cbn [ux uy projected point_of vx vy vz]. rewrite Wz. repeat split; try assumption; try apply X1; apply Gz. }
  apply Bool.andb_false_iff in EY. rewrite !geb_abs_false in EY by assumption. rewrite Vz, Vy, Vx in EY.
  destruct (n_geb O (n_abs O (v3_dot O n (forward_vector O))) (n_abs O (v3_dot O n (up_vector O)))
         && n_geb O (n_abs O (v3_dot O n (forward_vector O))) (n_abs O (v3_dot O n (right_vector O))))%bool eqn:EX.
  2:{ exfalso. apply Bool.andb_false_iff in EX. rewrite !geb_abs_false in EX by assumption. rewrite Vz, Vy, Vx in EX. lra. }
  apply andb_prop in EX. destruct EX as [E1 E2]. apply geb_abs in E1, E2; try assumption. rewrite Vz, Vy, Vx in *.
  exists AxisX, (V2 (vy x) (f32_neg (vz x))). split; [destruct (bp_uv pl); [intros size; reflexivity|exact I]|].
  specialize (Ozx E1). specialize (Oyx E2). split; [split; lra|]. split.
  - intros (B1 & B2 & B3). apply int_order in Ozx, Oyx; try assumption. cbn [mostly reals vx vy vz]. rewrite <- !abs_IZR. split; apply IZR_lt.
    + destruct (Z.eq_dec (Z.abs (vz k)) (Z.abs (vx k))) as [e|ne]; [|lia]. symmetry in e. apply S2 in e. exfalso. lra.
    + destruct (Z.eq_dec (Z.abs (vy k)) (Z.abs (vx k))) as [e|ne]; [|lia]. symmetry in e. apply S1 in e. exfalso. lra.
  - cbn [ux uy projected point_of vx vy vz]. rewrite Wz. repeat split; try assumption; try apply X2; apply Gz.
Qed.

(** Turning does not lengthen. *)
Lemma sum_squares : forall t, 0 <= ux t * ux t + uy t * uy t.
Proof. intros t. pose proof (Rle_0_sqr (ux t)). pose proof (Rle_0_sqr (uy t)). unfold Rsqr in *. lra. Qed.
Lemma turned_size : forall c s t, c * c + s * s = 1 -> Rabs (ux (turned_by c s t)) <= length2 t /\ Rabs (uy (turned_by c s t)) <= length2 t.
Proof.
  intros c s t H. pose proof (sum_squares t) as P. unfold length2, turned_by. cbn [ux uy].
  split; rewrite <- sqrt_Rsqr_abs; apply sqrt_le_1_alt; unfold Rsqr.
  - assert (Q : 0 <= Rsqr (s * ux t + c * uy t)) by apply Rle_0_sqr. unfold Rsqr in Q.
    replace (ux t * ux t + uy t * uy t) with ((c * c + s * s) * (ux t * ux t + uy t * uy t)) by (rewrite H; ring). lra.
  - assert (Q : 0 <= Rsqr (c * ux t - s * uy t)) by apply Rle_0_sqr. unfold Rsqr in Q.
    replace (ux t * ux t + uy t * uy t) with ((c * c + s * s) * (ux t * ux t + uy t * uy t)) by (rewrite H; ring). lra.
Qed.
Lemma projected_size : forall a x, length2 (projected a x) <= norm x.
Proof.
  intros a x. unfold length2, norm, inner. apply sqrt_le_1_alt.
  pose proof (Rle_0_sqr (vx x)). pose proof (Rle_0_sqr (vy x)). pose proof (Rle_0_sqr (vz x)). unfold Rsqr in *.
  destruct a; cbn [projected ux uy]; lra.
Qed.

Theorem standard_accurate : forall tx e planes plane f v size uo vo c s d, build_face O tx e planes plane = Ok f ->
  (forall q, In q (plane :: planes) -> grid_plane q) -> (Z.of_nat (length planes) <= 4000)%Z -> In v (f_vertices f) ->
  hget tx (bp_texture plane) = Some size -> bp_uv plane = UVQuake uo vo -> turns p (bp_rotation plane) c s d ->
  sane_offset uo -> sane_offset vo -> sane_scale (ux (bp_scale plane)) -> sane_scale (uy (bp_scale plane)) ->
  sane_size (fst size) -> sane_size (snd size) ->
  let x := point_of (vt_pos v) in
  let reach := norm x + norm (point_of (f_center f)) in
  exists a t, vt_uv v = Some t /\ finite (ux t) /\ finite (uy t)
    /\ nearly (facing (plane_of plane)) a /\ (extent (2 ^ 19) (facing (plane_of plane)) -> mostly (facing (plane_of plane)) a)
    /\ Rabs (val (ux t) - coordinate (ux (turned_by c s (projected a x))) (val (ux (bp_scale plane))) (val uo) (fst size))
       <= coordinate_error (/ 2 ^ 20 + 2 * d) reach (val (ux (bp_scale plane))) (val uo) (fst size)
    /\ Rabs (val (uy t) - coordinate (uy (turned_by c s (projected a x))) (val (uy (bp_scale plane))) (val vo) (snd size))
       <= coordinate_error (/ 2 ^ 20 + 2 * d) reach (val (uy (bp_scale plane))) (val vo) (snd size).
Proof.
  intros tx e planes plane f v size uo vo c s d E G L Hv Hs Huv HT Ho Hp Sx Sy N1 N2. cbn zeta.
  destruct (vertex_source p tx e planes plane f v size E G L Hv Hs) as (x & t & Fx & Bx & Nx & Dx & Et & Eu).
  destruct (axis_chosen plane x (G _ (or_introl eq_refl)) Fx) as (a & y & Ey & NE & MO & F1 & F2 & PR).
  rewrite Huv in Ey. rewrite Ey in Et. injection Et as <-. exists a. eexists. split; [exact Eu|].
  destruct HT as (CS & Hd & HT).
  assert (BY : forall w, (w = ux y \/ w = uy y) -> Rabs (val w) <= 2 ^ 33).
  { intros w Hw. destruct Bx as (B1 & B2 & B3). unfold corner_bound in *.
    assert (V : val (ux y) = ux (projected a (point_of x)) /\ val (uy y) = uy (projected a (point_of x))) by (rewrite <- PR; split; reflexivity).
    destruct V as [V1 V2]. destruct Hw as [->| ->]; [rewrite V1|rewrite V2]; destruct a; cbn [projected ux uy]; rewrite ?Rabs_Ropp; lra. }
  destruct (HT y) as (R1 & R2 & E1 & E2); [apply fin_finite; exact F1|apply fin_finite; exact F2|apply BY; now left|apply BY; now right|].
  set (r0 := p_mat2_rotate p (p_to_radians p (bp_rotation plane)) y) in *.
  change (Rabs (val (ux r0) - ux (turned_by c s (V2 (val (ux y)) (val (uy y))))) <= d * length2 (V2 (val (ux y)) (val (uy y)))) in E1.
  change (Rabs (val (uy r0) - uy (turned_by c s (V2 (val (ux y)) (val (uy y))))) <= d * length2 (V2 (val (ux y)) (val (uy y)))) in E2.
  rewrite PR in E1, E2. unfold r0 in *. clear r0. set (r := p_mat2_rotate p (p_to_radians p (bp_rotation plane)) y) in *.
  unfold v2_add, v2_div, texture_size. cbn [ux uy n_add n_div n_of_N f32_num].
  set (X := norm (point_of (vt_pos v))) in *. set (C := norm (point_of (f_center f))) in *.
  pose proof (norm_pos (point_of (vt_pos v))) as PX. fold X in PX. pose proof (norm_pos (point_of (f_center f))) as PC. fold C in PC.
  pose proof eta_small as He. pose proof (norm_pos (point_of x)) as Py. set (Y := norm (point_of x)) in *.
  assert (SYM : norm (minus (point_of x) (point_of (vt_pos v))) = norm (minus (point_of (vt_pos v)) (point_of x))).
  { unfold norm, minus, inner. cbn [vx vy vz]. f_equal. ring. }
  assert (YX : Y <= X + (21 / 10 * u * X + 11 / 10 * u * C + 8 * eta)).
  { unfold X, Y. eapply Rle_trans; [apply (minus_norm _ (point_of (vt_pos v)))|]. rewrite SYM. fold X. lra. }
  pose proof (projected_size a (point_of x)) as PS. fold Y in PS.
  destruct (turned_size c s (projected a (point_of x)) CS) as [TU TV].
  assert (DP : length2 (projected a (minus (point_of x) (point_of (vt_pos v)))) <= 21 / 10 * u * X + 11 / 10 * u * C + 8 * eta).
  { eapply Rle_trans; [apply projected_size|]. rewrite SYM. exact Dx. }
  destruct (turned_size c s (projected a (minus (point_of x) (point_of (vt_pos v)))) CS) as [DU DV].
  assert (LU : ux (turned_by c s (projected a (minus (point_of x) (point_of (vt_pos v))))) = ux (turned_by c s (projected a (point_of x))) - ux (turned_by c s (projected a (point_of (vt_pos v)))))
    by (destruct a; unfold turned_by, projected, minus; cbn [ux uy vx vy vz]; ring).
  assert (LV : uy (turned_by c s (projected a (minus (point_of x) (point_of (vt_pos v))))) = uy (turned_by c s (projected a (point_of x))) - uy (turned_by c s (projected a (point_of (vt_pos v)))))
    by (destruct a; unfold turned_by, projected, minus; cbn [ux uy vx vy vz]; ring).
  rewrite LU in DU. rewrite LV in DV. clear LU LV.
  set (LL := length2 (projected a (point_of x))) in *.
  assert (dY : d * LL <= d * Y) by (apply Rmult_le_compat_l; lra).
  assert (dYX : d * Y <= d * (X + (21 / 10 * u * X + 11 / 10 * u * C + 8 * eta))) by (apply Rmult_le_compat_l; lra).
  assert (dX : 0 <= d * X) by (apply Rmult_le_pos; lra). assert (dC : 0 <= d * C) by (apply Rmult_le_pos; lra).
  assert (dE : 0 <= d * eta <= eta) by (split; [apply Rmult_le_pos; lra|rewrite <- (Rmult_1_l eta) at 2; apply Rmult_le_compat_r; lra]).
  assert (dB : d * Y <= / 2 ^ 10 * 8589934592) by (apply Rmult_le_compat; try lra; exact Nx).
  unfold corner_bound in Nx.
  assert (one : forall w T T' sc o n, fin w -> sane_offset o -> sane_scale sc -> sane_size n -> Rabs (val w - T) <= d * LL -> Rabs T <= LL ->
    Rabs (T - T') <= 21 / 10 * u * X + 11 / 10 * u * C + 8 * eta ->
    let q := f32_add (f32_div (f32_div w (f32_of_N n)) sc) (f32_div o (f32_of_N n)) in
    fin q /\ Rabs (val q - coordinate T' (val sc) (val o) n) <= coordinate_error (/ 2 ^ 20 + 2 * d) (X + C) (val sc) (val o) n).
  { intros w T T' sc o n Fw Ho' Hs' Hn' EW BT HD. cbn zeta.
    destruct (coord_err w sc o n T (d * LL) Fw Hs' Ho' Hn' EW) as [Fq Eq]; [lra|lra|]. split; [exact Fq|].
    unfold coordinate_error.
    apply (collect _ T _ sc o n (d * LL) (21 / 10 * u * X + 11 / 10 * u * C + 8 * eta) (X + C) (/ 2 ^ 20 + 2 * d) Hs' Hn' ltac:(lra) ltac:(lra) Eq HD); [|lra].
    rewrite ?Rmult_plus_distr_l, ?Rmult_plus_distr_r in *.
    replace (d * (21 / 10 * u * X)) with (21 / 10 * u * (d * X)) in * by ring. replace (d * (11 / 10 * u * C)) with (11 / 10 * u * (d * C)) in * by ring.
    replace (d * (8 * eta)) with (8 * (d * eta)) in * by ring. rewrite !(Rmult_assoc 2 d) in *. lra. }
  apply finite_fin in R1, R2.
  destruct (one (ux r) _ _ _ _ _ R1 Ho Sx N1 E1 TU (Rle_trans _ _ _ DU DP)) as [Q1 W1].
  destruct (one (uy r) _ _ _ _ _ R2 Hp Sy N2 E2 TV (Rle_trans _ _ _ DV DP)) as [Q2 W2].
  split; [apply fin_finite; exact Q1|]. split; [apply fin_finite; exact Q2|]. split; [exact NE|]. split; [exact MO|]. split; assumption.
Qed.
End WithPlatform.
