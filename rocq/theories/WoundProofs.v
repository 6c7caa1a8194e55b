(** Corners in winding order, in single precision (C105). *)
From Coq Require Import Reals Lra Lia ZArith Permutation Sorted.
From Flocq Require Import Core BinarySingleNaN.
From Verif Require Import Prelude F32 Text MapModel GeoModel GatherSpec GeoSpec WindSpec WindProofs WoundPlane GatherProofs GeoProofs GeoFinal NumberSpec BaseProofs FloatProofs NumberProofs ColorProofs BoxSpec BoxProofs ExactProofs RealSpec ArithProofs ErrorSpec ErrorProofs ErrorFinal CornerSpec CornerProofs MeanSpec MeanProofs WoundSpec.
Local Open Scope R_scope.

(** ** Frames *)
Lemma unit_square : forall a, norm a = 1 -> inner a a = 1.
Proof. intros a H. rewrite <- (norm_sq a), H. ring. Qed.

Section Frame.
Context (n w : vec3 R) (N1 : inner n n = 1) (W1 : inner w w = 1) (NW : inner n w = 0).
Definition flat2 (y : vec3 R) : P2 := (inner y w, inner y (outer n w)).
Lemma flat_dt : forall y z, inner n y = 0 -> inner n z = 0 -> dt (flat2 y) (flat2 z) = inner y z.
Proof.
  intros y z Y Z. unfold dt, flat2. cbn [fst snd]. rewrite (frame_split n w N1 W1 NW y Y) at 3.
  generalize (inner y w) (inner y (outer n w)). intros a b. destruct n as [n1 n2 n3], w as [w1 w2 w3], z as [z1 z2 z3]. unfold inner, outer, WindProofs.plus, scaled. cbn [vx vy vz]. ring.
Qed.
Lemma flat_len : forall y, inner n y = 0 -> len (flat2 y) = norm y.
Proof. intros y Y. unfold len. rewrite flat_dt by assumption. reflexivity. Qed.
Lemma flat_cr : forall y z, inner n y = 0 -> inner n z = 0 -> cr (flat2 y) (flat2 z) = inner n (outer y z).
Proof. intros y z Y Z. rewrite (frame_orient n w N1 W1 NW y z Y Z). reflexivity. Qed.
Lemma flat_outer : forall y z, inner n y = 0 -> inner n z = 0 -> Rabs (cr (flat2 y) (flat2 z)) = norm (outer y z).
Proof.
  intros y z Y Z. rewrite flat_cr by assumption. rewrite <- (sqrt_Rsqr_abs (inner n (outer y z))). unfold norm. f_equal. unfold Rsqr.
  assert (C1 : outer n (outer y z) = V3 0 0 0).
  { replace (outer n (outer y z)) with (minus (vscale (inner n z) y) (vscale (inner n y) z)) by (destruct n as [n1 n2 n3], y as [y1 y2 y3], z as [z1 z2 z3]; unfold outer, minus, vscale, inner; cbn [vx vy vz]; f_equal; ring).
    rewrite Y, Z. unfold minus, vscale. cbn [vx vy vz]. f_equal; ring. }
  set (o := outer y z) in *. clearbody o.
  replace (inner o o) with (inner n n * inner o o) by (rewrite N1; ring).
  replace (inner n n * inner o o) with (inner n o * inner n o + inner (outer n o) (outer n o)) by (destruct n as [n1 n2 n3], o as [o1 o2 o3]; unfold outer, inner; cbn [vx vy vz]; ring).
  rewrite C1. unfold inner at 5. cbn [vx vy vz]. ring.
Qed.
End Frame.

(** ** Means *)
Lemma average_total : forall F l, l <> [] -> total (fun x => inner F (minus x (average l))) l = 0.
Proof.
  intros F l Ne. rewrite total_shift. assert (K : INR (length l) <> 0) by (apply not_0_INR; destruct l; [congruence|discriminate]).
  assert (H : forall m, total (inner F) m = vx F * part vx m + vy F * part vy m + vz F * part vz m).
  { intros m. induction m as [|x m IH]; [unfold part; cbn; ring|]. cbn [total]. rewrite IH. unfold part, inner. cbn [map fold_right]. ring. }
  rewrite H. unfold average, inner. cbn [vx vy vz]. fold (part vx l) (part vy l) (part vz l). field. exact K.
Qed.

Section WithPlatform.
Variable p : platform.
Notation O := (f32_num p).
Notation normal_of pl := (unit_along (facing (plane_of pl))).

(** ** The axes *)
Definition edge_of (pl : brush_plane f32) : vec3 R := minus (point_of (bp_v1 pl)) (point_of (bp_v0 pl)).
Notation axis_of pl := (unit_along (edge_of pl)).

Lemma edge_proper : forall pl, grid_plane pl -> norm (edge_of pl) <> 0.
Proof.
  intros pl G Z. assert (P : norm (facing (plane_of pl)) <> 0) by apply G. apply P. unfold facing. cbn [plane_of bp_v0 bp_v1 bp_v2]. fold (edge_of pl).
  pose proof (outer_norm (minus (point_of (bp_v2 pl)) (point_of (bp_v0 pl))) (edge_of pl)) as B. rewrite Z, Rmult_0_r in B.
  pose proof (norm_pos (outer (minus (point_of (bp_v2 pl)) (point_of (bp_v0 pl))) (edge_of pl))). lra.
Qed.
Lemma axis_close : forall pl, grid_plane pl -> close (5 * u) (first_edge O pl) (axis_of pl).
Proof.
  intros pl G. pose proof (edge_proper pl G) as N. destruct G as (P0 & P1 & _).
  destruct (grid_ints _ P0) as (a & A & Ea & Ba). destruct (grid_ints _ P1) as (b & B & Eb & Bb).
  assert (E : edge_of pl = reals (zminus b a)).
  { unfold edge_of. rewrite Ea, Eb. unfold minus, reals, zminus. cbn [vx vy vz]. now rewrite !minus_IZR. }
  rewrite E in *. assert (C : coords (fun c => Z.abs c < 2 ^ 24)%Z (zminus b a)).
  { destruct Ba as (? & ? & ?), Bb as (? & ? & ?). unfold coords, zminus. cbn [vx vy vz]. lia. }
  unfold first_edge. apply normalize_close; [|exact C|exact N]. apply at_sub; auto.
  destruct Ba as (? & ? & ?), Bb as (? & ? & ?). unfold coords, zminus. cbn [vx vy vz]. lia.
Qed.
Lemma frame_of : forall pl, grid_plane pl -> inner (normal_of pl) (normal_of pl) = 1 /\ inner (axis_of pl) (axis_of pl) = 1 /\ inner (normal_of pl) (axis_of pl) = 0.
Proof.
  intros pl G. split; [apply unit_square, grid_unit; exact G|]. split; [apply unit_square, unit_norm, edge_proper; exact G|].
  unfold unit_along, inner, vscale, facing. cbn [plane_of bp_v0 bp_v1 bp_v2]. fold (edge_of pl). set (x := minus _ _). clearbody x. unfold outer. cbn [vx vy vz]. ring.
Qed.

Lemma axes_near : forall pl, grid_plane pl ->
  fins (first_edge O pl) /\ below 4 (point_of (first_edge O pl)) /\ norm (point_of (first_edge O pl)) <= 1 + / 1000000
  /\ norm (minus (point_of (first_edge O pl)) (axis_of pl)) <= 5 * u
  /\ fins (second_axis O pl) /\ below 4 (point_of (second_axis O pl)) /\ norm (point_of (second_axis O pl)) <= 1 + / 1000000
  /\ norm (minus (point_of (second_axis O pl)) (outer (normal_of pl) (axis_of pl))) <= 14 * u.
Proof.
  intros pl G. pose proof (axis_close pl G) as CW. pose proof (plane_close p pl G) as CN. pose proof (grid_unit pl G) as NN. pose proof (unit_norm _ (edge_proper pl G)) as NW.
  destruct (close_unit _ _ CW NW) as (F1 & N1 & E1 & B1). destruct (close_unit _ _ CN NN) as (F0 & N0 & E0 & B0).
  destruct (cross_unit p _ _ _ _ CN NN CW NW) as (F2 & E2 & N2 & _). fold (second_axis O pl) in *. unfold second_axis in *.
  set (a := plane_normal O pl) in *. set (b := first_edge O pl) in *. set (m := normal_of pl) in *. set (n := axis_of pl) in *.
  split; [exact F1|]. split; [exact B1|]. split; [lra|]. split; [exact E1|]. split; [exact F2|].
  assert (D : norm (minus (point_of (v3_cross O a b)) (outer (point_of a) (point_of b))) <= 36 / 10 * u).
  { destruct E2 as (X & Y & Z). pose proof (norm_cube _ _ X Y Z). lra. }
  assert (D' : norm (minus (outer (point_of a) (point_of b)) (outer m n)) <= 101 / 10 * u).
  { replace (minus (outer (point_of a) (point_of b)) (outer m n)) with (vplus (outer (minus (point_of a) m) (point_of b)) (outer m (minus (point_of b) n)))
      by (unfold vplus, minus, outer; cbn [vx vy vz]; f_equal; ring).
    eapply Rle_trans; [apply norm_triangle|]. pose proof (outer_norm (minus (point_of a) m) (point_of b)) as X. pose proof (outer_norm m (minus (point_of b) n)) as Y.
    rewrite NN, Rmult_1_l in Y. pose proof (norm_pos (minus (point_of a) m)). pose proof (norm_pos (point_of b)).
    assert (norm (minus (point_of a) m) * norm (point_of b) <= 5 * u * (1 + 5 * u)) by (apply Rmult_le_compat; assumption). lra. }
  pose proof (minus_norm (point_of (v3_cross O a b)) (outer (point_of a) (point_of b))) as T1.
  pose proof (minus_triangle (point_of (v3_cross O a b)) (outer (point_of a) (point_of b)) (outer m n)) as T2.
  pose proof (outer_norm (point_of a) (point_of b)) as T3. pose proof (norm_pos (point_of a)). pose proof (norm_pos (point_of b)).
  assert (norm (point_of a) * norm (point_of b) <= (1 + 5 * u) * (1 + 5 * u)) by (apply Rmult_le_compat; assumption).
  destruct (coord_norm (point_of (v3_cross O a b))) as (Q1 & Q2 & Q3).
  split; [unfold below; lra|]. split; lra.
Qed.

Lemma dot_swap : forall a b : vec3 f32, v3_dot O a b = v3_dot O b a.
Proof.
  assert (C : forall x y, f32_mul x y = f32_mul y x).
  { intros x y. destruct x as [s|s| |s m e], y as [t|t| |t n f]; try reflexivity; try (unfold f32_mul, SpecFloat.SFmul; now rewrite Bool.xorb_comm).
    unfold f32_mul, SpecFloat.SFmul. now rewrite Bool.xorb_comm, Pos.mul_comm, Z.add_comm. }
  intros a b. unfold v3_dot. cbn [n_add n_mul f32_num]. now rewrite (C (vx a)), (C (vy a)), (C (vz a)).
Qed.

(** A coordinate along an axis. *)
Lemma along_axis : forall l a y A e k, fins l -> below B50 (point_of l) -> fins a -> below 4 (point_of a) -> norm (point_of a) <= 1 + / 1000000 ->
  norm (minus (point_of a) A) <= k * u -> norm (minus (point_of l) y) <= e -> 0 <= k <= 14 ->
  fin (v3_dot O l a) /\ Rabs (val (v3_dot O l a) - inner y A) <= (101 / 100) * e + (k + 302 / 100) * u * norm y + 6 * eta.
Proof.
  intros l a y A e k Fl Bl Fa Ba Na Ea El K. rewrite dot_swap. destruct (dot_err p a l Fa Fl Ba Bl) as [F D]. split; [exact F|].
  set (L := point_of l) in *. set (X := point_of a) in *. set (V := val (v3_dot O a l)) in *. clearbody V.
  replace (V - inner y A) with ((V - inner X L) + (inner (minus L y) X + inner (minus X A) y)) by (unfold inner, minus; cbn [vx vy vz]; ring).
  eapply Rle_trans; [apply Rabs_triang|]. pose proof (Rabs_triang (inner (minus L y) X) (inner (minus X A) y)) as T.
  pose proof (abs_inner (minus L y) X) as I1. pose proof (abs_inner (minus X A) y) as I2.
  pose proof (norm_pos y). pose proof (norm_pos X). pose proof (norm_pos L). pose proof (norm_pos (minus L y)). pose proof (norm_pos (minus X A)). pose proof (minus_norm L y) as NL.
  assert (norm (minus L y) * norm X <= e * (1 + / 1000000)) by (apply Rmult_le_compat; lra).
  assert (norm (minus X A) * norm y <= k * u * norm y) by (apply Rmult_le_compat_r; assumption).
  assert (norm X * norm L <= (1 + / 1000000) * (norm y + e)) by (apply Rmult_le_compat; lra). lra.
Qed.

(** ** Corners around the centre *)
Lemma local_err : forall r c, fins r -> fins c -> below corner_bound (point_of r) -> below corner_bound (point_of c) ->
  fins (v3_sub O r c) /\ below B50 (point_of (v3_sub O r c))
  /\ norm (minus (point_of (v3_sub O r c)) (minus (point_of r) (point_of c))) <= u * norm (minus (point_of r) (point_of c)) + 2 * eta.
Proof.
  intros r c (R1 & R2 & R3) (C1 & C2 & C3) (X1 & X2 & X3) (Y1 & Y2 & Y3). pose proof eta_small as HE.
  assert (H : forall x y, fin x -> fin y -> Rabs (val x) <= corner_bound -> Rabs (val y) <= corner_bound ->
    fin (f32_sub x y) /\ Rabs (val (f32_sub x y)) <= B50 /\ Rabs (val (f32_sub x y) - (val x - val y)) <= u * Rabs (val x - val y) + eta).
  { intros x y Fx Fy Bx By. unfold corner_bound in *. destruct (sub_err x y Fx Fy) as [F1 E1]; [unfold B60; lra|unfold B60; lra|].
    split; [exact F1|]. split; [|exact E1]. pose proof (near_bound _ _ _ E1) as N.
    assert (T1 : Rabs (val x - val y) <= Rabs (val x) + Rabs (val y)) by (unfold Rminus; eapply Rle_trans; [apply Rabs_triang|rewrite Rabs_Ropp; lra]).
    unfold B50. lra. }
  cbn [point_of vx vy vz] in *.
  destruct (H _ _ R1 C1 X1 Y1) as (F1 & B1 & E1). destruct (H _ _ R2 C2 X2 Y2) as (F2 & B2 & E2). destruct (H _ _ R3 C3 X3 Y3) as (F3 & B3 & E3).
  split; [split; [|split]; assumption|]. split; [split; [|split]; assumption|].
  pose proof (norm_combine (minus (point_of (v3_sub O r c)) (minus (point_of r) (point_of c))) (minus (point_of r) (point_of c)) (V3 0 0 0) u 0 eta
    ltac:(lra) ltac:(lra) ltac:(lra)) as N. cbn [point_of minus v3_sub n_sub f32_num vx vy vz] in N. rewrite Rabs_R0 in N. specialize (N ltac:(lra) ltac:(lra) ltac:(lra)).
  cbn [point_of minus v3_sub n_sub f32_num vx vy vz]. lra.
Qed.

Lemma corner_near : forall planes plane b r x, (forall q, In q (plane :: planes) -> grid_plane q) -> blurred b planes plane -> of_corner p planes plane r x ->
  0 <= b /\ fins r /\ norm (minus (point_of r) x) <= 23 / 32 * b + 200000 * eta /\ norm x <= 524288 * b.
Proof.
  intros planes plane b r x G BL (p1 & p2 & I1 & I2 & X & Er & T). specialize (BL p1 p2 x I1 I2 X T). pose proof (g_pos _ _ _ _ X) as GP.
  destruct (meeting_near p plane p1 p2 r x) as (Fr & _ & N & M); try (apply G; cbn; auto); [exact Er|exact X|]. unfold blur in BL.
  set (g := distances _ _ _ _ / openness _ _ _) in *. clearbody g. replace (2 ^ 19) with 524288 in BL by ring. split; [lra|]. split; [exact Fr|]. lra.
Qed.

Lemma centre_near : forall planes plane b raw xs c, (forall q, In q (plane :: planes) -> grid_plane q) -> (Z.of_nat (length planes) <= 4000)%Z -> blurred b planes plane ->
  corner_set O planes plane raw -> is_mean O (map vt_pos raw) c -> Forall2 (fun v x => of_corner p planes plane (vt_pos v) x) raw xs -> xs <> [] ->
  norm (minus (point_of c) (average xs)) <= (7 / 8 + 63 / 1000 * INR (length xs)) * b + / 10 ^ 30.
Proof.
  intros planes plane b raw xs c G L BL CS M F Ne. pose proof (raw_length p planes plane raw G CS) as RL. destruct CS as (A & _). pose proof eta_small as HE.
  assert (Len : length raw = length xs) by (clear -F; induction F; cbn; congruence).
  assert (Nr : raw <> []) by (destruct raw; [destruct xs; [congruence|discriminate]|discriminate]).
  assert (B0 : 0 <= b).
  { destruct raw as [|v raw]; [congruence|]. inversion F; subst. destruct (corner_near planes plane b (vt_pos v) y) as (B0 & _); assumption. }
  assert (AL : forall x, In x (map vt_pos raw) -> fins x /\ below corner_bound (point_of x)).
  { intros x Hx. apply in_map_iff in Hx. destruct Hx as (v & <- & Hv). apply (meeting_fins p planes plane); auto. }
  assert (Br : forall x, In x (map vt_pos raw) -> norm (point_of x) <= 524289 * b + 200000 * eta).
  { intros x Hx. apply in_map_iff in Hx. destruct Hx as (v & <- & Hv). destruct (Forall2_left _ _ _ _ F Hv) as (x & _ & OCx).
    destruct (corner_near planes plane b (vt_pos v) x G BL OCx) as (_ & _ & N1 & N2). pose proof (minus_norm (point_of (vt_pos v)) x). lra. }
  pose proof (mean_accurate p _ _ _ M ltac:(destruct raw; [congruence|discriminate]) ltac:(rewrite map_length; nia) AL Br) as A1. rewrite map_length, Len in A1.
  assert (A2 : norm (minus (average (map point_of (map vt_pos raw))) (average xs)) <= 23 / 32 * b + 200000 * eta).
  { apply average_close; [|destruct raw; [congruence|discriminate]]. rewrite map_map. clear -F G BL. induction F as [|v x raw xs H F IH]; [constructor|]. cbn [map]. constructor; [|exact IH].
    apply (corner_near planes plane b (vt_pos v) x G BL H). }
  pose proof (minus_triangle (point_of c) (average (map point_of (map vt_pos raw))) (average xs)) as T.
  set (K := INR (length xs)) in *. assert (K0 : 0 <= K <= 16777216).
  { unfold K. split; [apply pos_INR|]. rewrite INR_IZR_INZ. apply (IZR_le _ 16777216). rewrite <- Len. nia. }
  assert (Kb : 0 <= K * b) by (apply Rmult_le_pos; lra). assert (Ke : K * eta <= 16777216 * eta) by (apply Rmult_le_compat_r; lra).
  replace (10 ^ 30) with 1000000000000000000000000000000 by ring. lra.
Qed.

(** ** The turning direction *)
Lemma finite_above : forall a b, finite a -> finite b -> not_above O a b -> val a <= val b.
Proof.
  intros a b Fa Fb H. unfold not_above in H. cbn [n_cmp f32_num] in H. rewrite (cmp_real a b Fa Fb) in H.
  destruct (Rcompare_spec (val a) (val b)); [lra|lra|destruct H; discriminate].
Qed.

Section Face.
Context (planes : list (brush_plane f32)) (plane : brush_plane f32) (xs : list (vec3 R)) (b d s r : R)
  (G : forall q, In q (plane :: planes) -> grid_plane q) (T : forall x, In x xs <-> true_corner planes plane x).
Notation n := (normal_of plane).
Notation w := (axis_of plane).
Notation g := (average xs).
Notation q x := (flat2 n w (minus x g)).

Lemma plane_grid : grid_plane plane.
Proof. apply G. now left. Qed.
Lemma corner_level : forall x, In x xs -> inner n x = inner n (point_of (bp_v0 plane)).
Proof. intros x H. apply T in H. destruct H as ((p1 & p2 & _ & _ & X & _) & _). apply level_on in X; [exact X|exact plane_grid]. Qed.
Lemma corner_flat : forall x, In x xs -> inner n (minus x g) = 0.
Proof.
  intros x Hx. assert (Ne : xs <> []) by (intros Z; rewrite Z in Hx; destruct Hx). pose proof (average_total n xs Ne) as A.
  assert (E : forall l, (forall y, In y l -> In y xs) -> total (fun y => inner n (minus y g)) l = INR (length l) * inner n (minus x g)).
  { induction l as [|y l IH]; intros S; [cbn; ring|]. cbn [total length]. rewrite IH by (intros z Hz; apply S; now right). rewrite S_INR.
    rewrite !inner_minus_r, (corner_level x Hx), (corner_level y) by (apply S; now left). ring. }
  rewrite (E xs) in A by auto. apply Rmult_integral in A. destruct A as [A|A]; [|exact A]. exfalso. apply Ne. apply length_zero_iff_nil, INR_eq. exact A.
Qed.

Lemma true_exposed : forall x y, In x xs -> In y xs -> y <> x -> exposed (map (fun z => q z) xs) (q x).
Proof.
  intros x y0 Hx Hy0 Ny0. destruct (frame_of plane plane_grid) as (N1 & W1 & NW).
  pose proof Hx as Tx. apply T in Tx. destruct Tx as ((p1 & p2 & I1 & I2 & X0 & X1 & X2 & D) & IN).
  assert (G1 : grid_plane p1) by (apply G; now right). assert (G2 : grid_plane p2) by (apply G; now right). pose proof plane_grid as G0.
  rewrite openness_det in D by assumption. unfold det_of in D. set (F1 := normal_of p1) in *. set (F2 := normal_of p2) in *.
  set (F := WindProofs.plus F1 F2).
  assert (Le : forall pl y, In pl planes -> on_plane (plane_of pl) x -> In y xs -> inner (normal_of pl) (minus y x) <= 0).
  { intros pl y Ip Q Hy. assert (Gp : grid_plane pl) by (apply G; now right). apply level_on in Q; [|exact Gp]. apply T in Hy. destruct Hy as (_ & INy).
    specialize (INy pl Ip). apply within_on in INy; [|exact Gp]. unfold level_with in Q. rewrite inner_minus_r in *. rewrite Q. cbn [plane_of bp_v0] in INy. lra. }
  assert (Lt : forall y, In y xs -> y <> x -> inner F (minus y g) < inner F (minus x g)).
  { intros y Hy Ny. pose proof (Le p1 y I1 X1 Hy) as A. pose proof (Le p2 y I2 X2 Hy) as B. fold F1 in A. fold F2 in B.
    assert (S : inner F (minus y g) - inner F (minus x g) = inner F1 (minus y x) + inner F2 (minus y x))
      by (unfold F, WindProofs.plus, inner, minus; cbn [vx vy vz]; ring).
    destruct (Rle_lt_or_eq_dec _ _ A) as [A'|A']; [lra|]. destruct (Rle_lt_or_eq_dec _ _ B) as [B'|B']; [lra|]. exfalso. apply Ny.
    apply minus_null, (null_of_inner n F1 F2); auto; [lra|].
    rewrite inner_minus_r, (corner_level y Hy), (corner_level x Hx). ring. }
  assert (DT : forall z, In z xs -> dt (inner F w, inner F (outer n w)) (q z) = inner F (minus z g)).
  { intros z Hz. pose proof (frame_split n w N1 W1 NW (minus z g) (corner_flat z Hz)) as Sp. unfold dt, flat2. cbn [fst snd].
    rewrite Sp at 3. generalize (inner (minus z g) w) (inner (minus z g) (outer n w)). intros a c. clear.
    unfold inner, WindProofs.plus, scaled. cbn [vx vy vz]. ring. }
  exists (inner F w, inner F (outer n w)). split.
  - rewrite DT by exact Hx. assert (Ne : xs <> []) by (intros Z; rewrite Z in Hx; destruct Hx). pose proof (average_total F xs Ne) as S.
    assert (Sum : total (fun z => inner F (minus z g)) xs < INR (length xs) * inner F (minus x g)).
    { apply (total_strict _ _ _ y0); auto. intros z Hz. destruct (Req_dec (inner F (minus z g)) (inner F (minus x g))) as [Q|Q]; [lra|].
      assert (z <> x) by (intros ->; now apply Q). left. auto. }
    rewrite S in Sum. assert (0 < INR (length xs)) by (apply lt_0_INR; destruct xs; [congruence|cbn; lia]). nra.
  - intros z Hz Nz. apply in_map_iff in Hz. destruct Hz as (y & <- & Hy). rewrite !DT by assumption. apply Lt; [exact Hy|]. intros ->. now apply Nz.
Qed.

Context (S0 : / 1000 <= s <= 1) (SP : spread s r xs).
Lemma spread_apart : forall x y, In x xs -> In y xs -> x <> y -> apart s (q x) (q y).
Proof.
  intros x y Hx Hy N. destruct (frame_of plane plane_grid) as (N1 & W1 & NW). destruct SP as [_ H]. specialize (H x y Hx Hy N). unfold apart.
  rewrite flat_dt, flat_outer, !flat_len by auto using corner_flat. exact H.
Qed.

(** What is known about a corner moved next to the origin. *)
Definition directed (sv : vertex f32) (x : vec3 R) : Prop :=
  exists P t, around (s / 16) P (q x) /\ polar_form P t /\ - PI <= t <= PI /\ finite (angle_of O plane sv) /\ Rabs (val (angle_of O plane sv) - t) <= d.

Lemma corner_directed : forall c sv rv x, accurate_angle d (p_atan2 p) -> blurred b planes plane -> fins c -> below corner_bound (point_of c) ->
  norm (minus (point_of c) g) <= (7 / 8 + 63 / 1000 * INR (length xs)) * b + / 10 ^ 30 -> below corner_bound (point_of rv) ->
  (64 + 4 * INR (length xs)) * (b + / 10 ^ 20) <= s * r ->
  vt_pos sv = v3_sub O rv c -> of_corner p planes plane rv x -> In x xs -> directed sv x.
Proof.
  intros c sv rv x AC BL Fc Bc Cg Brv Small Es OCx Hx. destruct (corner_near planes plane b rv x G BL OCx) as (B0 & Fr & Nr & _).
  destruct (local_err rv c Fr Fc Brv Bc) as (Fl & Bl & El). rewrite <- Es in *. set (l := vt_pos sv) in *.
  destruct (axes_near plane plane_grid) as (Fu & Bu & Nu & Eu & Fv & Bv & Nv & Ev). destruct (frame_of plane plane_grid) as (N1 & W1 & NW).
  pose proof (proj1 SP x Hx) as Rx. pose proof eta_small as HE.
  set (y := minus x g) in *. set (D := norm (minus (point_of rv) x) + norm (minus (point_of c) g)).
  assert (Ey : norm (minus (minus (point_of rv) (point_of c)) y) <= D).
  { replace (minus (minus (point_of rv) (point_of c)) y) with (vplus (minus (point_of rv) x) (vscale (-1) (minus (point_of c) g)))
      by (unfold y, vplus, vscale, minus; cbn [vx vy vz]; f_equal; ring).
    eapply Rle_trans; [apply norm_triangle|]. rewrite norm_scale, Rabs_left by lra. unfold D. lra. }
  assert (Ly : norm (minus (point_of l) y) <= (1 + u) * D + u * norm y + 2 * eta).
  { pose proof (minus_triangle (point_of l) (minus (point_of rv) (point_of c)) y) as T1. pose proof (minus_norm (minus (point_of rv) (point_of c)) y) as T2. lra. }
  destruct (along_axis l _ y w _ 5 Fl Bl Fu Bu Nu Eu Ly ltac:(lra)) as [F1 D1].
  destruct (along_axis l _ y (outer n w) _ 14 Fl Bl Fv Bv Nv Ev Ly ltac:(lra)) as [F2 D2].
  set (P := (val (v3_dot O l (first_edge O plane)), val (v3_dot O l (second_axis O plane))) : P2).
  assert (K0 : 0 <= INR (length xs)) by apply pos_INR. set (K := INR (length xs)) in *. assert (Kb : 0 <= K * b) by (apply Rmult_le_pos; lra).
  assert (Y0 : 0 <= norm y) by apply norm_pos.
  assert (Big : (64 + 4 * K) * b + / 10 ^ 19 <= s * norm y).
  { assert (s * r <= s * norm y) by (apply Rmult_le_compat_l; lra). replace (10 ^ 20) with 100000000000000000000 in Small by ring. replace (10 ^ 19) with 10000000000000000000 by ring. lra. }
  assert (Sy : / 1000 * norm y <= s * norm y) by (apply Rmult_le_compat_r; lra).
  assert (Sy' : s * norm y <= 1 * norm y) by (apply Rmult_le_compat_r; lra).
  assert (AR : around (s / 16) P (q x)).
  { unfold around. rewrite flat_len by auto using corner_flat. fold y.
    assert (LG : len (gap P (flat2 n w y)) <= Rabs (val (v3_dot O l (first_edge O plane)) - inner y w) + Rabs (val (v3_dot O l (second_axis O plane)) - inner y (outer n w))).
    { unfold P, flat2, gap, len, dt. cbn [fst snd]. set (a1 := _ - inner y w). set (a2 := _ - inner y (outer n w)). pose proof (Rabs_pos a1). pose proof (Rabs_pos a2).
      rewrite <- (sqrt_square (Rabs a1 + Rabs a2)) by lra. apply sqrt_le_1_alt.
      replace (a1 * a1) with (Rabs a1 * Rabs a1) by (rewrite <- Rabs_mult; apply Rabs_pos_eq; nra). replace (a2 * a2) with (Rabs a2 * Rabs a2) by (rewrite <- Rabs_mult; apply Rabs_pos_eq; nra). nra. }
    eapply Rle_trans; [exact LG|]. unfold D in *. replace (10 ^ 19) with 10000000000000000000 in Big by ring.
    replace (10 ^ 30) with 1000000000000000000000000000000 in Cg by ring. lra. }
  assert (NZ : val (v3_dot O l (first_edge O plane)) <> 0 \/ val (v3_dot O l (second_axis O plane)) <> 0).
  { destruct (Req_dec (val (v3_dot O l (first_edge O plane))) 0) as [Z1|Z1]; [|now left]. destruct (Req_dec (val (v3_dot O l (second_axis O plane))) 0) as [Z2|Z2]; [|now right].
    exfalso. unfold around in AR. apply len_near in AR. rewrite flat_len in AR by auto using corner_flat. fold y in AR.
    assert (len P = 0) by (unfold len, dt, P; cbn [fst snd]; rewrite Z1, Z2, Rmult_0_l, Rplus_0_l; apply sqrt_0). replace (10 ^ 19) with 10000000000000000000 in Big by ring. lra. }
  destruct (AC (v3_dot O l (second_axis O plane)) (v3_dot O l (first_edge O plane))) as (Fa & rho & t & R0 & X & Y & Rt & Da); [exact F2|exact F1|exact NZ|].
  exists P, t. split; [exact AR|]. split; [exists rho; unfold P; cbn [fst snd]; auto|]. split; [exact Rt|]. split; [exact Fa|exact Da].
Qed.

Lemma directed_clockwise : forall sx sy sz x y z, d <= s / 3 -> In x xs -> In y xs -> In z xs -> x <> y -> y <> z -> x <> z ->
  directed sx x -> directed sy y -> directed sz z ->
  not_above O (angle_of O plane sy) (angle_of O plane sx) -> not_above O (angle_of O plane sz) (angle_of O plane sy) -> not_above O (angle_of O plane sz) (angle_of O plane sx) ->
  clockwise (facing (plane_of plane)) x y z.
Proof.
  intros sx sy sz x y z Dd Hx Hy Hz Nxy Nyz Nxz (P1 & t1 & A1 & PF1 & R1 & F1 & D1) (P2 & t2 & A2 & PF2 & R2 & F2 & D2) (P3 & t3 & A3 & PF3 & R3 & F3 & D3) L1 L2 L3.
  apply finite_above in L1, L2, L3; try assumption. apply Rabs_le_inv in D1, D2, D3.
  destruct (frame_of plane plane_grid) as (N1 & W1 & NW).
  assert (TT : (cr (q x) (q y) < 0 /\ cr (q y) (q z) < 0) \/ (cr (q y) (q z) < 0 /\ cr (q z) (q x) < 0) \/ (cr (q z) (q x) < 0 /\ cr (q x) (q y) < 0)).
  { apply (three_turns s (s / 16) ltac:(lra) ltac:(lra) P1 P2 P3 (q x) (q y) (q z) t1 t2 t3 d); auto using spread_apart; lra. }
  assert (Inj : forall a c, In a xs -> In c xs -> q a = q c -> a = c).
  { intros a c Ha Hc H. unfold flat2 in H. injection H as H1 H2.
    assert (Z : minus a g = minus c g) by (rewrite (frame_split n w N1 W1 NW _ (corner_flat a Ha)), (frame_split n w N1 W1 NW _ (corner_flat c Hc)), H1, H2; reflexivity).
    destruct a as [a1 a2 a3], c as [c1 c2 c3]. unfold minus in Z. cbn [vx vy vz] in Z. injection Z as Z1 Z2 Z3. f_equal; lra. }
  assert (M : forall a, In a xs -> In (q a) (map (fun z => q z) xs)) by (intros a Ha; apply (in_map (fun z => q z)); exact Ha).
  assert (OR : orient (q x) (q y) (q z) < 0).
  { destruct TT as [(C1 & C2)|[(C1 & C2)|(C1 & C2)]].
    - destruct (true_exposed y x Hy Hx Nxy) as (h & H0 & H). apply (orient_exposed h); auto; apply H; auto.
    - rewrite <- orient_turn. destruct (true_exposed z x Hz Hx Nxz) as (h & H0 & H). apply (orient_exposed h); auto; apply H; auto.
    - rewrite <- orient_turn, <- orient_turn. destruct (true_exposed x y Hx Hy (not_eq_sym Nxy)) as (h & H0 & H). apply (orient_exposed h); auto; apply H; auto. }
  unfold clockwise. unfold orient in OR. rewrite !flat_cr in OR by auto using corner_flat.
  assert (E : inner (facing (plane_of plane)) (outer (minus y x) (minus z x)) = norm (facing (plane_of plane)) * (inner n (outer (minus x g) (minus y g)) + inner n (outer (minus y g) (minus z g)) + inner n (outer (minus z g) (minus x g)))).
  { assert (Pr : norm (facing (plane_of plane)) <> 0) by apply plane_grid. unfold unit_along. set (FF := facing (plane_of plane)) in *. unfold inner, outer, minus, vscale. cbn [vx vy vz]. field. exact Pr. }
  rewrite E. assert (Pr : norm (facing (plane_of plane)) <> 0) by apply plane_grid. pose proof (norm_pos (facing (plane_of plane))). assert (0 < norm (facing (plane_of plane))) by lra.
  set (sum := inner n _ + _ + _) in *. clearbody sum. nra.
Qed.
End Face.

Theorem wound : forall tx e planes plane f d s r b xs, build_face O tx e planes plane = Ok f -> (forall q, In q (plane :: planes) -> grid_plane q) ->
  (Z.of_nat (length planes) <= 4000)%Z -> clear planes plane -> simple planes plane -> accurate_angle d (p_atan2 p) ->
  NoDup xs -> (forall x, In x xs <-> true_corner planes plane x) -> spread s r xs -> blurred b planes plane ->
  / 1000 <= s <= 1 -> d <= s / 3 -> (64 + 4 * INR (length xs)) * (b + / 10 ^ 20) <= s * r ->
  exists ys, Permutation xs ys /\ Forall2 (shows planes plane (f_center f)) (f_vertices f) ys
    /\ forall i j k x y z, (i < j)%nat -> (j < k)%nat -> nth_error ys i = Some x -> nth_error ys j = Some y -> nth_error ys k = Some z ->
         clockwise (facing (plane_of plane)) x y z.
Proof.
  intros tx e planes plane f d s r b xs E G L CL SI AC ND T SP BL S0 Dd Small.
  destruct (face_points p tx e planes plane f E G L) as (Fc & Bc & _).
  destruct (face_corners_built _ (f32_eq_laws p) _ _ _ _ _ E) as (raw & centred & sorted & CS & M & F1 & P & F2 & W).
  destruct (corner_list p planes plane raw CS G CL SI) as (zs & H & NDz & IFF).
  assert (PX : Permutation xs zs) by (apply NoDup_Permutation; auto; intros x; rewrite T, IFF; reflexivity).
  assert (G0 : grid_plane plane) by (apply G; now left).
  assert (OC : forall q, In q planes -> grid_plane q) by (intros q Hq; apply G; now right).
  assert (H1 : Forall2 (fun sv x => exists rv, vt_pos sv = v3_sub O rv (f_center f) /\ of_corner p planes plane rv x) centred zs).
  { eapply Forall2_chain; [apply Forall2_flip; exact F1|exact H|]. intros sv v x (D & _) OCx. exists (vt_pos v). split; [exact D|exact OCx]. }
  destruct (Permutation_Forall2 P H1) as (ys & PY & H2).
  assert (PXY : Permutation xs ys) by (eapply Permutation_trans; eassumption).
  exists ys. split; [exact PXY|]. split.
  - eapply Forall2_chain; [apply Forall2_flip; exact F2|exact H2|]. intros v sv x (D & _) (rv & Es & OCx). destruct OCx as (p1 & p2 & I1 & I2 & X & Er & Tx).
    exists p1, p2. split; [exact I1|]. split; [exact I2|]. split; [exact X|]. rewrite D, Es. destruct (meeting_near p plane p1 p2 rv x G0 (OC _ I1) (OC _ I2) Er X) as (Fr & _). apply back_near with rv; auto.
  - intros i j k x y z Lij Ljk Hi Hj Hk.
    assert (Hin : forall m v, nth_error ys m = Some v -> In v xs) by (intros m v Hm; apply (Permutation_in _ (Permutation_sym PXY)); apply nth_error_In in Hm; exact Hm).
    assert (Ne : zs <> []) by (intros ->; apply Permutation_sym, Permutation_nil in PX; subst xs; destruct (Hin _ _ Hi)).
    assert (Cg : norm (minus (point_of (f_center f)) (average xs)) <= (7 / 8 + 63 / 1000 * INR (length xs)) * b + / 10 ^ 30).
    { rewrite (average_perm _ _ PX), (Permutation_length PX). apply (centre_near planes plane b raw zs); assumption. }
    assert (DIR : forall sv x, (exists rv, vt_pos sv = v3_sub O rv (f_center f) /\ of_corner p planes plane rv x) -> In x xs -> directed plane xs d s sv x).
    { intros sv x0 (rv & Es & OCx) Hx. apply (corner_directed planes plane xs b d s r G T S0 SP (f_center f) sv rv x0); auto.
      destruct OCx as (p1 & p2 & I1 & I2 & _ & Er & _). destruct (meet_size p _ _ _ _ G0 (OC _ I1) (OC _ I2) Er) as (_ & _ & Nr).
      destruct (coord_norm (point_of rv)) as (? & ? & ?). unfold below. lra. }
    assert (W' : StronglySorted (fun a c => not_above O (angle_of O plane c) (angle_of O plane a)) sorted).
    { apply (W _ (f32_order p)). intros v Hv. destruct (Forall2_left _ _ _ _ H1 Hv) as (x0 & Hx0 & Q). apply (Permutation_in _ (Permutation_sym PX)) in Hx0.
      destruct (DIR v x0 Q Hx0) as (_ & _ & _ & _ & _ & Fa & _). intros Z. rewrite Z in Fa. destruct Fa as [_ Fa]; discriminate Fa. }
    assert (NDy : NoDup ys) by (apply (Permutation_NoDup PXY); exact ND).
    assert (Dif : forall m m' v v', m <> m' -> nth_error ys m = Some v -> nth_error ys m' = Some v' -> v <> v').
    { intros m m' v v' N A B ->. apply N. apply (proj1 (NoDup_nth_error ys) NDy); [apply nth_error_Some; congruence|congruence]. }
    assert (GET : forall m v, nth_error ys m = Some v -> exists sv, nth_error sorted m = Some sv /\ directed plane xs d s sv v).
    { intros m v Hm. clear -H2 Hm DIR Hin. assert (HI := Hin _ _ Hm). clear Hin. revert m Hm. induction H2 as [|sv v0 sorted ys Q H2 IH]; intros m Hm; [destruct m; discriminate|].
      destruct m as [|m]; cbn in Hm; [injection Hm as ->; exists sv; split; [reflexivity|apply DIR; assumption]|]. exact (IH m Hm). }
    destruct (GET i x Hi) as (sx & Gx & Dx). destruct (GET j y Hj) as (sy & Gy & Dy). destruct (GET k z Hk) as (sz & Gz & Dz).
    apply (directed_clockwise planes plane xs d s r G T S0 SP sx sy sz x y z); eauto.
    + apply (Dif i j); auto; lia.
    + apply (Dif j k); auto; lia.
    + apply (Dif i k); auto; lia.
    + apply (sorted_at _ _ sorted i j sx sy W'); auto.
    + apply (sorted_at _ _ sorted j k sy sz W'); auto.
    + apply (sorted_at _ _ sorted i k sx sz W'); auto; lia.
Qed.

(** ** The triangles of the face itself *)
Lemma average_norm : forall l m, l <> [] -> (forall x, In x l -> norm x <= m) -> norm (average l) <= m.
Proof.
  intros l m Ne B. assert (F : Forall2 (fun a c => norm (minus a c) <= m) l (map (fun _ => V3 0 0 0) l)).
  { clear Ne. induction l as [|x l IH]; [constructor|]. cbn [map]. constructor; [|apply IH; intros y Hy; apply B; now right].
    replace (minus x (V3 0 0 0)) with x by (destruct x; unfold minus; cbn; f_equal; ring). apply B. now left. }
  pose proof (average_close _ _ _ F Ne) as A.
  assert (Z : average (map (fun _ : vec3 R => V3 0 0 0) l) = V3 0 0 0).
  { assert (Q : forall f : vec3 R -> R, f (V3 0 0 0) = 0 -> fold_right Rplus 0 (map f (map (fun _ => V3 0 0 0) l)) = 0).
    { intros f Hf. clear -Hf. induction l as [|x l IH]; [reflexivity|]. cbn [map fold_right]. rewrite Hf, IH. ring. }
    unfold average. rewrite !Q by reflexivity. unfold Rdiv. rewrite Rmult_0_l. reflexivity. }
  rewrite Z in A. replace (minus (average l) (V3 0 0 0)) with (average l) in A by (destruct (average l); unfold minus; cbn; f_equal; ring). exact A.
Qed.

Lemma side_sign : forall m h n a c a' c', norm n = 1 -> norm (minus a' a) <= h -> norm (minus c' c) <= h -> h * (norm a + norm c) + h * h < m ->
  inner n (outer a c) <= - m -> inner n (outer a' c') < 0.
Proof.
  intros m h n a c a' c' N1 A C H I. replace (outer a' c') with (vplus (outer a c) (vplus (vplus (outer (minus a' a) c) (outer a (minus c' c))) (outer (minus a' a) (minus c' c))))
    by (unfold vplus, outer, minus; cbn [vx vy vz]; f_equal; ring).
  set (D := vplus (vplus _ _) _). assert (ND : norm D <= h * (norm a + norm c) + h * h).
  { unfold D. eapply Rle_trans; [apply norm_triangle|]. pose proof (norm_triangle (outer (minus a' a) c) (outer a (minus c' c))) as T.
    pose proof (outer_norm (minus a' a) c). pose proof (outer_norm a (minus c' c)). pose proof (outer_norm (minus a' a) (minus c' c)).
    pose proof (norm_pos a). pose proof (norm_pos c). pose proof (norm_pos (minus a' a)). pose proof (norm_pos (minus c' c)).
    assert (norm (minus a' a) * norm c <= h * norm c) by (apply Rmult_le_compat_r; assumption).
    assert (norm a * norm (minus c' c) <= norm a * h) by (apply Rmult_le_compat_l; assumption).
    assert (norm (minus a' a) * norm (minus c' c) <= h * h) by (apply Rmult_le_compat; assumption). lra. }
  pose proof (abs_inner n D) as B. rewrite N1, Rmult_1_l in B. apply Rabs_le_inv in B.
  replace (inner n (vplus (outer a c) D)) with (inner n (outer a c) + inner n D) by (unfold inner, vplus; cbn [vx vy vz]; ring). lra.
Qed.

Theorem wound_floats : forall tx e planes plane f d s r b xs, build_face O tx e planes plane = Ok f -> (forall q, In q (plane :: planes) -> grid_plane q) ->
  (Z.of_nat (length planes) <= 4000)%Z -> clear planes plane -> simple planes plane -> accurate_angle d (p_atan2 p) ->
  NoDup xs -> (forall x, In x xs <-> true_corner planes plane x) -> spread s r xs -> blurred b planes plane ->
  / 1000 <= s <= 1 -> d <= s / 3 -> (64 + 4 * INR (length xs)) * (b + / 10 ^ 20) <= s * r -> thick (4 * (b + / 10 ^ 20)) xs ->
  forall i j k v v' v'', (i < j)%nat -> (j < k)%nat ->
    nth_error (f_vertices f) i = Some v -> nth_error (f_vertices f) j = Some v' -> nth_error (f_vertices f) k = Some v'' ->
    clockwise (facing (plane_of plane)) (point_of (vt_pos v)) (point_of (vt_pos v')) (point_of (vt_pos v'')).
Proof.
  intros tx e planes plane f d s r b xs E G L CL SI AC ND T SP BL S0 Dd Small TH i j k v v' v'' Lij Ljk Hi Hj Hk.
  destruct (wound tx e planes plane f d s r b xs E G L CL SI AC ND T SP BL S0 Dd Small) as (ys & PXY & SH & CW).
  destruct (corners_c15 p tx e planes plane f E) as (raw & _ & _ & CS & M & _).
  destruct (corner_list p planes plane raw CS G CL SI) as (zs & H & NDz & IFF).
  assert (PX : Permutation xs zs) by (apply NoDup_Permutation; auto; intros x; rewrite T, IFF; reflexivity).
  assert (G0 : grid_plane plane) by (apply G; now left). pose proof eta_small as HE.
  assert (GET : forall m w, nth_error (f_vertices f) m = Some w -> exists x, nth_error ys m = Some x /\ shows planes plane (f_center f) w x).
  { clear -SH. induction SH as [|w x ws ys Q SH IH]; intros m w' Hm; [destruct m; discriminate|]. destruct m as [|m]; cbn in Hm |- *; [injection Hm as ->; eauto|auto]. }
  destruct (GET i v Hi) as (x & Xi & Sx). destruct (GET j v' Hj) as (y & Yj & Sy). destruct (GET k v'' Hk) as (z & Zk & Sz).
  pose proof (CW i j k x y z Lij Ljk Xi Yj Zk) as C.
  assert (Hin : forall m w, nth_error ys m = Some w -> In w xs) by (intros m w Hm; apply (Permutation_in _ (Permutation_sym PXY)); apply nth_error_In in Hm; exact Hm).
  assert (NDy : NoDup ys) by (apply (Permutation_NoDup PXY); exact ND).
  assert (Dif : forall m m' w w', m <> m' -> nth_error ys m = Some w -> nth_error ys m' = Some w' -> w <> w').
  { intros m m' w w' N A B ->. apply N. apply (proj1 (NoDup_nth_error ys) NDy); [apply nth_error_Some; congruence|congruence]. }
  assert (Ne : zs <> []) by (intros ->; apply Permutation_sym, Permutation_nil in PX; subst xs; destruct (Hin _ _ Xi)).
  assert (Hz : forall w, In w xs -> 0 <= b /\ norm w <= 524288 * b).
  { intros w Hw. apply (Permutation_in _ PX) in Hw. destruct (Forall2_right _ _ _ _ H Hw) as (rv & _ & OCx). destruct (corner_near planes plane b _ w G BL OCx) as (B0 & _ & _ & Nw). split; assumption. }
  destruct (Hz x (Hin _ _ Xi)) as [B0 _].
  assert (Ng : norm (average zs) <= 524288 * b) by (apply average_norm; [exact Ne|]; intros w Hw; apply Hz; apply (Permutation_in _ (Permutation_sym PX)); exact Hw).
  pose proof (centre_near planes plane b raw zs (f_center f) G L BL CS M H Ne) as Cn.
  assert (Kz : 0 <= INR (length zs) <= 16777216).
  { split; [apply pos_INR|]. assert (length raw = length zs) as <- by (clear -H; induction H; cbn; congruence). pose proof (raw_length p planes plane raw G CS).
    rewrite INR_IZR_INZ. apply (IZR_le _ 16777216). nia. }
  pose proof (minus_norm (point_of (f_center f)) (average zs)) as Nc. set (K := INR (length zs)) in *.
  assert (Kb : K * b <= 16777216 * b) by (apply Rmult_le_compat_r; lra).
  assert (SHB : forall w a, shows planes plane (f_center f) w a -> In a xs -> norm (minus (point_of (vt_pos w)) a) <= 2 * (b + / 10 ^ 20)).
  { intros w a (p1 & p2 & I1 & I2 & X & Nw) Ha. apply T in Ha. destruct Ha as [_ IN]. specialize (BL p1 p2 a I1 I2 X IN).
    replace (10 ^ 30) with 1000000000000000000000000000000 in * by ring. replace (10 ^ 20) with 100000000000000000000 by ring. replace (2 ^ 23) with 8388608 in * by ring. lra. }
  pose proof (SHB _ _ Sx (Hin _ _ Xi)) as Ex. pose proof (SHB _ _ Sy (Hin _ _ Yj)) as Ey. pose proof (SHB _ _ Sz (Hin _ _ Zk)) as Ez.
  specialize (TH x y z (Hin _ _ Xi) (Hin _ _ Yj) (Hin _ _ Zk) (Dif i j x y ltac:(lia) Xi Yj) (Dif j k y z ltac:(lia) Yj Zk) (Dif i k x z ltac:(lia) Xi Zk)).
  unfold clockwise in *. pose proof (norm_pos (facing (plane_of plane))) as FP. assert (FN : norm (facing (plane_of plane)) <> 0) by apply G0.
  assert (UN : forall a, inner (facing (plane_of plane)) a = norm (facing (plane_of plane)) * inner (normal_of plane) a).
  { intros a. unfold unit_along. set (FF := facing (plane_of plane)) in *. unfold inner, vscale. cbn [vx vy vz]. field. exact FN. }
  rewrite UN in *. set (nf := norm (facing (plane_of plane))) in *.
  assert (C' : inner (normal_of plane) (outer (minus y x) (minus z x)) < 0) by nra.
  assert (Fl : forall a, In a xs -> inner (normal_of plane) (minus a x) = 0).
  { intros a Ha. rewrite inner_minus_r, (corner_level planes plane xs G T a Ha), (corner_level planes plane xs G T x (Hin _ _ Xi)). ring. }
  destruct (frame_of plane G0) as (N1 & W1 & NW).
  pose proof (flat_outer (normal_of plane) (axis_of plane) N1 W1 NW (minus y x) (minus z x) (Fl _ (Hin _ _ Yj)) (Fl _ (Hin _ _ Zk))) as FO.
  rewrite flat_cr in FO by (auto; apply Fl; eauto). rewrite Rabs_left in FO by exact C'.
  assert (R : inner (normal_of plane) (outer (minus (point_of (vt_pos v')) (point_of (vt_pos v))) (minus (point_of (vt_pos v'')) (point_of (vt_pos v)))) < 0).
  { assert (MV : forall a a' c c' h, norm (minus a' a) <= h -> norm (minus c' c) <= h -> norm (minus (minus a' c') (minus a c)) <= 2 * h).
    { intros a a' c c' h A B. replace (minus (minus a' c') (minus a c)) with (vplus (minus a' a) (vscale (-1) (minus c' c))) by (unfold vplus, vscale, minus; cbn [vx vy vz]; f_equal; ring).
      eapply Rle_trans; [apply norm_triangle|]. rewrite norm_scale, Rabs_left by lra. lra. }
    apply (side_sign (norm (outer (minus y x) (minus z x))) (4 * (b + / 10 ^ 20)) (normal_of plane) (minus y x) (minus z x)).
    - apply grid_unit. exact G0.
    - replace (4 * (b + / 10 ^ 20)) with (2 * (2 * (b + / 10 ^ 20))) by ring. apply MV; assumption.
    - replace (4 * (b + / 10 ^ 20)) with (2 * (2 * (b + / 10 ^ 20))) by ring. apply MV; assumption.
    - exact TH.
    - lra. }
  assert (0 < nf) by lra. nra.
Qed.
End WithPlatform.
