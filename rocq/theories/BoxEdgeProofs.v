(** Integer boxes are closed in single precision (C130). *)
From Coq Require Import Reals Lra Lia ZArith Permutation Sorted.
From Flocq Require Import Core BinarySingleNaN.
From Verif Require Import Prelude F32 Text MapModel GeoModel GatherSpec GeoSpec WindSpec WindProofs WoundPlane GatherProofs GeoProofs GeoFinal NumberSpec BaseProofs FloatProofs NumberProofs ColorProofs BoxSpec BoxProofs BoxFinal ExactProofs RealSpec ArithProofs ErrorSpec ErrorProofs ErrorFinal CornerSpec CornerProofs MeanSpec MeanProofs WoundSpec WoundProofs BoxEdgeSpec.
From Verif Require RealProofs.
Local Open Scope R_scope.

(** ** Four points around their middle *)
Definition neg2 (x : P2) : P2 := (- fst x, - snd x).
Lemma opposite_turn : forall x y z, (z = neg2 x \/ y = neg2 x \/ z = neg2 y) ->
  (cr x y < 0 /\ cr y z < 0) \/ (cr y z < 0 /\ cr z x < 0) \/ (cr z x < 0 /\ cr x y < 0) -> orient x y z < 0.
Proof.
  intros [a a'] [b b'] [c c'] H T. unfold orient, cr, neg2 in *. cbn [fst snd] in *.
  destruct H as [H|[H|H]]; injection H as -> ->; destruct T as [(A & B)|[(A & B)|(A & B)]]; lra.
Qed.

(** ** The corner seen from the centre *)
(** Twice the way from the middle of the side to a corner. *)
Definition arm (lo hi : vec3 Z) (s : box_side) (X : vec3 Z) : vec3 Z := zminus (ztimes 2 X) (side_center2 lo hi s).
Definition halved (k : vec3 Z) : vec3 R := vscale (/ 2) (reals k).
Lemma halves_point : forall v k, at_halves v k -> fins v /\ point_of v = halved k.
Proof.
  intros v k ((F1 & E1) & (F2 & E2) & (F3 & E3)). split; [split; [|split]; assumption|].
  unfold point_of, halved, vscale, reals. cbn [vx vy vz]. rewrite E1, E2, E3. f_equal; field.
Qed.
Lemma arm_local : forall p lo hi s rv c X, box lo hi -> In X (side_corners lo hi s) -> at_ints rv X -> at_halves c (side_center2 lo hi s) ->
  at_halves (v3_sub (f32_num p) rv c) (arm lo hi s X).
Proof.
  intros p lo hi s rv c X Bx HX A (C1 & C2 & C3). destruct (corner_inside lo hi s X s Bx HX) as [_ (B1 & B2 & B3)].
  pose proof (center_small lo hi s Bx) as (D1 & D2 & D3). apply halves_of in A. destruct A as (A1 & A2 & A3).
  split; [|split]; cbn [v3_sub arm zminus vx vy vz n_sub f32_num]; (apply half_sub; [assumption|assumption|cbn [ztimes vx vy vz] in *; lia]).
Qed.

(** An arm is an edge of the box each way, up or down. *)
Lemma flat_arms : forall a b r : Z, (0 < a -> 0 < b -> a <= r * b -> a * a - b * b <= 0 \/ a * a + b * b <= r * (2 * (a * b)))%Z.
Proof. intros a b r A B H. destruct (Z_le_gt_dec a b); [left; nia|right]. nia. Qed.
Lemma arms_apart : forall lo hi s X Y r, box lo hi -> slender r lo hi -> In X (side_corners lo hi s) -> In Y (side_corners lo hi s) -> X <> Y ->
  let x := arm lo hi s X in let y := arm lo hi s Y in
  zinner x x = zinner y y /\ (zinner x y <= 0 \/ zinner x x <= r * Z.abs (zinner (outward s) (zouter x y)))%Z.
Proof.
  intros [x y z] [x' y' z'] s X Y r (A & B & C & _) (R1 & R2 & R3 & R4 & R5 & R6) HX HY N. cbn [vx vy vz] in *.
  remember (x' - x)%Z as a eqn:Ea. remember (y' - y)%Z as b eqn:Eb. remember (z' - z)%Z as c eqn:Ec.
  assert (a0 : (0 < a)%Z) by lia. assert (b0 : (0 < b)%Z) by lia. assert (c0 : (0 < c)%Z) by lia.
  assert (x' = x + a)%Z by lia. assert (y' = y + b)%Z by lia. assert (z' = z + c)%Z by lia. subst x' y' z'. clear A B C Ea Eb Ec.
  pose proof (flat_arms a b r a0 b0 R1). pose proof (flat_arms b a r b0 a0 R2). pose proof (flat_arms b c r b0 c0 R3).
  pose proof (flat_arms c b r c0 b0 R4). pose proof (flat_arms a c r a0 c0 R5). pose proof (flat_arms c a r c0 a0 R6).
  pose proof (Z.mul_pos_pos a b a0 b0) as ab. pose proof (Z.mul_pos_pos b c b0 c0) as bc. pose proof (Z.mul_pos_pos a c a0 c0) as ac.
  pose proof (Z.mul_pos_pos a a a0 a0) as aa. pose proof (Z.mul_pos_pos b b b0 b0) as bb. pose proof (Z.mul_pos_pos c c c0 c0) as cc.
  destruct s; cbn [side_corners In vx vy vz] in HX, HY;
    repeat match goal with H : _ \/ _ |- _ => lazymatch type of H with (_ <= _)%Z \/ _ => fail | _ => destruct H as [H|H] end end;
    try contradiction; try congruence; subst X Y; clear N; cbn zeta; unfold arm, zinner; cbn [zminus ztimes side_center2 zouter outward vx vy vz].
  all: repeat match goal with |- context [(2 * ?u - ?v)%Z] => first [replace (2 * u - v)%Z with a by ring|replace (2 * u - v)%Z with (- a)%Z by ring|replace (2 * u - v)%Z with b by ring|replace (2 * u - v)%Z with (- b)%Z by ring|replace (2 * u - v)%Z with c by ring|replace (2 * u - v)%Z with (- c)%Z by ring|replace (2 * u - v)%Z with 0%Z by ring] end.
  all: split; [ring|].
  all: try (left; clear - aa bb cc; lia).
  all: match goal with |- context [Z.abs ?e] =>
      first [replace (Z.abs e) with (2 * (a * b))%Z by (clear - ab; lia)|replace (Z.abs e) with (2 * (b * c))%Z by (clear - bc; lia)|replace (Z.abs e) with (2 * (a * c))%Z by (clear - ac; lia)] end.
  all: clear - H H0 H1 H2 H3 H4; lia.
Qed.

Lemma arms_opposite : forall lo hi s X Y Z, box lo hi -> In X (side_corners lo hi s) -> In Y (side_corners lo hi s) -> In Z (side_corners lo hi s) ->
  X <> Y -> Y <> Z -> X <> Z -> arm lo hi s Z = ztimes (-1) (arm lo hi s X) \/ arm lo hi s Y = ztimes (-1) (arm lo hi s X) \/ arm lo hi s Z = ztimes (-1) (arm lo hi s Y).
Proof.
  intros [x y z] [x' y' z'] s X Y Z _ HX HY HZ N1 N2 N3.
  destruct s; cbn [side_corners In vx vy vz] in HX, HY, HZ;
    repeat match goal with H : _ \/ _ |- _ => destruct H as [H|H] end; try contradiction; subst X Y Z; try (exfalso; congruence); clear;
    unfold arm; cbn [zminus ztimes side_center2 vx vy vz];
    first [left; apply zext; cbn [zminus ztimes vx vy vz]; ring|right; left; apply zext; cbn [zminus ztimes vx vy vz]; ring|right; right; apply zext; cbn [zminus ztimes vx vy vz]; ring].
Qed.
Lemma arm_flat : forall lo hi s X, In X (side_corners lo hi s) -> zinner (outward s) (arm lo hi s X) = 0%Z.
Proof.
  intros [x y z] [x' y' z'] s X HX. destruct s; cbn [side_corners In vx vy vz] in HX; repeat (destruct HX as [<-|HX]); try contradiction;
    unfold arm, zinner; cbn [zminus ztimes side_center2 outward vx vy vz]; ring.
Qed.
Lemma arm_long : forall lo hi s X, box lo hi -> In X (side_corners lo hi s) -> (1 <= zinner (arm lo hi s X) (arm lo hi s X))%Z.
Proof.
  intros [x y z] [x' y' z'] s X (A & B & C & _) HX. cbn [vx vy vz] in *.
  destruct s; cbn [side_corners In vx vy vz] in HX; repeat (destruct HX as [<-|HX]); try contradiction;
    unfold arm, zinner; cbn [zminus ztimes side_center2 vx vy vz]; nia.
Qed.

(** ** One face *)
Section Face.
Context (p : platform) (lo hi : vec3 Z) (s : box_side) (k r : Z) (d : R) (plane : brush_plane f32).
Context (Bx : box lo hi) (Sl : slender r lo hi) (Rr : (1 <= r <= 40000)%Z) (Dd : d <= / (3 * IZR r)) (AC : accurate_angle d (p_atan2 p)).
Context (Hp : box_plane lo hi s k plane) (G : grid_plane plane).
Notation O := (f32_num p).
Notation n := (unit_along (facing (plane_of plane))).
Notation w := (unit_along (edge_of plane)).
Notation q X := (flat2 n w (halved (arm lo hi s X))).

Lemma facing_side : exists c, 0 < c /\ facing (plane_of plane) = vscale c (reals (outward s)).
Proof.
  destruct Hp as (a & b & c & m & m' & A & B & C & _ & _ & _ & _ & K & E & _). exists (IZR k). split; [now apply IZR_lt|].
  destruct A as ((_ & A1) & (_ & A2) & (_ & A3)), B as ((_ & B1) & (_ & B2) & (_ & B3)), C as ((_ & C1) & (_ & C2) & (_ & C3)).
  unfold facing, plane_of, point_of. cbn [bp_v0 bp_v1 bp_v2]. rewrite A1, A2, A3, B1, B2, B3, C1, C2, C3.
  unfold zouter, zminus, ztimes in E. cbn [vx vy vz] in E. injection E as E1 E2 E3.
  unfold outer, minus, vscale, reals. cbn [vx vy vz]. rewrite <- !minus_IZR, <- !mult_IZR, <- !minus_IZR, E1, E2, E3. reflexivity.
Qed.
Lemma normal_side : n = reals (outward s).
Proof.
  destruct facing_side as (c & C & E). rewrite E. unfold unit_along. rewrite norm_scale, Rabs_pos_eq by lra.
  assert (N : norm (reals (outward s)) = 1).
  { unfold norm. rewrite <- sqrt_1. f_equal. destruct s; unfold inner, reals; cbn; ring. }
  rewrite N. apply RealProofs.v3_ext; unfold vscale; cbn [vx vy vz]; field; lra.
Qed.

Lemma inner_reals : forall a b, inner (reals a) (reals b) = IZR (zinner a b).
Proof. intros a b. unfold inner, reals, zinner. cbn [vx vy vz]. now rewrite !plus_IZR, !mult_IZR. Qed.
Lemma inner_halved : forall a b, inner (halved a) (halved b) = IZR (zinner a b) / 4.
Proof. intros a b. rewrite <- inner_reals. unfold inner, halved, vscale. cbn [vx vy vz]. field. Qed.
Lemma halved_flat : forall X, In X (side_corners lo hi s) -> inner n (halved (arm lo hi s X)) = 0.
Proof.
  intros X HX. rewrite normal_side. replace (inner (reals (outward s)) (halved (arm lo hi s X))) with (/ 2 * inner (reals (outward s)) (reals (arm lo hi s X)))
    by (unfold inner, halved, vscale; cbn [vx vy vz]; ring). rewrite inner_reals, (arm_flat lo hi s X HX). lra.
Qed.
Lemma halved_turn : forall a b, inner n (outer (halved a) (halved b)) = IZR (zinner (outward s) (zouter a b)) / 4.
Proof.
  intros a b. rewrite normal_side, <- inner_reals. unfold inner, halved, vscale, outer, reals, zouter. cbn [vx vy vz]. rewrite !minus_IZR, !mult_IZR. field.
Qed.

Lemma corners_apart : forall X Y, In X (side_corners lo hi s) -> In Y (side_corners lo hi s) -> X <> Y -> apart (/ IZR r) (q X) (q Y).
Proof.
  intros X Y HX HY N. destruct (frame_of plane G) as (N1 & W1 & NW). assert (r0 : 1 <= IZR r) by (apply IZR_le; lia).
  pose proof (arms_apart lo hi s X Y r Bx Sl HX HY N) as A. cbn zeta in A. unfold apart.
  rewrite flat_dt, flat_cr, !flat_len by (auto using halved_flat). rewrite inner_halved, halved_turn. destruct A as [L [A|A]].
  - left. apply IZR_le in A. lra.
  - right. assert (E : norm (halved (arm lo hi s X)) * norm (halved (arm lo hi s Y)) = IZR (zinner (arm lo hi s X) (arm lo hi s X)) / 4).
    { unfold norm at 2. rewrite inner_halved, <- L, <- inner_halved. fold (norm (halved (arm lo hi s X))). rewrite norm_sq. reflexivity. }
    rewrite E. apply IZR_le in A. rewrite mult_IZR, abs_IZR in A. unfold Rdiv at 2. rewrite Rabs_mult, (Rabs_pos_eq (/ 4)) by lra.
    apply (Rmult_le_reg_l (IZR r)); [lra|]. rewrite <- Rmult_assoc, Rinv_r, Rmult_1_l by lra. lra.
Qed.

Definition aimed (sv : vertex f32) (X : vec3 Z) : Prop :=
  exists P t, around (/ IZR r / 16) P (q X) /\ polar_form P t /\ - PI <= t <= PI /\ NumberSpec.finite (angle_of O plane sv) /\ Rabs (val (angle_of O plane sv) - t) <= d.

Lemma corner_aimed : forall sv X, In X (side_corners lo hi s) -> at_halves (vt_pos sv) (arm lo hi s X) -> aimed sv X.
Proof.
  intros sv X HX A. apply halves_point in A. destruct A as [Fl El]. set (l := vt_pos sv) in *. set (y := halved (arm lo hi s X)) in *.
  destruct (axes_near p plane G) as (Fu & Bu & Nu & Eu & Fv & Bv & Nv & Ev). destruct (frame_of plane G) as (N1 & W1 & NW).
  assert (Ly : norm (minus (point_of l) y) <= 0).
  { rewrite El. replace (minus y y) with (V3 0 0 0) by (apply RealProofs.v3_ext; unfold minus; cbn [vx vy vz]; ring). unfold norm, inner. cbn [vx vy vz].
    replace (0 * 0 + 0 * 0 + 0 * 0) with 0 by ring. rewrite sqrt_0. lra. }
  assert (Bl : below B50 (point_of l)).
  { rewrite El. destruct (corner_inside lo hi s X s Bx HX) as [_ (B1 & B2 & B3)]. pose proof (center_small lo hi s Bx) as (E1 & E2 & E3).
    assert (Q : forall z, (Z.abs z <= 2 ^ 22)%Z -> Rabs (/ 2 * IZR z) <= B50).
    { intros z Hz. rewrite Rabs_mult, <- abs_IZR, (Rabs_pos_eq (/ 2)) by lra. apply IZR_le in Hz. change (IZR (2 ^ 22)) with 4194304 in Hz. unfold B50. lra. }
    unfold y, halved, vscale, below, reals, arm. cbn [zminus ztimes vx vy vz]. split; [|split]; apply Q; lia. }
  destruct (along_axis p l _ y w _ 5 Fl Bl Fu Bu Nu Eu Ly ltac:(lra)) as [F1 D1].
  destruct (along_axis p l _ y (outer n w) _ 14 Fl Bl Fv Bv Nv Ev Ly ltac:(lra)) as [F2 D2].
  set (P := (val (v3_dot O l (first_edge O plane)), val (v3_dot O l (second_axis O plane))) : P2).
  assert (Y0 : / 2 <= norm y).
  { pose proof (arm_long lo hi s X Bx HX) as A. apply IZR_le in A. unfold norm, y. rewrite inner_halved. rewrite <- (sqrt_square (/ 2)) by lra. apply sqrt_le_1_alt. lra. }
  pose proof eta_small as HE. assert (r0 : 1 <= IZR r <= 40000) by (split; apply IZR_le; lia).
  assert (s0 : / 40000 <= / IZR r) by (apply Rinv_le; lra).
  assert (AR : around (/ IZR r / 16) P (q X)).
  { unfold around. rewrite flat_len by auto using halved_flat. fold y.
    assert (LG : len (gap P (flat2 n w y)) <= Rabs (val (v3_dot O l (first_edge O plane)) - inner y w) + Rabs (val (v3_dot O l (second_axis O plane)) - inner y (outer n w))).
    { unfold P, flat2, gap, len, dt. cbn [fst snd]. set (a1 := _ - inner y w). set (a2 := _ - inner y (outer n w)). pose proof (Rabs_pos a1). pose proof (Rabs_pos a2).
      rewrite <- (sqrt_square (Rabs a1 + Rabs a2)) by lra. apply sqrt_le_1_alt.
      replace (a1 * a1) with (Rabs a1 * Rabs a1) by (rewrite <- Rabs_mult; apply Rabs_pos_eq; nra). replace (a2 * a2) with (Rabs a2 * Rabs a2) by (rewrite <- Rabs_mult; apply Rabs_pos_eq; nra). nra. }
    eapply Rle_trans; [exact LG|]. assert (/ 40000 / 16 * norm y <= / IZR r / 16 * norm y) by (apply Rmult_le_compat_r; lra). lra. }
  assert (NZ : val (v3_dot O l (first_edge O plane)) <> 0 \/ val (v3_dot O l (second_axis O plane)) <> 0).
  { destruct (Req_dec (val (v3_dot O l (first_edge O plane))) 0) as [Z1|Z1]; [|now left]. destruct (Req_dec (val (v3_dot O l (second_axis O plane))) 0) as [Z2|Z2]; [|now right].
    exfalso. unfold around in AR. apply len_near in AR. rewrite flat_len in AR by auto using halved_flat. fold y in AR.
    assert (len P = 0) by (unfold len, dt, P; cbn [fst snd]; rewrite Z1, Z2, Rmult_0_l, Rplus_0_l; apply sqrt_0).
    assert (/ IZR r <= 1) by (rewrite <- Rinv_1; apply Rinv_le; lra). assert (/ IZR r / 16 * norm y <= 1 / 16 * norm y) by (apply Rmult_le_compat_r; lra). lra. }
  destruct (AC (v3_dot O l (second_axis O plane)) (v3_dot O l (first_edge O plane))) as (Fa & rho & t & R0 & X' & Y' & Rt & Da); [exact F2|exact F1|exact NZ|].
  exists P, t. split; [exact AR|]. split; [exists rho; unfold P; cbn [fst snd]; auto|]. split; [exact Rt|]. split; [exact Fa|exact Da].
Qed.

Lemma aimed_turns : forall sx sy sz X Y Z, In X (side_corners lo hi s) -> In Y (side_corners lo hi s) -> In Z (side_corners lo hi s) -> X <> Y -> Y <> Z -> X <> Z ->
  aimed sx X -> aimed sy Y -> aimed sz Z ->
  not_above O (angle_of O plane sy) (angle_of O plane sx) -> not_above O (angle_of O plane sz) (angle_of O plane sy) -> not_above O (angle_of O plane sz) (angle_of O plane sx) ->
  turns s X Y Z.
Proof.
  intros sx sy sz X Y Z HX HY HZ Nxy Nyz Nxz (P1 & t1 & A1 & PF1 & R1 & F1 & D1) (P2 & t2 & A2 & PF2 & R2 & F2 & D2) (P3 & t3 & A3 & PF3 & R3 & F3 & D3) L1 L2 L3.
  assert (d0 : 0 <= d) by (pose proof (Rabs_pos (val (angle_of O plane sx) - t1)); lra).
  apply (finite_above p) in L1, L2, L3; try assumption. apply Rabs_le_inv in D1, D2, D3.
  destruct (frame_of plane G) as (N1 & W1 & NW). assert (r0 : 1 <= IZR r <= 40000) by (split; apply IZR_le; lia).
  assert (s0 : 0 < / IZR r <= 1) by (split; [apply Rinv_0_lt_compat; lra|rewrite <- Rinv_1; apply Rinv_le; lra]).
  assert (D0 : 0 <= d <= / IZR r / 3) by (split; [lra|]; replace (/ IZR r / 3) with (/ (3 * IZR r)) by (field; lra); lra).
  assert (TT : (cr (q X) (q Y) < 0 /\ cr (q Y) (q Z) < 0) \/ (cr (q Y) (q Z) < 0 /\ cr (q Z) (q X) < 0) \/ (cr (q Z) (q X) < 0 /\ cr (q X) (q Y) < 0)).
  { apply (three_turns (/ IZR r) (/ IZR r / 16) ltac:(lra) ltac:(lra) P1 P2 P3 (q X) (q Y) (q Z) t1 t2 t3 d); auto using corners_apart; lra. }
  assert (OP : forall A B, arm lo hi s B = ztimes (-1) (arm lo hi s A) -> q B = neg2 (q A)).
  { intros A B ->. unfold flat2, neg2, halved, vscale, inner, reals, ztimes. cbn [vx vy vz fst snd]. rewrite !mult_IZR. f_equal; ring. }
  assert (OR : orient (q X) (q Y) (q Z) < 0).
  { apply opposite_turn; [|exact TT]. destruct (arms_opposite lo hi s X Y Z Bx HX HY HZ Nxy Nyz Nxz) as [H|[H|H]]; auto. }
  unfold orient in OR. rewrite !flat_cr, !halved_turn in OR by auto using halved_flat.
  unfold turns. apply lt_IZR.
  assert (E : (zinner (outward s) (zouter (arm lo hi s X) (arm lo hi s Y)) + zinner (outward s) (zouter (arm lo hi s Y) (arm lo hi s Z)) + zinner (outward s) (zouter (arm lo hi s Z) (arm lo hi s X))
    = 4 * zinner (outward s) (zouter (zminus Y X) (zminus Z X)))%Z).
  { unfold arm, zinner, zouter, zminus, ztimes. cbn [vx vy vz]. ring. }
  apply (f_equal IZR) in E. rewrite !plus_IZR, mult_IZR in E. lra.
Qed.
End Face.

Definition in_turn (s : box_side) (ys : list (vec3 Z)) : Prop :=
  forall i j k X Y Z, (i < j)%nat -> (j < k)%nat -> nth_error ys i = Some X -> nth_error ys j = Some Y -> nth_error ys k = Some Z -> turns s X Y Z.

Theorem box_wound : forall p lo hi b s area plane r d tx e f, box lo hi -> box_brush p lo hi b -> box_plane lo hi s area plane -> exact_length p area ->
  slender r lo hi -> (1 <= r <= 40000)%Z -> d <= / (3 * IZR r) -> accurate_angle d (p_atan2 p) -> grid_plane plane ->
  build_face (f32_num p) tx e b plane = Ok f ->
  exists ys, Permutation ys (side_corners lo hi s) /\ Forall2 (fun v X => at_ints (vt_pos v) X) (f_vertices f) ys /\ in_turn s ys.
Proof.
  intros p lo hi b s k plane r d tx e f Bx Bb Hp Hk Sl Rr Dd AC G E. set (O := f32_num p).
  destruct (face_exact p lo hi b s k plane tx e f Bx Bb Hp Hk E) as (_ & HC & _).
  destruct (face_corners_built O (f32_eq_laws p) tx e b plane f E) as (raw & centred & sorted & M & C & F1 & P & F2 & W).
  destruct (raw_exact p lo hi b s k plane raw Bx Bb Hp Hk M) as (Xs & F & PX).
  assert (Hin : forall X, In X Xs -> In X (side_corners lo hi s)) by (intros X HX; apply (Permutation_in _ PX HX)).
  assert (G1 : Forall2 (fun v X => at_halves (vt_pos v) (arm lo hi s X) /\ In X (side_corners lo hi s)) centred Xs).
  { clear - F F1 Hin HC Bx. revert Xs F Hin. induction F1 as [|a a' l l' H F1 IH]; intros Xs F Hin; inv F; constructor.
    - split; [|apply Hin; now left]. destruct H as (-> & _). apply arm_local; auto. apply Hin. now left.
    - apply IH; [assumption|]. intros; apply Hin; now right. }
  destruct (Permutation_Forall2 P G1) as (ys & PY & G2). exists ys.
  assert (PYS : Permutation ys (side_corners lo hi s)) by (eapply Permutation_trans; [apply Permutation_sym; exact PY|exact PX]).
  split; [exact PYS|]. split.
  - pose proof (center_small lo hi s Bx) as (B1 & B2 & B3). destruct HC as (C1 & C2 & C3).
    clear - G2 F2 B1 B2 B3 C1 C2 C3 Bx. revert ys G2. induction F2 as [|a a' l l' H F2 IH]; intros ys G2; inv G2; constructor.
    + destruct H as (-> & _). match goal with A : _ /\ _ |- _ => destruct A as [(A1 & A2 & A3) HX] end. destruct (corner_inside lo hi s y s Bx HX) as [_ (D1 & D2 & D3)].
      apply halves_of. replace (ztimes 2 y) with (zplus (arm lo hi s y) (side_center2 lo hi s)) by (unfold arm; zring).
      split; [|split]; cbn [v3_add zplus vx vy vz n_add f32_num]; (apply half_add; [assumption|assumption|cbn [arm zminus ztimes vx vy vz]; lia]).
    + apply IH. assumption.
  - assert (AIM : forall sv X, at_halves (vt_pos sv) (arm lo hi s X) /\ In X (side_corners lo hi s) -> aimed p lo hi s r d plane sv X).
    { intros sv X (A & HX). eapply corner_aimed; eauto. }
    assert (W' : StronglySorted (fun a c => not_above O (angle_of O plane c) (angle_of O plane a)) sorted).
    { apply (W _ (f32_order p)). intros v Hv. destruct (Forall2_in_l _ _ _ _ _ _ G1 Hv) as (X & _ & Q).
      destruct (AIM v X Q) as (_ & _ & _ & _ & _ & Fa & _). intros Z. unfold O in Z. rewrite Z in Fa. destruct Fa as [_ Fa]; discriminate Fa. }
    assert (NDy : NoDup ys) by (apply (Permutation_NoDup (Permutation_sym PYS)), corners_nodup; exact Bx).
    assert (Dif : forall m m' v v', m <> m' -> nth_error ys m = Some v -> nth_error ys m' = Some v' -> v <> v').
    { intros m m' v v' N A B ->. apply N. apply (proj1 (NoDup_nth_error ys) NDy); [apply nth_error_Some; congruence|congruence]. }
    assert (GET : forall m v, nth_error ys m = Some v -> exists sv, nth_error sorted m = Some sv /\ at_halves (vt_pos sv) (arm lo hi s v) /\ In v (side_corners lo hi s)).
    { clear - G2. induction G2 as [|sv v0 l l' Q H2 IH]; intros m v Hm; [destruct m; discriminate|].
      destruct m as [|m]; cbn in Hm; [injection Hm as ->; exists sv; split; [reflexivity|exact Q]|]. exact (IH m v Hm). }
    intros i j l X Y Z Lij Ljk Hi Hj Hk'.
    destruct (GET i X Hi) as (sx & Gx & Dx). destruct (GET j Y Hj) as (sy & Gy & Dy). destruct (GET l Z Hk') as (sz & Gz & Dz).
    apply (aimed_turns p lo hi s k r d plane Bx Sl Rr Dd Hp G sx sy sz X Y Z); auto; try (apply AIM; assumption); try apply Dx; try apply Dy; try apply Dz.
    + apply (Dif i j); auto; lia.
    + apply (Dif j l); auto; lia.
    + apply (Dif i l); auto; lia.
    + apply (sorted_at _ _ sorted i j sx sy W'); auto.
    + apply (sorted_at _ _ sorted j l sy sz W'); auto.
    + apply (sorted_at _ _ sorted i l sx sz W'); auto; lia.
Qed.

(** ** The cycles of the sides *)
Definition ring4 {A} (l : list A) (a b : A) : Prop := exists i, nth_error l i = Some a /\ nth_error l (S i mod length l) = Some b.
Lemma ring4_four : forall A (w x y z a b : A), ring4 [w; x; y; z] a b <-> (a, b) = (w, x) \/ (a, b) = (x, y) \/ (a, b) = (y, z) \/ (a, b) = (z, w).
Proof.
  intros A w x y z a b. split.
  - intros (i & Ha & Hb). cbn [length] in Hb. destruct i as [|[|[|[|i]]]]; [..|destruct i; discriminate Ha]; cbn in Ha, Hb; injection Ha as <-; injection Hb as <-; tauto.
  - intros [H|[H|[H|H]]]; injection H as -> ->; [exists 0%nat|exists 1%nat|exists 2%nat|exists 3%nat]; split; reflexivity.
Qed.

Lemma turns_turn : forall s a b c, turns s a b c -> turns s b c a.
Proof. intros s a b c H. unfold turns in *. replace (zinner (outward s) (zouter (zminus c b) (zminus a b))) with (zinner (outward s) (zouter (zminus b a) (zminus c a))); [exact H|]. unfold zinner, zouter, zminus. cbn [vx vy vz]. ring. Qed.
Lemma turns_flip : forall s a b c, turns s a b c -> ~ turns s a c b.
Proof.
  intros s a b c H H'. unfold turns in *. assert (E : zinner (outward s) (zouter (zminus b a) (zminus c a)) = (- zinner (outward s) (zouter (zminus c a) (zminus b a)))%Z); [|lia].
  unfold zinner, zouter, zminus. cbn [vx vy vz]. ring.
Qed.
Lemma four_list : forall A (l : list A), length l = 4%nat -> exists w x y z, l = [w; x; y; z].
Proof. intros A l H. destruct l as [|w [|x [|y [|z [|? ?]]]]]; try discriminate. eauto. Qed.

Lemma ring_turns : forall s l a b c, length l = 4%nat -> in_turn s l -> ring4 l a b -> In c l -> c = a \/ c = b \/ turns s a b c.
Proof.
  intros s l a b c L T H I. destruct (four_list _ l L) as (w & x & y & z & ->).
  assert (T1 : turns s w x y) by (apply (T 0 1 2)%nat; auto; lia). assert (T2 : turns s w x z) by (apply (T 0 1 3)%nat; auto; lia).
  assert (T3 : turns s w y z) by (apply (T 0 2 3)%nat; auto; lia). assert (T4 : turns s x y z) by (apply (T 1 2 3)%nat; auto; lia).
  apply ring4_four in H. destruct H as [H|[H|[H|H]]]; injection H as -> ->; destruct I as [<-|[<-|[<-|[<-|[]]]]]; auto; right; right; auto using turns_turn.
Qed.
Lemma ring_next : forall A (l : list A) a, length l = 4%nat -> In a l -> exists b, ring4 l a b /\ In b l.
Proof.
  intros A l a L I. destruct (four_list _ l L) as (w & x & y & z & ->).
  destruct I as [<-|[<-|[<-|[<-|[]]]]]; [exists x|exists y|exists z|exists w]; (split; [apply ring4_four; tauto|cbn; tauto]).
Qed.
Lemma ring_in : forall A (l : list A) a b, ring4 l a b -> In a l /\ In b l.
Proof. intros A l a b (i & Ha & Hb). apply nth_error_In in Ha, Hb. auto. Qed.
Lemma ring_differs : forall A (l : list A) a b, NoDup l -> length l = 4%nat -> ring4 l a b -> a <> b.
Proof.
  intros A l a b N L (i & Ha & Hb) ->. rewrite L in Hb. assert (Li : (i < 4)%nat) by (rewrite <- L; apply nth_error_Some; congruence).
  assert (E : i = (S i mod 4)%nat) by (apply (proj1 (NoDup_nth_error l) N); [lia|congruence]). destruct i as [|[|[|[|i]]]]; cbn in E; lia.
Qed.

(** Two ways of going round the same four points clockwise agree. *)
Lemma ring_same : forall s l l' a b, Permutation l l' -> NoDup l -> length l = 4%nat -> in_turn s l -> in_turn s l' -> ring4 l a b -> ring4 l' a b.
Proof.
  intros s l l' a b P N L T T' H. destruct (ring_in _ _ _ _ H) as [Ia Ib]. pose proof (Permutation_length P) as L'. rewrite L in L'. symmetry in L'.
  destruct (ring_next _ l' a L' (Permutation_in _ P Ia)) as (b' & H' & Ib'). pose proof (ring_differs _ _ _ _ N L H) as D.
  pose proof (ring_differs _ _ _ _ (Permutation_NoDup P N) L' H') as D'.
  destruct (ring_turns s l' a b' b L' T' H' (Permutation_in _ P Ib)) as [E|[E|E]]; [congruence|subst b'; exact H'|].
  destruct (ring_turns s l a b b' L T H (Permutation_in _ (Permutation_sym P) Ib')) as [E'|[E'|E']]; [congruence|subst b'; exact H'|].
  exfalso. exact (turns_flip _ _ _ _ E E').
Qed.

Definition cycle4 (lo hi : vec3 Z) (s : box_side) : list (vec3 Z) :=
  match s with
  | XUp => [V3 (vx hi) (vy lo) (vz lo); V3 (vx hi) (vy lo) (vz hi); V3 (vx hi) (vy hi) (vz hi); V3 (vx hi) (vy hi) (vz lo)]
  | XDown => [V3 (vx lo) (vy lo) (vz lo); V3 (vx lo) (vy hi) (vz lo); V3 (vx lo) (vy hi) (vz hi); V3 (vx lo) (vy lo) (vz hi)]
  | YUp => [V3 (vx lo) (vy hi) (vz lo); V3 (vx hi) (vy hi) (vz lo); V3 (vx hi) (vy hi) (vz hi); V3 (vx lo) (vy hi) (vz hi)]
  | YDown => [V3 (vx lo) (vy lo) (vz lo); V3 (vx lo) (vy lo) (vz hi); V3 (vx hi) (vy lo) (vz hi); V3 (vx hi) (vy lo) (vz lo)]
  | ZUp => [V3 (vx lo) (vy lo) (vz hi); V3 (vx lo) (vy hi) (vz hi); V3 (vx hi) (vy hi) (vz hi); V3 (vx hi) (vy lo) (vz hi)]
  | ZDown => [V3 (vx lo) (vy lo) (vz lo); V3 (vx hi) (vy lo) (vz lo); V3 (vx hi) (vy hi) (vz lo); V3 (vx lo) (vy hi) (vz lo)]
  end.
Lemma cycle_length : forall lo hi s, length (cycle4 lo hi s) = 4%nat.
Proof. intros lo hi []; reflexivity. Qed.
Lemma cycle_turn : forall lo hi s, box lo hi -> in_turn s (cycle4 lo hi s).
Proof.
  intros [x y z] [x' y' z'] s (A & B & C & _) i j k X Y Z Lij Ljk HX HY HZ. cbn [vx vy vz] in *.
  assert (k < 4)%nat by (rewrite <- (cycle_length (V3 x y z) (V3 x' y' z') s); apply nth_error_Some; congruence).
  assert (D : (i, j, k) = (0, 1, 2)%nat \/ (i, j, k) = (0, 1, 3)%nat \/ (i, j, k) = (0, 2, 3)%nat \/ (i, j, k) = (1, 2, 3)%nat).
  { destruct i as [|[|[|i]]], j as [|[|[|j]]], k as [|[|[|[|k]]]]; try lia; tauto. }
  destruct D as [D|[D|[D|D]]]; injection D as -> -> ->; destruct s; cbn in HX, HY, HZ; injection HX as <-; injection HY as <-; injection HZ as <-;
    unfold turns, zinner, zouter, zminus; cbn [outward vx vy vz]; nia.
Qed.
Lemma cycle_corners : forall lo hi s, Permutation (cycle4 lo hi s) (side_corners lo hi s).
Proof.
  intros lo hi []; cbn [cycle4 side_corners].
  - apply Permutation_trans with [V3 (vx hi) (vy lo) (vz lo); V3 (vx hi) (vy lo) (vz hi); V3 (vx hi) (vy hi) (vz lo); V3 (vx hi) (vy hi) (vz hi)]; [apply perm_skip, perm_skip, perm_swap|apply perm_skip, perm_swap].
  - apply perm_skip, perm_skip, perm_swap.
  - apply perm_skip, perm_skip, perm_swap.
  - apply Permutation_trans with [V3 (vx lo) (vy lo) (vz lo); V3 (vx lo) (vy lo) (vz hi); V3 (vx hi) (vy lo) (vz lo); V3 (vx hi) (vy lo) (vz hi)]; [apply perm_skip, perm_skip, perm_swap|apply perm_skip, perm_swap].
  - apply Permutation_trans with [V3 (vx lo) (vy lo) (vz hi); V3 (vx lo) (vy hi) (vz hi); V3 (vx hi) (vy lo) (vz hi); V3 (vx hi) (vy hi) (vz hi)]; [apply perm_skip, perm_skip, perm_swap|apply perm_skip, perm_swap].
  - apply perm_skip, perm_skip, perm_swap.
Qed.
Lemma cycle_shared : forall lo hi s a b, ring4 (cycle4 lo hi s) a b -> exists t, ring4 (cycle4 lo hi t) b a.
Proof.
  intros lo hi s a b H.
  assert (S : forall t, (In (b, a) (let l := cycle4 lo hi t in match l with [w; x; y; z] => [(w, x); (x, y); (y, z); (z, w)] | _ => [] end)) -> ring4 (cycle4 lo hi t) b a).
  { intros t I. destruct t; cbn [cycle4] in *; apply ring4_four; cbn [In] in I; intuition congruence. }
  destruct s; cbn [cycle4] in H; apply ring4_four in H; destruct H as [H|[H|[H|H]]]; injection H as -> ->.
  all: first [exists XUp; apply S; cbn [cycle4 In]; tauto|exists XDown; apply S; cbn [cycle4 In]; tauto|exists YUp; apply S; cbn [cycle4 In]; tauto
    |exists YDown; apply S; cbn [cycle4 In]; tauto|exists ZUp; apply S; cbn [cycle4 In]; tauto|exists ZDown; apply S; cbn [cycle4 In]; tauto].
Qed.
Lemma cycle_once : forall lo hi s t a b, box lo hi -> ring4 (cycle4 lo hi s) a b -> ring4 (cycle4 lo hi t) a b -> s = t.
Proof.
  intros [x y z] [x' y' z'] s t a b (A & B & C & _) H H'. cbn [vx vy vz] in *.
  destruct s, t; try reflexivity; exfalso; cbn [cycle4 vx vy vz] in H, H'; apply ring4_four in H; apply ring4_four in H';
    destruct H as [H|[H|[H|H]]]; destruct H' as [H'|[H'|[H'|H']]]; rewrite H in H'; injection H'; intros; lia.
Qed.

(** ** The brush *)
Lemma at_ints_same : forall v a b, at_ints v a -> at_ints v b -> a = b.
Proof.
  intros v a b ((_ & A1) & (_ & A2) & (_ & A3)) ((_ & B1) & (_ & B2) & (_ & B3)). apply zext; apply eq_IZR; congruence.
Qed.
Lemma nth_both : forall (l : list (vertex f32)) ys, Forall2 (fun v X => at_ints (vt_pos v) X) l ys ->
  forall i, (forall v, nth_error l i = Some v -> exists X, nth_error ys i = Some X /\ at_ints (vt_pos v) X)
    /\ forall X, nth_error ys i = Some X -> exists v, nth_error l i = Some v /\ at_ints (vt_pos v) X.
Proof.
  intros l ys F. induction F as [|v X l ys H F IH]; intros [|i]; (split; [intros v' E|intros X' E]); try discriminate E; cbn in E.
  - injection E as <-. exists X. auto.
  - injection E as <-. exists v. auto.
  - exact (proj1 (IH i) _ E).
  - exact (proj2 (IH i) _ E).
Qed.
Lemma runs_ring : forall f ys a b, Forall2 (fun v X => at_ints (vt_pos v) X) (f_vertices f) ys -> runs f a b <-> ring4 ys a b.
Proof.
  intros f ys a b F. pose proof (Forall2_length _ _ _ _ _ F) as L. pose proof (nth_both _ _ F) as N. split.
  - intros (i & v & v' & Hv & Hv' & A & B). exists i. destruct (proj1 (N i) v Hv) as (X & HX & AX). destruct (proj1 (N _) v' Hv') as (Y & HY & AY).
    rewrite (at_ints_same _ _ _ A AX), (at_ints_same _ _ _ B AY), <- L. auto.
  - intros (i & Ha & Hb). destruct (proj2 (N i) a Ha) as (v & Hv & A). destruct (proj2 (N _) b Hb) as (v' & Hv' & B). exists i, v, v'. rewrite L. auto.
Qed.

Theorem box_edges : forall p lo hi b s area plane r d tx e f, box lo hi -> box_brush p lo hi b -> box_plane lo hi s area plane -> exact_length p area ->
  slender r lo hi -> (1 <= r <= 40000)%Z -> d <= / (3 * IZR r) -> accurate_angle d (p_atan2 p) -> grid_plane plane ->
  build_face (f32_num p) tx e b plane = Ok f -> length (f_vertices f) = 4%nat /\ forall x y, runs f x y <-> ring4 (cycle4 lo hi s) x y.
Proof.
  intros p lo hi b s k plane r d tx e f Bx Bb Hp Hk Sl Rr Dd AC G E.
  destruct (box_wound p lo hi b s k plane r d tx e f Bx Bb Hp Hk Sl Rr Dd AC G E) as (ys & P & F & T).
  assert (PC : Permutation ys (cycle4 lo hi s)) by (eapply Permutation_trans; [exact P|apply Permutation_sym, cycle_corners]).
  assert (L : length ys = 4%nat) by (rewrite (Permutation_length PC); apply cycle_length).
  assert (N : NoDup ys) by (apply (Permutation_NoDup (Permutation_sym P)), corners_nodup; exact Bx).
  split; [rewrite (Forall2_length _ _ _ _ _ F); exact L|]. intros x y. rewrite (runs_ring f ys x y F). pose proof (cycle_turn lo hi s Bx) as TC. split.
  - apply (ring_same s); assumption.
  - apply (ring_same s); auto using Permutation_sym, cycle_length. apply (Permutation_NoDup PC N).
Qed.

Theorem box_closed : forall p lo hi b sides r d tx e, box lo hi ->
  Forall2 (fun pl s => exists area, box_plane lo hi s area pl /\ exact_length p area) b sides -> Permutation sides all_sides ->
  (forall pl, In pl b -> grid_plane pl) -> slender r lo hi -> (1 <= r <= 40000)%Z -> d <= / (3 * IZR r) -> accurate_angle d (p_atan2 p) ->
  exists g, build_brush (f32_num p) tx e b = Ok g /\ length (bg_faces g) = 6%nat
    /\ (forall f, In f (bg_faces g) -> length (f_vertices f) = 4%nat)
    /\ (forall f x y, In f (bg_faces g) -> runs f x y -> exists f', In f' (bg_faces g) /\ runs f' y x)
    /\ (forall i j f f' x y, nth_error (bg_faces g) i = Some f -> nth_error (bg_faces g) j = Some f' -> runs f x y -> runs f' x y -> i = j).
Proof.
  intros p lo hi b sides r d tx e Bx F P Gr Sl Rr Dd AC. destruct (brush_exact p lo hi b sides tx e Bx F P) as (g & E & L & _). exists g. split; [exact E|]. split; [exact L|].
  assert (Bb : box_brush p lo hi b).
  { split.
    - intros pl Hpl. destruct (Forall2_in_l _ _ _ _ _ _ F Hpl) as (s & _ & k & H). eauto.
    - intros s. assert (Hs : In s sides) by (apply (Permutation_in _ (Permutation_sym P)); destruct s; cbn; tauto).
      destruct (Forall2_in_r _ _ _ _ _ _ F Hs) as (pl & Hpl & k & H). exists pl, k. tauto. }
  assert (FS : Forall2 (fun f s => length (f_vertices f) = 4%nat /\ forall x y, runs f x y <-> ring4 (cycle4 lo hi s) x y) (bg_faces g) sides).
  { unfold build_brush in E. apply bind_ok in E. destruct E as (fs & Ef & E). injection E as <-. cbn [bg_faces]. apply mapM_ok in Ef.
    assert (Q : forall l, incl l b -> Forall2 (fun pl f => build_face (f32_num p) tx e b pl = Ok f) l fs ->
      Forall2 (fun pl s => exists k, box_plane lo hi s k pl /\ exact_length p k) l sides ->
      Forall2 (fun f s => length (f_vertices f) = 4%nat /\ forall x y, runs f x y <-> ring4 (cycle4 lo hi s) x y) fs sides).
    { clear - Bx Bb Gr Sl Rr Dd AC. intros l I H. revert sides I. induction H as [|pl f l fs E H IH]; intros sides I G; inv G; constructor.
      - match goal with A : exists k, _ |- _ => destruct A as (k & H1 & H2) end. apply (box_edges p lo hi b y k pl r d tx e f); auto. apply Gr, I. now left.
      - apply IH; [|assumption]. intros pl' Hp. apply I. now right. }
    apply (Q b); auto. apply incl_refl. }
  assert (ND : NoDup sides) by (apply (Permutation_NoDup (Permutation_sym P)); repeat constructor; cbn [In]; intuition discriminate).
  assert (Full : forall s, In s sides) by (intros s; apply (Permutation_in _ (Permutation_sym P)); destruct s; cbn; tauto).
  split; [|split].
  - intros f Hf. destruct (Forall2_in_l _ _ _ _ _ _ FS Hf) as (s & _ & Lf & _). exact Lf.
  - intros f x y Hf H. destruct (Forall2_in_l _ _ _ _ _ _ FS Hf) as (s & _ & _ & Q). apply Q in H. destruct (cycle_shared _ _ _ _ _ H) as (t & Ht).
    destruct (Forall2_in_r _ _ _ _ _ _ FS (Full t)) as (f' & Hf' & _ & Q'). exists f'. split; [exact Hf'|]. apply Q'. exact Ht.
  - intros i j f f' x y Hi Hj H H'.
    assert (At : forall i f, nth_error (bg_faces g) i = Some f -> exists s, nth_error sides i = Some s /\ forall x y, runs f x y <-> ring4 (cycle4 lo hi s) x y).
    { clear - FS. induction FS as [|f0 s l l' Q FS IH]; intros i f E; [destruct i; discriminate|]. destruct i as [|i]; cbn in E; [injection E as <-; exists s; split; [reflexivity|apply Q]|exact (IH i f E)]. }
    destruct (At i f Hi) as (s & Is & Q). destruct (At j f' Hj) as (t & It & Q'). apply Q in H. apply Q' in H'.
    assert (s = t) by exact (cycle_once lo hi s t x y Bx H H'). subst t. apply (proj1 (NoDup_nth_error sides) ND); [apply nth_error_Some; congruence|congruence].
Qed.
