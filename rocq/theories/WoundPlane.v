(** Directions of points known with an error (C105). *)
From Coq Require Import Reals Lra Psatz.
From Flocq Require Import Core.
From Verif Require Import WindProofs.
Local Open Scope R_scope.

Definition len (a : P2) : R := sqrt (dt a a).
Definition gap (a b : P2) : P2 := (fst a - fst b, snd a - snd b).
Lemma dt_pos : forall a, 0 <= dt a a.
Proof. intros [a b]. unfold dt. cbn. nra. Qed.
Lemma len_pos : forall a, 0 <= len a.
Proof. intros. apply sqrt_pos. Qed.
Lemma len_sq : forall a, len a * len a = dt a a.
Proof. intros. apply sqrt_sqrt, dt_pos. Qed.
Lemma sq_abs : forall x y, 0 <= y -> x * x <= y * y -> Rabs x <= y.
Proof. intros x y Y H. apply Rabs_le. nra. Qed.
Lemma cr_len : forall a b, Rabs (cr a b) <= len a * len b.
Proof.
  intros a b. apply sq_abs; [apply Rmult_le_pos; apply len_pos|].
  replace (len a * len b * (len a * len b)) with (dt a a * dt b b) by (rewrite <- !len_sq; ring). destruct a as [a a'], b as [b b']. pose proof (Rle_0_sqr (dt (a, a') (b, b'))) as H. unfold Rsqr, cr, dt in *. cbn [fst snd] in *. lra.
Qed.
Lemma dt_len : forall a b, Rabs (dt a b) <= len a * len b.
Proof.
  intros a b. apply sq_abs; [apply Rmult_le_pos; apply len_pos|].
  replace (len a * len b * (len a * len b)) with (dt a a * dt b b) by (rewrite <- !len_sq; ring). destruct a as [a a'], b as [b b']. pose proof (Rle_0_sqr (cr (a, a') (b, b'))) as H. unfold Rsqr, cr, dt in *. cbn [fst snd] in *. lra.
Qed.
Lemma len_near : forall a b e, len (gap a b) <= e -> len b - e <= len a <= len b + e.
Proof.
  intros a b e H. pose proof (len_pos a). pose proof (len_pos b). pose proof (len_pos (gap a b)).
  assert (S : forall x y, len y <= len x + len (gap x y)).
  { intros x y. apply Rsqr_incr_0; [|apply len_pos|pose proof (len_pos x); pose proof (len_pos (gap x y)); lra]. unfold Rsqr.
    replace ((len x + len (gap x y)) * (len x + len (gap x y))) with (dt x x + dt (gap x y) (gap x y) + 2 * (len x * len (gap x y))) by (rewrite <- !len_sq; ring).
    pose proof (dt_len x (gap x y)) as D. apply Rabs_le_inv in D. rewrite len_sq. destruct x, y. unfold dt, gap in *. cbn in *. lra. }
  pose proof (S a b). pose proof (S b a) as Q. replace (len (gap b a)) with (len (gap a b)) in Q; [lra|].
  unfold len. f_equal. destruct a, b. unfold dt, gap. cbn. ring.
Qed.

(** [a] shows [b] with an error of at most [k] times its length. *)
Definition around (k : R) (a b : P2) : Prop := len (gap a b) <= k * len b.
Lemma products : forall k a b x y, 0 <= k -> around k a x -> around k b y ->
  Rabs (cr a b - cr x y) <= (2 * k + k * k) * (len x * len y) /\ Rabs (dt a b - dt x y) <= (2 * k + k * k) * (len x * len y).
Proof.
  intros k a b x y K A B. unfold around in *. pose proof (len_pos x). pose proof (len_pos y). pose proof (len_pos (gap a x)). pose proof (len_pos (gap b y)).
  assert (P1 : len (gap a x) * len y <= k * (len x * len y)) by (rewrite <- Rmult_assoc; apply Rmult_le_compat_r; assumption).
  assert (P2' : len x * len (gap b y) <= k * (len x * len y)) by (replace (k * (len x * len y)) with (len x * (k * len y)) by ring; apply Rmult_le_compat_l; assumption).
  assert (P3 : len (gap a x) * len (gap b y) <= k * k * (len x * len y)) by (replace (k * k * (len x * len y)) with ((k * len x) * (k * len y)) by ring; apply Rmult_le_compat; assumption).
  split.
  - replace (cr a b - cr x y) with (cr (gap a x) y + cr x (gap b y) + cr (gap a x) (gap b y)) by (destruct a, b, x, y; unfold cr, gap; cbn; ring).
    pose proof (cr_len (gap a x) y). pose proof (cr_len x (gap b y)). pose proof (cr_len (gap a x) (gap b y)).
    eapply Rle_trans; [apply Rabs_triang|]. pose proof (Rabs_triang (cr (gap a x) y) (cr x (gap b y))). lra.
  - replace (dt a b - dt x y) with (dt (gap a x) y + dt x (gap b y) + dt (gap a x) (gap b y)) by (destruct a, b, x, y; unfold dt, gap; cbn; ring).
    pose proof (dt_len (gap a x) y). pose proof (dt_len x (gap b y)). pose proof (dt_len (gap a x) (gap b y)).
    eapply Rle_trans; [apply Rabs_triang|]. pose proof (Rabs_triang (dt (gap a x) y) (dt x (gap b y))). lra.
Qed.

(** ** Sines *)
Lemma sin_below : forall x, Rabs (sin x) <= Rabs x.
Proof.
  intros x. destruct (Rtotal_order x 0) as [H|[->|H]].
  - rewrite (Rabs_left x) by assumption. pose proof (sin_gt_x x H). pose proof (sin_lt_x (- x) ltac:(lra)) as S. rewrite sin_neg in S.
    destruct (Rle_dec (- x) PI).
    + apply Rabs_le. pose proof (sin_ge_0 (- x)) as G. rewrite sin_neg in G. lra.
    + pose proof (SIN_bound x). pose proof PI2_1. apply Rabs_le. lra.
  - rewrite sin_0. lra.
  - rewrite (Rabs_pos_eq x) by lra. pose proof (sin_lt_x x H). destruct (Rle_dec x PI).
    + apply Rabs_le. pose proof (sin_ge_0 x). lra.
    + pose proof (SIN_bound x). pose proof PI2_1. apply Rabs_le. lra.
Qed.
Lemma cos_above : forall x, 1 - x * x / 2 <= cos x.
Proof.
  intros x. replace x with (2 * (x / 2)) at 3 by field. rewrite cos_2a_sin. pose proof (sin_below (x / 2)) as S.
  pose proof (Rsqr_le_abs_1 _ _ S) as Q. unfold Rsqr in Q. nra.
Qed.
Lemma sin_above : forall x, 0 <= x <= 1 -> x - x * x * x / 6 <= sin x.
Proof.
  intros x H. destruct (pre_sin_bound x 0 ltac:(lra) ltac:(lra)) as [S _]. replace (x - x * x * x / 6) with (sin_approx x (2 * 0 + 1)); [exact S|].
  unfold sin_approx, sin_term. cbn. field.
Qed.

(** ** Angles *)
Definition polar_form (a : P2) (t : R) : Prop := exists r, 0 < r /\ fst a = r * cos t /\ snd a = r * sin t.
Lemma polar_len : forall a t, polar_form a t -> 0 < len a /\ fst a = len a * cos t /\ snd a = len a * sin t.
Proof.
  intros [a b] t (r & R0 & Ea & Eb). cbn [fst snd] in *. subst a b. assert (L : len (r * cos t, r * sin t) = r); [|rewrite L; auto].
  unfold len, dt. cbn [fst snd]. pose proof (sin2_cos2 t) as S. unfold Rsqr in S. replace (_ + _) with (r * r) by nra. apply sqrt_square. lra.
Qed.
Lemma polar_products : forall a b s t, polar_form a s -> polar_form b t -> 0 < len a /\ 0 < len b
  /\ cr a b = - (len a * len b * sin (s - t)) /\ dt a b = len a * len b * cos (s - t).
Proof.
  intros a b s t A B. apply polar_len in A, B. destruct A as (LA & A1 & A2), B as (LB & B1 & B2). split; [exact LA|]. split; [exact LB|].
  unfold cr, dt. rewrite A1, A2, B1, B2, sin_minus, cos_minus. split; ring.
Qed.

(** Seen from the origin, the points are apart by an angle of at least the arc sine of [s]. *)
Definition apart (s : R) (x y : P2) : Prop := dt x y <= 0 \/ s * (len x * len y) <= Rabs (cr x y).

Section Apart.
Context (s k : R) (S0 : 0 < s <= 1) (K0 : 0 <= k <= s / 16).
Lemma scaled_lens : forall a b x y, around k a x -> around k b y -> 225 / 256 * (len x * len y) <= len a * len b <= 289 / 256 * (len x * len y).
Proof.
  intros a b x y A B. apply len_near in A, B. pose proof (len_pos x). pose proof (len_pos y). pose proof (len_pos a). pose proof (len_pos b).
  assert (k * len x <= / 16 * len x) by (apply Rmult_le_compat_r; lra). assert (k * len y <= / 16 * len y) by (apply Rmult_le_compat_r; lra). split.
  - replace (225 / 256 * (len x * len y)) with ((15 / 16 * len x) * (15 / 16 * len y)) by field. apply Rmult_le_compat; lra.
  - replace (289 / 256 * (len x * len y)) with ((17 / 16 * len x) * (17 / 16 * len y)) by field. apply Rmult_le_compat; lra.
Qed.
Lemma k_small : 2 * k + k * k <= 33 / 256 * s.
Proof. nra. Qed.

Lemma apart_angle : forall a b x y t t', around k a x -> around k b y -> polar_form a t -> polar_form b t' -> apart s x y ->
  cos (t - t') <= 1 / 4 \/ 3 / 4 * s <= Rabs (sin (t - t')).
Proof.
  intros a b x y t t' A B PA PB AP. destruct (products k a b x y ltac:(lra) A B) as [C D]. pose proof (scaled_lens a b x y A B) as L. pose proof k_small as KS.
  destruct (polar_products a b t t' PA PB) as (LA & LB & EC & ED). rewrite EC in C. rewrite ED in D.
  pose proof (len_pos x). pose proof (len_pos y). assert (LL : 0 < len a * len b) by now apply Rmult_lt_0_compat.
  assert (Lxy : 0 < len x * len y) by lra. set (m := len a * len b) in *. set (q := len x * len y) in *.
  assert (KQ : (2 * k + k * k) * q <= 33 / 256 * s * q) by (apply Rmult_le_compat_r; lra).
  destruct AP as [AP|AP].
  - left. apply Rabs_le_inv in D. destruct (Rle_dec (cos (t - t')) (1 / 4)) as [|N]; [assumption|exfalso].
    assert (1 / 4 * m < m * cos (t - t')) by nra. assert (33 / 256 * s * q <= 33 / 256 * 1 * q) by (apply Rmult_le_compat_r; lra). lra.
  - right. destruct (Rle_dec (3 / 4 * s) (Rabs (sin (t - t')))) as [|N]; [assumption|exfalso].
    fold q in AP. pose proof (Rabs_triang_inv (cr x y) (cr x y - - (m * sin (t - t')))) as T.
    replace (cr x y - (cr x y - - (m * sin (t - t')))) with (- (m * sin (t - t'))) in T by ring. rewrite Rabs_Ropp, Rabs_mult, (Rabs_pos_eq m) in T by lra.
    rewrite (Rabs_minus_sym (cr x y) _) in T. fold q in C.
    assert (m * Rabs (sin (t - t')) <= 289 / 256 * q * (3 / 4 * s)) by (apply Rmult_le_compat; [lra|apply Rabs_pos|lra|lra]). nra.
Qed.

Lemma far_turn : forall t, cos t <= 1 / 4 \/ 3 / 4 * s <= Rabs (sin t) -> 3 / 4 * s <= Rabs t.
Proof.
  intros t [H|H]; [|eapply Rle_trans; [exact H|apply sin_below]].
  destruct (Rle_dec (3 / 4 * s) (Rabs t)) as [|N]; [assumption|exfalso]. pose proof (cos_above t). pose proof (Rabs_pos t).
  assert (t * t <= 9 / 16); [|lra]. replace (t * t) with (Rabs t * Rabs t) by (rewrite <- Rabs_mult; apply Rabs_pos_eq; nra).
  replace (9 / 16) with (3 / 4 * (3 / 4)) by field. apply Rmult_le_compat; lra.
Qed.

Lemma turn_between : forall t, cos t <= 1 / 4 \/ 3 / 4 * s <= Rabs (sin t) -> - (3 / 4 * s) < t <= 2 * PI -> 3 / 4 * s <= t <= 2 * PI - 3 / 4 * s.
Proof.
  intros t H R. split.
  - pose proof (far_turn t H) as F. destruct (Rle_dec 0 t); [rewrite Rabs_pos_eq in F by assumption|rewrite Rabs_left in F by lra]; lra.
  - assert (H' : cos (2 * PI - t) <= 1 / 4 \/ 3 / 4 * s <= Rabs (sin (2 * PI - t))).
    { rewrite cos_minus, sin_minus, cos_2PI, sin_2PI, !Rmult_0_l, !Rmult_1_l, Rplus_0_r, Rminus_0_l, Rabs_Ropp. exact H. }
    apply far_turn in H'. rewrite Rabs_pos_eq in H' by lra. lra.
Qed.

Lemma sin_between : forall t, 3 / 4 * s <= t <= PI - 3 / 8 * s -> 9 / 25 * s <= sin t.
Proof.
  intros t H. pose proof PI2_1. assert (L : 9 / 25 * s <= sin (3 / 8 * s)).
  { pose proof (sin_above (3 / 8 * s) ltac:(lra)) as A. eapply Rle_trans; [|exact A]. assert (s * s * s <= s) by nra. lra. }
  eapply Rle_trans; [exact L|]. destruct (Rle_dec t (PI / 2)) as [Q|Q].
  - apply sin_incr_1; lra.
  - rewrite <- (sin_PI_x t). apply sin_incr_1; lra.
Qed.

Lemma turn_clockwise : forall a b x y t t' w, around k a x -> around k b y -> polar_form a t -> polar_form b t' ->
  sin (t - t') = sin w -> 3 / 4 * s <= w <= PI - 3 / 8 * s -> cr x y < 0.
Proof.
  intros a b x y t t' w A B PA PB W H. destruct (products k a b x y ltac:(lra) A B) as [C _]. pose proof (scaled_lens a b x y A B) as L. pose proof k_small as KS.
  destruct (polar_products a b t t' PA PB) as (LA & LB & EC & _). rewrite EC, W in C. apply sin_between in H. apply Rabs_le_inv in C.
  assert (LL : 0 < len a * len b) by now apply Rmult_lt_0_compat. assert (Lxy : 0 < len x * len y) by (pose proof (len_pos x); pose proof (len_pos y); nra).
  set (m := len a * len b) in *. set (q := len x * len y) in *.
  assert ((2 * k + k * k) * q <= 33 / 256 * s * q) by (apply Rmult_le_compat_r; lra).
  assert (225 / 256 * q * (9 / 25 * s) <= m * sin w) by (apply Rmult_le_compat; lra). assert (0 < s * q) by (apply Rmult_lt_0_compat; lra). lra.
Qed.

(** Of three points sorted by angle, two neighbouring turns at least are clockwise. *)
Theorem three_turns : forall a b c x y z t t' t'' d, around k a x -> around k b y -> around k c z ->
  polar_form a t -> polar_form b t' -> polar_form c t'' -> - PI <= t <= PI -> - PI <= t' <= PI -> - PI <= t'' <= PI ->
  apart s x y -> apart s y z -> apart s x z -> 0 <= d <= s / 3 -> t' - t <= 2 * d -> t'' - t' <= 2 * d -> t'' - t <= 2 * d ->
  (cr x y < 0 /\ cr y z < 0) \/ (cr y z < 0 /\ cr z x < 0) \/ (cr z x < 0 /\ cr x y < 0).
Proof.
  intros a b c x y z t t' t'' d A B C PA PB PC RA RB RC Sxy Syz Sxz D L1 L2 L3.
  pose proof (turn_between _ (apart_angle a b x y t t' A B PA PB Sxy) ltac:(lra)) as T1.
  pose proof (turn_between _ (apart_angle b c y z t' t'' B C PB PC Syz) ltac:(lra)) as T2.
  pose proof (turn_between _ (apart_angle a c x z t t'' A C PA PC Sxz) ltac:(lra)) as T3.
  assert (H1 : t - t' <= PI - 3 / 8 * s -> cr x y < 0) by (intros H; apply (turn_clockwise a b x y t t' (t - t')); auto; lra).
  assert (H2 : t' - t'' <= PI - 3 / 8 * s -> cr y z < 0) by (intros H; apply (turn_clockwise b c y z t' t'' (t' - t'')); auto; lra).
  assert (H3 : PI + 3 / 8 * s <= t - t'' -> cr z x < 0).
  { intros H. apply (turn_clockwise c a z x t'' t (2 * PI - (t - t''))); auto; [|lra].
    rewrite (sin_minus (2 * PI)), sin_2PI, cos_2PI. replace (t'' - t) with (- (t - t'')) by ring. rewrite sin_neg. ring. }
  destruct (Rle_dec (t - t') (PI - 3 / 8 * s)) as [Q1|Q1]; destruct (Rle_dec (t' - t'') (PI - 3 / 8 * s)) as [Q2|Q2].
  - left. auto.
  - right; right. split; [apply H3; lra|auto].
  - right; left. split; [auto|apply H3; lra].
  - exfalso. lra.
Qed.
End Apart.
