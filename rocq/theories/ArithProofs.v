(** Arithmetic on numbers against the real numbers (C83). *)
From Coq Require Import Reals Lra SpecFloat.
From Flocq Require Import Core BinarySingleNaN.
From Verif Require Import Prelude F32 TextSpec NumberSpec BaseProofs FloatProofs NumberProofs.
Local Open Scope R_scope.

Lemma finite_bin' : forall x, finite x -> exists b : bin, x = B2SF b /\ is_finite b = true.
Proof. intros x H. apply fin_bin. now apply finite_fin. Qed.
Lemma sign_bin : forall b : bin, negative (B2SF b) = Bsign b.
Proof. intros [| | |]; reflexivity. Qed.
Lemma bin_finite : forall b : bin, is_finite b = true -> finite (B2SF b).
Proof. intros b H. apply finite_fin. now apply bin_fin. Qed.

(** From Flocq's form of correctness. *)
Lemma rounded_by : forall r z (b : bin),
  (Rabs (rnd32 r) < bpow radix2 128 -> B2R b = rnd32 r /\ is_finite b = true /\
     Bsign b = match Rcompare r 0 with Lt => true | Gt => false | Eq => z end) ->
  (bpow radix2 128 <= Rabs (rnd32 r) -> B2SF b = S754_infinity match Rcompare r 0 with Lt => true | Gt => false | Eq => z end) ->
  rounded r z (B2SF b).
Proof.
  intros r z b A B. split; rewrite nearest_rnd; intros L.
  - destruct (A L) as (V & F & Sg). split; [now apply bin_finite|]. split; [now rewrite val_bin|now rewrite sign_bin].
  - now apply B.
Qed.
Lemma rnd_zero : Rabs (rnd32 0) < bpow radix2 128.
Proof. rewrite round_0 by auto with typeclass_instances. rewrite Rabs_R0. apply bpow_gt_0. Qed.

(** Signs *)
Lemma sign_val : forall b : bin, is_finite b = true -> B2R b <> 0 -> Bsign b = match Rcompare (B2R b) 0 with Lt => true | _ => false end.
Proof.
  intros b F N. destruct b as [s|s| |s m e H]; try discriminate; [now elim N|]. cbn [Bsign].
  destruct s; cbn [B2R cond_Zopp].
  - rewrite Rcompare_Lt; [reflexivity|]. now apply F2R_lt_0.
  - rewrite Rcompare_Gt; [reflexivity|]. now apply F2R_gt_0.
Qed.
Lemma sign_neg : forall b : bin, is_finite b = true -> B2R b < 0 -> Bsign b = true.
Proof. intros b F L. rewrite sign_val by (auto; lra). now rewrite Rcompare_Lt. Qed.
Lemma sign_pos : forall b : bin, is_finite b = true -> 0 < B2R b -> Bsign b = false.
Proof. intros b F L. rewrite sign_val by (auto; lra). now rewrite Rcompare_Gt. Qed.

Theorem add_rounded : forall x y, finite x -> finite y -> rounded (val x + val y) (negative x && negative y) (f32_add x y).
Proof.
  intros x y Fx Fy. destruct (finite_bin' x Fx) as (a & -> & Fa). destruct (finite_bin' y Fy) as (b & -> & Fb).
  rewrite add_equiv, !val_bin, !sign_bin. pose proof (Bplus_correct 24 128 _ _ mode_NE a b Fa Fb) as C. apply rounded_by; intros L.
  - rewrite Rlt_bool_true in C by exact L. exact C.
  - rewrite Rlt_bool_false in C by exact L. destruct C as (-> & Sg). cbn. f_equal.
    destruct (Rcompare_spec (B2R a + B2R b) 0) as [K|K|K].
    + destruct (Bsign a) eqn:Sa; [reflexivity|]. exfalso. symmetry in Sg. destruct (Rlt_or_le (B2R a) 0) as [N|N]; [apply sign_neg in N; congruence|].
      assert (M : B2R b < 0) by lra. apply sign_neg in M; congruence.
    + rewrite K in L. pose proof rnd_zero. lra.
    + destruct (Bsign a) eqn:Sa; [|reflexivity]. exfalso. symmetry in Sg. destruct (Rlt_or_le 0 (B2R a)) as [N|N]; [apply sign_pos in N; congruence|].
      assert (M : 0 < B2R b) by lra. apply sign_pos in M; congruence.
Qed.
Theorem sub_rounded : forall x y, finite x -> finite y -> rounded (val x - val y) (negative x && negb (negative y)) (f32_sub x y).
Proof.
  intros x y Fx Fy. destruct (finite_bin' x Fx) as (a & -> & Fa). destruct (finite_bin' y Fy) as (b & -> & Fb).
  rewrite sub_equiv, !val_bin, !sign_bin. pose proof (Bminus_correct 24 128 _ _ mode_NE a b Fa Fb) as C. apply rounded_by; intros L.
  - rewrite Rlt_bool_true in C by exact L. exact C.
  - rewrite Rlt_bool_false in C by exact L. destruct C as (-> & Sg). cbn. f_equal.
    destruct (Rcompare_spec (B2R a - B2R b) 0) as [K|K|K].
    + destruct (Bsign a) eqn:Sa; [reflexivity|]. exfalso. symmetry in Sg. apply negb_false_iff in Sg.
      destruct (Rlt_or_le (B2R a) 0) as [N|N]; [apply sign_neg in N; congruence|].
      assert (M : 0 < B2R b) by lra. apply sign_pos in M; congruence.
    + rewrite K in L. pose proof rnd_zero. lra.
    + destruct (Bsign a) eqn:Sa; [|reflexivity]. exfalso. symmetry in Sg. apply negb_true_iff in Sg.
      destruct (Rlt_or_le 0 (B2R a)) as [N|N]; [apply sign_pos in N; congruence|].
      assert (M : B2R b < 0) by lra. apply sign_neg in M; congruence.
Qed.

(** The sign of a product or quotient. *)
Lemma xor_sign : forall (a b : bin) r, is_finite a = true -> is_finite b = true ->
  (0 < B2R a -> 0 < B2R b -> 0 < r) -> (0 < B2R a -> B2R b < 0 -> r < 0) -> (B2R a < 0 -> 0 < B2R b -> r < 0) -> (B2R a < 0 -> B2R b < 0 -> 0 < r) ->
  (B2R a = 0 -> r = 0) -> (B2R b = 0 -> r = 0) ->
  xorb (Bsign a) (Bsign b) = match Rcompare r 0 with Lt => true | Gt => false | Eq => xorb (Bsign a) (Bsign b) end.
Proof.
  intros a b r Fa Fb PP PN NP NN ZA ZB.
  destruct (Rtotal_order (B2R a) 0) as [A|[A|A]]; [|rewrite ZA by exact A; now rewrite Rcompare_Eq|];
    (destruct (Rtotal_order (B2R b) 0) as [B|[B|B]]; [|rewrite ZB by exact B; now rewrite Rcompare_Eq|]).
  - rewrite (sign_neg a), (sign_neg b), Rcompare_Gt by auto. reflexivity.
  - rewrite (sign_neg a), (sign_pos b), Rcompare_Lt by auto. reflexivity.
  - rewrite (sign_pos a), (sign_neg b), Rcompare_Lt by auto. reflexivity.
  - rewrite (sign_pos a), (sign_pos b), Rcompare_Gt by auto. reflexivity.
Qed.
Lemma finite_not_nan : forall b : bin, is_finite b = true -> is_nan b = false.
Proof. intros [| | |]; auto; discriminate. Qed.

Theorem mul_rounded : forall x y, finite x -> finite y -> rounded (val x * val y) (xorb (negative x) (negative y)) (f32_mul x y).
Proof.
  intros x y Fx Fy. destruct (finite_bin' x Fx) as (a & -> & Fa). destruct (finite_bin' y Fy) as (b & -> & Fb).
  rewrite mul_equiv, !val_bin, !sign_bin. pose proof (Bmult_correct 24 128 _ _ mode_NE a b) as C.
  assert (Xs : xorb (Bsign a) (Bsign b) = match Rcompare (B2R a * B2R b) 0 with Lt => true | Gt => false | Eq => xorb (Bsign a) (Bsign b) end).
  { apply xor_sign; auto; intros; try nra. }
  apply rounded_by; intros L; rewrite <- Xs.
  - rewrite Rlt_bool_true in C by exact L. destruct C as (V & F & Sg). rewrite Fa, Fb in F. split; [exact V|]. split; [exact F|].
    apply Sg. now apply finite_not_nan.
  - rewrite Rlt_bool_false in C by exact L. exact C.
Qed.
Theorem div_rounded : forall x y, finite x -> finite y -> val y <> 0 -> rounded (val x / val y) (xorb (negative x) (negative y)) (f32_div x y).
Proof.
  intros x y Fx Fy Ny. destruct (finite_bin' x Fx) as (a & -> & Fa). destruct (finite_bin' y Fy) as (b & -> & Fb).
  rewrite div_equiv, !sign_bin. rewrite !val_bin in *. pose proof (Bdiv_correct 24 128 _ _ mode_NE a b Ny) as C.
  assert (Xs : xorb (Bsign a) (Bsign b) = match Rcompare (B2R a / B2R b) 0 with Lt => true | Gt => false | Eq => xorb (Bsign a) (Bsign b) end).
  { apply xor_sign; auto; intros.
    - now apply Rdiv_lt_0_compat.
    - assert (/ B2R b < 0) by now apply Rinv_lt_0_compat. unfold Rdiv. nra.
    - assert (0 < / B2R b) by now apply Rinv_0_lt_compat. unfold Rdiv. nra.
    - assert (/ B2R b < 0) by now apply Rinv_lt_0_compat. unfold Rdiv. nra.
    - rewrite H. unfold Rdiv. ring.
    - contradiction. }
  apply rounded_by; intros L; rewrite <- Xs.
  - rewrite Rlt_bool_true in C by exact L. destruct C as (V & F & Sg). rewrite Fa in F. split; [exact V|]. split; [exact F|].
    apply Sg. now apply finite_not_nan.
  - rewrite Rlt_bool_false in C by exact L. exact C.
Qed.
Theorem sqrt_rounded : forall x, finite x -> 0 <= val x -> rounded (sqrt (val x)) (negative x) (f32_sqrt x).
Proof.
  intros x Fx P. destruct (finite_bin' x Fx) as (a & -> & Fa). rewrite sqrt_equiv, sign_bin. rewrite !val_bin in *.
  destruct (Bsqrt_correct 24 128 _ _ mode_NE a) as (V & F & Sg).
  assert (F' : is_finite (Bsqrt mode_NE a) = true).
  { rewrite F. destruct a as [s|s| |[|] m e H]; try discriminate; try reflexivity. exfalso. cbn [B2R cond_Zopp] in P.
    assert (F2R (Float radix2 (Z.neg m) e) < 0) by now apply F2R_lt_0. cbn in *. lra. }
  assert (Sg' : Bsign (Bsqrt mode_NE a) = match Rcompare (sqrt (B2R a)) 0 with Lt => true | Gt => false | Eq => Bsign a end).
  { rewrite Sg by now apply finite_not_nan. pose proof (sqrt_pos (B2R a)) as Q. destruct (Rcompare_spec (sqrt (B2R a)) 0) as [K|K|K]; [lra|reflexivity|].
    apply sign_pos; [exact Fa|]. destruct P as [P|P]; [exact P|]. rewrite <- P, sqrt_0 in K. lra. }
  apply rounded_by; intros L; [auto|]. exfalso. apply (Rle_not_lt _ _ L). change ZnearestE with (round_mode mode_NE). rewrite <- V. apply abs_B2R_lt_emax.
Qed.
Theorem of_N_rounded : forall n, rounded (IZR (Z.of_N n)) false (f32_of_N n).
Proof.
  intros n. unfold f32_of_N. rewrite binary_normalize_equiv. pose proof (binary_normalize_correct 24 128 _ _ mode_NE (Z.of_N n) 0 false) as C. cbv zeta in C.
  assert (E : F2R (Float radix2 (Z.of_N n) 0) = IZR (Z.of_N n)) by (unfold F2R; cbn [Fnum Fexp bpow]; ring). rewrite E in C.
  apply rounded_by; intros L.
  - rewrite Rlt_bool_true in C by exact L. exact C.
  - rewrite Rlt_bool_false in C by exact L. rewrite C. reflexivity.
Qed.
Theorem cmp_real : forall x y, finite x -> finite y -> f32_cmp x y = Some (Rcompare (val x) (val y)).
Proof.
  intros x y Fx Fy. destruct (finite_bin' x Fx) as (a & -> & Fa). destruct (finite_bin' y Fy) as (b & -> & Fb).
  rewrite !val_bin. exact (Bcompare_correct 24 128 a b Fa Fb).
Qed.

(** ** Conversion to integers *)
Theorem to_i32_real : forall x, finite x -> f32_to_i32 x = Z.max (-2147483648) (Z.min 2147483647 (Ztrunc (val x))).
Proof.
  intros x (_ & F). destruct x as [s|s| |s m e]; try discriminate F.
  - unfold val. cbn [SF2R]. now rewrite (Ztrunc_IZR 0).
  - cbn [f32_to_i32]. unfold clamp_i32. change i32_min with (-2147483648)%Z. change i32_max with 2147483647%Z. do 2 f_equal.
    rewrite val_finite. unfold F2R. cbn [Fnum Fexp]. destruct (0 <=? e)%Z eqn:E.
    + rewrite <- IZR_Zpower by lia. rewrite <- mult_IZR, Ztrunc_IZR. change (radix_val radix2) with 2%Z. destruct s; cbn [cond_Zopp]; ring.
    + replace (bpow radix2 e) with (/ IZR (2 ^ (- e))).
      * change (IZR (cond_Zopp s (Z.pos m)) * / IZR (2 ^ (- e))) with (IZR (cond_Zopp s (Z.pos m)) / IZR (2 ^ (- e))).
        assert (P : (0 < 2 ^ (- e))%Z) by (apply Z.pow_pos_nonneg; lia). rewrite Ztrunc_div by lia.
        destruct s; cbn [cond_Zopp].
        -- change (Z.neg m) with (- Z.pos m)%Z. rewrite Z.quot_opp_l by lia. f_equal. now rewrite Z.quot_div_nonneg by lia.
        -- now rewrite Z.quot_div_nonneg by lia.
      * change 2%Z with (radix_val radix2). rewrite IZR_Zpower by lia. rewrite <- bpow_opp. f_equal. lia.
Qed.

(** ** Sign changes *)
Theorem neg_real : forall x, finite x -> finite (f32_neg x) /\ val (f32_neg x) = - val x /\ negative (f32_neg x) = negb (negative x).
Proof.
  intros x (D & F). destruct x as [s|s| |s m e]; try discriminate F.
  - cbn. unfold val. cbn. split; [split; reflexivity|]. split; [ring|reflexivity].
  - split; [split; [exact D|reflexivity]|]. split; [|reflexivity]. cbn [f32_neg SFopp]. rewrite !val_finite, <- F2R_Zopp. f_equal. f_equal.
    now destruct s.
Qed.
Theorem abs_real : forall x, finite x -> finite (f32_abs x) /\ val (f32_abs x) = Rabs (val x) /\ negative (f32_abs x) = false.
Proof.
  intros x (D & F). destruct x as [s|s| |s m e]; try discriminate F.
  - cbn. unfold val. cbn. split; [split; reflexivity|]. split; [now rewrite Rabs_R0|reflexivity].
  - split; [split; [exact D|reflexivity]|]. split; [|reflexivity]. cbn [f32_abs SFabs]. rewrite !val_finite, <- F2R_Zabs.
    f_equal. f_equal. now destruct s.
Qed.
Lemma one_real : finite f32_one /\ val f32_one = 1 /\ negative f32_one = false.
Proof.
  split; [split; reflexivity|]. split; [|reflexivity].
  replace f32_one with (f32_of_N 1) by reflexivity. destruct (of_N_rounded 1) as (A & _).
  assert (E : nearest (IZR (Z.of_N 1)) = 1).
  { rewrite nearest_rnd. apply round_generic; auto with typeclass_instances. change (generic_format radix2 fexp32 (bpow radix2 0)).
    apply generic_format_bpow. now vm_compute. }
  rewrite E in A. destruct A as (_ & V & _); [|exact V]. rewrite Rabs_R1. change 1 with (bpow radix2 0). apply bpow_lt. reflexivity.
Qed.
Theorem signum_real : forall x, datum x -> x <> S754_nan ->
  finite (f32_signum x) /\ val (f32_signum x) = (if negative x then -1 else 1).
Proof.
  intros x D N. destruct one_real as (F1 & V1 & _). destruct (neg_real _ F1) as (F2 & V2 & _). rewrite V1 in V2.
  assert (G : forall s : bool, finite (if s then f32_neg f32_one else f32_one) /\ val (if s then f32_neg f32_one else f32_one) = (if s then -1 else 1))
    by (intros [|]; split; auto; lra).
  destruct x as [s|s| |s m e]; [exact (G s)|exact (G s)|congruence|exact (G s)].
Qed.

(** ** Infinities and NaN *)
Section Special.
Context (p : platform).
Local Notation O := (f32_num p).
Theorem nan_absorbs : forall x,
  n_add O S754_nan x = S754_nan /\ n_add O x S754_nan = S754_nan /\ n_sub O S754_nan x = S754_nan /\ n_sub O x S754_nan = S754_nan /\
  n_mul O S754_nan x = S754_nan /\ n_mul O x S754_nan = S754_nan /\ n_div O S754_nan x = S754_nan /\ n_div O x S754_nan = S754_nan /\
  n_neg O S754_nan = S754_nan /\ n_abs O S754_nan = S754_nan /\ n_sqrt O S754_nan = S754_nan /\ n_signum O S754_nan = S754_nan /\
  n_cmp O S754_nan x = None /\ n_cmp O x S754_nan = None.
Proof. intros x. cbn. destruct x as [s|s| |s m e]; repeat split; try (now destruct s). Qed.
Theorem infinite_pairs : forall s t,
  n_add O (S754_infinity s) (S754_infinity t) = (if Bool.eqb s t then S754_infinity s else S754_nan) /\
  n_sub O (S754_infinity s) (S754_infinity t) = (if Bool.eqb s t then S754_nan else S754_infinity s) /\
  n_mul O (S754_infinity s) (S754_infinity t) = S754_infinity (xorb s t) /\
  n_div O (S754_infinity s) (S754_infinity t) = S754_nan /\
  n_neg O (S754_infinity s) = S754_infinity (negb s) /\ n_abs O (S754_infinity s) = S754_infinity false /\
  n_sqrt O (S754_infinity s) = (if s then S754_nan else S754_infinity false) /\
  n_cmp O (S754_infinity s) (S754_infinity t) = Some (if s then (if t then Eq else Lt) else (if t then Gt else Eq)).
Proof. intros [|] [|]; repeat split. Qed.
Theorem infinite_finite : forall s x, finite x ->
  n_add O (S754_infinity s) x = S754_infinity s /\ n_add O x (S754_infinity s) = S754_infinity s /\
  n_sub O (S754_infinity s) x = S754_infinity s /\ n_sub O x (S754_infinity s) = S754_infinity (negb s) /\
  (val x <> 0 -> n_mul O (S754_infinity s) x = S754_infinity (xorb s (negative x)) /\ n_mul O x (S754_infinity s) = S754_infinity (xorb s (negative x))) /\
  (val x = 0 -> n_mul O (S754_infinity s) x = S754_nan /\ n_mul O x (S754_infinity s) = S754_nan) /\
  n_div O (S754_infinity s) x = S754_infinity (xorb s (negative x)) /\ n_div O x (S754_infinity s) = S754_zero (xorb s (negative x)) /\
  n_cmp O (S754_infinity s) x = Some (if s then Lt else Gt) /\ n_cmp O x (S754_infinity s) = Some (if s then Gt else Lt).
Proof.
  intros s x (_ & F). destruct x as [t|t| |t m e]; try discriminate F.
  - assert (Z : val (S754_zero t) = 0) by reflexivity. repeat split; try contradiction; destruct s, t; reflexivity.
  - pose proof (finite_nonzero t m e) as Z. repeat split; try contradiction; destruct s, t; reflexivity.
Qed.
Theorem zero_division : forall x z, finite x -> finite z -> val z = 0 ->
  n_div O x z = if Req_EM_T (val x) 0 then S754_nan else S754_infinity (xorb (negative x) (negative z)).
Proof.
  intros x z (_ & F) (_ & Fz) Vz. destruct z as [s|s| |s m e]; try discriminate Fz; [|now apply finite_nonzero in Vz].
  destruct x as [t|t| |t m e]; try discriminate F; destruct (Req_EM_T _ 0) as [Z|Z]; try reflexivity; [now elim Z|now apply finite_nonzero in Z].
Qed.
Theorem negative_root : forall x, datum x -> val x < 0 -> n_sqrt O x = S754_nan.
Proof.
  intros x D L. destruct x as [t|t| |t m e]; try (unfold val in L; cbn in L; lra). destruct t; [reflexivity|]. exfalso.
  rewrite val_finite in L. cbn [cond_Zopp] in L. assert (0 < F2R (Float radix2 (Z.pos m) e)) by now apply F2R_gt_0. lra.
Qed.
Theorem constants : rounded (/ 1000) false (n_eps O) /\ rounded (174533 / 10000000) false (n_degree O) /\ rounded (/ 100) false (n_centi O) /\
  n_zero O = S754_zero false /\ rounded 1 false (n_one O).
Proof.
  assert (G : forall m e r, IZR (Z.of_N m) * bpow radix10 e = r -> rounded r false (dec_to_f32 false m e)).
  { intros m e r <-. exact (dec_rounded false m e). }
  split; [|split; [|split; [|split]]]; [apply G; cbn; field..|reflexivity|]. 
  change (n_one O) with (f32_of_N 1). exact (of_N_rounded 1).
Qed.
End Special.

(** ** As fields of the record geometry is built with *)
Theorem operations : forall p x y, finite x -> finite y ->
  rounded (val x + val y) (negative x && negative y) (n_add (f32_num p) x y) /\
  rounded (val x - val y) (negative x && negb (negative y)) (n_sub (f32_num p) x y) /\
  rounded (val x * val y) (xorb (negative x) (negative y)) (n_mul (f32_num p) x y) /\
  (val y <> 0 -> rounded (val x / val y) (xorb (negative x) (negative y)) (n_div (f32_num p) x y)) /\
  (0 <= val x -> rounded (sqrt (val x)) (negative x) (n_sqrt (f32_num p) x)) /\
  n_cmp (f32_num p) x y = Some (Rcompare (val x) (val y)).
Proof.
  intros p x y X Y.
  exact (conj (add_rounded x y X Y) (conj (sub_rounded x y X Y) (conj (mul_rounded x y X Y)
    (conj (div_rounded x y X Y) (conj (sqrt_rounded x X) (cmp_real x y X Y)))))).
Qed.
Lemma finite_datum : forall x, finite x -> datum x /\ x <> S754_nan.
Proof. intros x (D & F). split; [exact D|]. now intros ->. Qed.
Theorem signs : forall p x, finite x ->
  (finite (n_neg (f32_num p) x) /\ val (n_neg (f32_num p) x) = - val x /\ negative (n_neg (f32_num p) x) = negb (negative x)) /\
  (finite (n_abs (f32_num p) x) /\ val (n_abs (f32_num p) x) = Rabs (val x) /\ negative (n_abs (f32_num p) x) = false) /\
  (finite (n_signum (f32_num p) x) /\ val (n_signum (f32_num p) x) = if negative x then -1 else 1).
Proof.
  intros p x X. split; [now apply neg_real|]. split; [now apply abs_real|]. destruct (finite_datum x X). now apply signum_real.
Qed.
Theorem conversions : forall p,
  (forall n, rounded (IZR (Z.of_N n)) false (n_of_N (f32_num p) n)) /\
  (forall x, finite x -> f32_to_i32 x = Z.max (-2147483648) (Z.min 2147483647 (Ztrunc (val x)))) /\
  f32_to_i32 S754_nan = 0%Z /\ f32_to_i32 (S754_infinity false) = 2147483647%Z /\ f32_to_i32 (S754_infinity true) = (-2147483648)%Z /\
  (forall s x, n_parse (f32_num p) s = Some x <-> float_text (p_modern_parse p) s x).
Proof. intros p. split; [exact of_N_rounded|]. split; [exact to_i32_real|]. do 3 (split; [reflexivity|]). intros s x. apply parse_f32_iff. Qed.
Theorem normalizing : forall p v, let O := f32_num p in
  let len := n_sqrt O (n_add O (n_add O (n_mul O (vx v) (vx v)) (n_mul O (vy v) (vy v))) (n_mul O (vz v) (vz v))) in
  let part := if p_simd p then (fun c => n_div O c len) else (fun c => n_mul O c (n_div O (n_one O) len)) in
  n_normalize O v = V3 (part (vx v)) (part (vy v)) (part (vz v)).
Proof. intros p v. cbv zeta. cbn. unfold normalize_with. destruct (p_simd p); reflexivity. Qed.
Theorem exceptions : forall p,
  (forall x z, finite x -> finite z -> val z = 0 ->
     n_div (f32_num p) x z = if Req_EM_T (val x) 0 then S754_nan else S754_infinity (xorb (negative x) (negative z))) /\
  (forall x, datum x -> val x < 0 -> n_sqrt (f32_num p) x = S754_nan).
Proof. intros p. split; [exact (zero_division p)|exact (negative_root p)]. Qed.
Lemma third : exists x y, finite x /\ finite y /\ val y <> 0 /\ 0 <= val x /\ datum x /\ x <> S754_nan /\
  f32_to_i32 (f32_add (f32_div x y) (f32_div x y)) = 0%Z /\ f32_same (f32_mul (f32_div x y) y) x = true.
Proof.
  exists f32_one, (f32_of_N 3). destruct one_real as (F1 & V1 & _).
  split; [exact F1|]. split; [split; reflexivity|].
  split; [change (f32_of_N 3) with (S754_finite false 12582912 (-22)); apply finite_nonzero|]. split; [rewrite V1; lra|].
  split; [apply F1|]. split; [discriminate|]. split; vm_compute; reflexivity.
Qed.
