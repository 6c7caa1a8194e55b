(** Rounding and exactness of the binary32 operations. *)
From Coq Require Import SpecFloat Reals Lra.
From Flocq Require Import Core BinarySingleNaN.
From Verif Require Import Prelude F32 BaseProofs FloatProofs ColorProofs.
Local Open Scope R_scope.

Lemma add_correct : forall x y, fin x -> fin y -> Rabs (rnd32 (val x + val y)) < bpow radix2 128 ->
  fin (f32_add x y) /\ val (f32_add x y) = rnd32 (val x + val y).
Proof.
  intros x y Hx Hy B. destruct (fin_bin x Hx) as (a & -> & Ha). destruct (fin_bin y Hy) as (b & -> & Hb).
  rewrite !val_bin in *. rewrite add_equiv.
  pose proof (Bplus_correct 24 128 prec24 emax128 mode_NE a b Ha Hb) as C.
  change (round_mode mode_NE) with ZnearestE in C. rewrite Rlt_bool_true in C by exact B.
  destruct C as (Hv & Hf & _). split; [apply bin_fin; exact Hf|rewrite val_bin; exact Hv].
Qed.

Lemma sub_correct : forall x y, fin x -> fin y -> Rabs (rnd32 (val x - val y)) < bpow radix2 128 ->
  fin (f32_sub x y) /\ val (f32_sub x y) = rnd32 (val x - val y).
Proof.
  intros x y Hx Hy B. destruct (fin_bin x Hx) as (a & -> & Ha). destruct (fin_bin y Hy) as (b & -> & Hb).
  rewrite !val_bin in *. rewrite sub_equiv.
  pose proof (Bminus_correct 24 128 prec24 emax128 mode_NE a b Ha Hb) as C.
  change (round_mode mode_NE) with ZnearestE in C. rewrite Rlt_bool_true in C by exact B.
  destruct C as (Hv & Hf & _). split; [apply bin_fin; exact Hf|rewrite val_bin; exact Hv].
Qed.

Lemma div_correct : forall x y, fin x -> fin y -> val y <> 0 -> Rabs (rnd32 (val x / val y)) < bpow radix2 128 ->
  fin (f32_div x y) /\ val (f32_div x y) = rnd32 (val x / val y).
Proof.
  intros x y Hx Hy Ny B. destruct (fin_bin x Hx) as (a & -> & Ha). destruct (fin_bin y Hy) as (b & -> & Hb).
  rewrite !val_bin in *. rewrite div_equiv.
  pose proof (Bdiv_correct 24 128 prec24 emax128 mode_NE a b Ny) as C.
  change (round_mode mode_NE) with ZnearestE in C. rewrite Rlt_bool_true in C by exact B.
  destruct C as (Hv & Hf & _). split; [apply bin_fin; rewrite Hf; exact Ha|rewrite val_bin; exact Hv].
Qed.

Lemma sqrt_correct : forall x, fin x -> 0 < val x ->
  fin (f32_sqrt x) /\ val (f32_sqrt x) = rnd32 (sqrt (val x)).
Proof.
  intros x Hx P. destruct (fin_bin x Hx) as (a & -> & Ha). rewrite !val_bin in *. rewrite sqrt_equiv.
  pose proof (Bsqrt_correct 24 128 prec24 emax128 mode_NE a) as C. change (round_mode mode_NE) with ZnearestE in C.
  destruct C as (Hv & Hf & _). split; [|rewrite val_bin; exact Hv]. apply bin_fin. rewrite Hf.
  destruct a as [s|s| |[] m e Hm]; try discriminate; try reflexivity. exfalso. simpl in P.
  assert (F2R (Float radix2 (Z.neg m) e) < 0) by (apply F2R_lt_0; reflexivity). lra.
Qed.

Lemma neg_correct : forall x, fin x -> fin (f32_neg x) /\ val (f32_neg x) = - val x.
Proof.
  intros x Hx. destruct (fin_bin x Hx) as (a & -> & Ha).
  assert (E : f32_neg (B2SF a) = B2SF (Bopp a)) by (destruct a; reflexivity).
  rewrite E, !val_bin, B2R_Bopp. split; [|reflexivity]. apply bin_fin. now rewrite is_finite_Bopp.
Qed.

(** ** Numbers in the format *)
Lemma format_scaled : forall k e, (Z.abs k < 2 ^ 24)%Z -> (-149 <= e)%Z -> format32 (IZR k * bpow radix2 e).
Proof.
  intros k e H E. change fexp32 with (FLT_exp (-149) 24). apply generic_format_FLT.
  exists (Float radix2 k e); [reflexivity|exact H|exact E].
Qed.

Lemma format_Z : forall k, (Z.abs k < 2 ^ 24)%Z -> format32 (IZR k).
Proof. intros k H. rewrite <- (Rmult_1_r (IZR k)). change 1 with (bpow radix2 0). apply format_scaled; lia. Qed.

Lemma small_bound : forall r, Rabs r < IZR (2 ^ 24) -> Rabs r < bpow radix2 128.
Proof.
  intros r H. eapply Rlt_trans; [exact H|]. change (bpow radix2 128) with (IZR (2 ^ 128)). apply IZR_lt. reflexivity.
Qed.

(** Half integers [k / 2]. *)
Definition half (x : f32) (k : Z) : Prop := fin x /\ val x = IZR k / 2.

Lemma half_format : forall k, (Z.abs k < 2 ^ 24)%Z -> rnd32 (IZR k / 2) = IZR k / 2 /\ Rabs (rnd32 (IZR k / 2)) < bpow radix2 128.
Proof.
  intros k H. assert (F : format32 (IZR k / 2)).
  { change (IZR k / 2) with (IZR k * / 2). change (/ 2) with (bpow radix2 (-1)). apply format_scaled; lia. }
  rewrite round_generic by (auto with typeclass_instances). split; [reflexivity|]. apply small_bound.
  unfold Rdiv. rewrite Rabs_mult, <- abs_IZR, (Rabs_pos_eq (/ 2)) by lra.
  assert (IZR (Z.abs k) < IZR (2 ^ 24)) by (apply IZR_lt; exact H).
  assert (0 <= IZR (Z.abs k)) by (apply IZR_le; lia). lra.
Qed.

Lemma half_add : forall x y a b, half x a -> half y b -> (Z.abs (a + b) < 2 ^ 24)%Z -> half (f32_add x y) (a + b).
Proof.
  intros x y a b [Fx Vx] [Fy Vy] B. assert (E : val x + val y = IZR (a + b) / 2) by (rewrite Vx, Vy, plus_IZR; lra).
  destruct (half_format _ B) as [R S]. destruct (add_correct x y Fx Fy) as [F V]; [rewrite E; exact S|].
  split; [exact F|]. rewrite V, E. exact R.
Qed.
Lemma half_sub : forall x y a b, half x a -> half y b -> (Z.abs (a - b) < 2 ^ 24)%Z -> half (f32_sub x y) (a - b).
Proof.
  intros x y a b [Fx Vx] [Fy Vy] B. assert (E : val x - val y = IZR (a - b) / 2) by (rewrite Vx, Vy, minus_IZR; lra).
  destruct (half_format _ B) as [R S]. destruct (sub_correct x y Fx Fy) as [F V]; [rewrite E; exact S|].
  split; [exact F|]. rewrite V, E. exact R.
Qed.

(** Integers. *)
Definition int (x : f32) (k : Z) : Prop := fin x /\ val x = IZR k.

Lemma int_half : forall x k, int x k <-> half x (2 * k).
Proof. intros x k. unfold int, half. rewrite mult_IZR. split; intros [F V]; split; auto; lra. Qed.

Lemma int_add : forall x y a b, int x a -> int y b -> (Z.abs (a + b) < 2 ^ 23)%Z -> int (f32_add x y) (a + b).
Proof.
  intros x y a b Hx Hy B. rewrite int_half in *. rewrite Z.mul_add_distr_l. apply half_add; auto. lia.
Qed.
Lemma int_sub : forall x y a b, int x a -> int y b -> (Z.abs (a - b) < 2 ^ 23)%Z -> int (f32_sub x y) (a - b).
Proof.
  intros x y a b Hx Hy B. rewrite int_half in *. rewrite Z.mul_sub_distr_l. apply half_sub; auto. lia.
Qed.
Lemma int_mul : forall x y a b, int x a -> int y b -> (Z.abs (a * b) < 2 ^ 24)%Z -> int (f32_mul x y) (a * b).
Proof.
  intros x y a b [Fx Vx] [Fy Vy] B. assert (E : val x * val y = IZR (a * b)) by (rewrite Vx, Vy, mult_IZR; lra).
  assert (F0 : format32 (IZR (a * b))) by (apply format_Z; exact B).
  destruct (mul_correct x y Fx Fy) as [F V].
  - rewrite E, round_generic by (auto with typeclass_instances). apply small_bound. rewrite <- abs_IZR. apply IZR_lt. exact B.
  - split; [exact F|]. rewrite V, E. apply round_generic; auto with typeclass_instances.
Qed.
Lemma int_neg : forall x a, int x a -> int (f32_neg x) (- a).
Proof. intros x a [F V]. destruct (neg_correct x F) as [F' V']. split; [exact F'|]. rewrite V', V, opp_IZR. reflexivity. Qed.

(** Exact quotients. *)
Lemma div_half : forall x y a b k, half x a -> int y b -> b <> 0%Z -> a = (b * k)%Z -> (Z.abs k < 2 ^ 24)%Z -> half (f32_div x y) k.
Proof.
  intros x y a b k [Fx Vx] [Fy Vy] Nb E B.
  assert (Nb' : IZR b <> 0) by (apply not_0_IZR; exact Nb).
  assert (Q : val x / val y = IZR k / 2) by (rewrite Vx, Vy, E, mult_IZR; field; exact Nb').
  destruct (half_format _ B) as [R S]. destruct (div_correct x y Fx Fy) as [F V].
  - rewrite Vy. exact Nb'.
  - rewrite Q. exact S.
  - split; [exact F|]. rewrite V, Q. exact R.
Qed.
Lemma div_int : forall x y a b k, int x a -> int y b -> b <> 0%Z -> a = (b * k)%Z -> (Z.abs k < 2 ^ 23)%Z -> int (f32_div x y) k.
Proof.
  intros x y a b k Hx Hy Nb E B. apply int_half in Hx. apply int_half. apply (div_half x y (2 * a) b (2 * k) Hx Hy Nb); [|lia].
  rewrite E. ring.
Qed.

Lemma int_of_N : forall n, (n < 2 ^ 24)%N -> int (f32_of_N n) (Z.of_N n).
Proof.
  intros n H. unfold f32_of_N. rewrite binary_normalize_equiv.
  pose proof (binary_normalize_correct 24 128 prec24 emax128 mode_NE (Z.of_N n) 0 false) as C.
  change (round_mode mode_NE) with ZnearestE in C. cbv zeta in C.
  assert (E : F2R (Float radix2 (Z.of_N n) 0) = IZR (Z.of_N n)) by (unfold F2R; simpl; ring).
  assert (F : format32 (IZR (Z.of_N n))) by (apply format_Z; lia).
  rewrite E, round_generic in C by (auto with typeclass_instances). rewrite Rlt_bool_true in C.
  - destruct C as (V & Fi & _). split; [apply bin_fin; exact Fi|rewrite val_bin; exact V].
  - apply small_bound. rewrite <- abs_IZR. apply IZR_lt. lia.
Qed.

(** ** The square root of a rounded square *)
Lemma sqrt_sq : forall k, (0 < k < 2 ^ 24)%Z -> rnd32 (sqrt (rnd32 (IZR k * IZR k))) = IZR k.
Proof.
  intros k [K0 K1]. set (x := IZR k). assert (Px : 1 <= x) by (apply IZR_le; lia).
  assert (Fx : format32 x) by (apply format_Z; lia).
  set (e := mag radix2 x : Z).
  assert (B : bpow radix2 (e - 1) <= x < bpow radix2 e).
  { pose proof (bpow_mag_le radix2 x ltac:(lra)) as L. pose proof (bpow_mag_gt radix2 x) as G.
    fold e in L, G. rewrite Rabs_pos_eq in L, G by lra. lra. }
  assert (E1 : (1 <= e)%Z).
  { destruct (Z_lt_le_dec e 1) as [H|H]; [|exact H]. exfalso.
    assert (bpow radix2 e <= bpow radix2 0) by (apply bpow_le; lia). simpl in *. lra. }
  set (u := bpow radix2 (e - 24)). assert (Pu : 0 < u) by apply bpow_gt_0.
  assert (Cx : cexp radix2 fexp32 x = (e - 24)%Z) by (unfold cexp; fold e; unfold SpecFloat.fexp, SpecFloat.emin; lia).
  assert (Ux : ulp radix2 fexp32 x = u) by (rewrite ulp_neq_0 by lra; now rewrite Cx).
  assert (Eu : bpow radix2 (e - 1) * u = / 2 * bpow radix2 (2 * e - 24)).
  { unfold u. change (/ 2) with (bpow radix2 (-1)). rewrite <- !bpow_plus. f_equal. lia. }
  set (m := x * x). assert (Pm : 1 <= m) by (unfold m; nra).
  assert (Um : / 2 * ulp radix2 fexp32 m <= bpow radix2 (e - 1) * u).
  { rewrite Eu. apply Rmult_le_compat_l; [lra|]. rewrite ulp_neq_0 by lra. apply bpow_le. unfold cexp.
    assert (M : (mag radix2 m <= 2 * e)%Z).
    { apply mag_le_bpow; [lra|]. rewrite Rabs_pos_eq by lra. unfold m. replace (2 * e)%Z with (e + e)%Z by lia.
      rewrite bpow_plus. apply Rmult_le_0_lt_compat; lra. }
    unfold SpecFloat.fexp, SpecFloat.emin. lia. }
  pose proof (error_le_half_ulp radix2 fexp32 (fun z => negb (Z.even z)) m) as Err.
  change (Znearest (fun z => negb (Z.even z))) with ZnearestE in Err. fold m. set (y := rnd32 m) in *.
  apply Rabs_le_inv in Err.
  apply Rle_antisym.
  - apply round_N_le_midp; auto with typeclass_instances. rewrite succ_eq_pos by lra. rewrite Ux.
    assert (S : y < (x + u / 2) * (x + u / 2)) by (unfold m in *; nra).
    replace ((x + (x + u)) / 2) with (x + u / 2) by lra.
    rewrite <- (sqrt_square (x + u / 2)) by lra. apply sqrt_lt_1_alt. split; [unfold y|exact S].
    apply round_ge_generic; auto with typeclass_instances; [apply generic_format_0|lra].
  - apply round_N_ge_midp; auto with typeclass_instances.
    destruct (Req_dec x (bpow radix2 (e - 1))) as [Ex|Nx].
    + assert (Y : y = m).
      { unfold y. apply round_generic; auto with typeclass_instances. unfold m. rewrite Ex, <- bpow_plus.
        apply generic_format_bpow'; auto with typeclass_instances. unfold SpecFloat.fexp, SpecFloat.emin. lia. }
      rewrite Y. unfold m. rewrite sqrt_square by lra.
      assert (pred radix2 fexp32 x < x) by (apply pred_lt_id; lra). lra.
    + assert (P : pred radix2 fexp32 x = x - u).
      { rewrite pred_eq_pos by lra. unfold pred_pos. fold e. rewrite Req_bool_false by exact Nx. now rewrite Ux. }
      rewrite P. replace ((x + (x - u)) / 2) with (x - u / 2) by lra.
      assert (X : bpow radix2 (e - 1) + u <= x).
      { assert (F1 : format32 (bpow radix2 (e - 1))) by (apply generic_format_bpow; unfold SpecFloat.fexp, SpecFloat.emin; lia).
        assert (L : bpow radix2 (e - 1) < x) by lra.
        pose proof (succ_le_lt radix2 fexp32 _ _ F1 Fx L) as G.
        rewrite succ_eq_pos in G by apply bpow_ge_0. rewrite ulp_bpow in G.
        replace (SpecFloat.fexp 24 128 (e - 1 + 1)) with (e - 24)%Z in G by (unfold SpecFloat.fexp, SpecFloat.emin; lia). exact G. }
      assert (U1 : u <= bpow radix2 (e - 1)) by (apply bpow_le; lia).
      rewrite <- (sqrt_square (x - u / 2)) by lra. apply sqrt_lt_1_alt. split; [nra|]. unfold m in *. nra.
Qed.
