(** Colour channels (C55, C54). *)
From Coq Require Import Reals Lra SpecFloat Psatz.
From Flocq Require Import Core BinarySingleNaN.
From Verif Require Import Prelude F32 Text MapModel GameDataModel GameDataSpec BaseProofs FloatProofs.
Local Open Scope R_scope.

Lemma i32_clamp : forall z, (i32_min <= clamp_i32 z <= i32_max)%Z.
Proof. intros z. unfold clamp_i32, i32_min, i32_max. lia. Qed.

Lemma to_i32_range : forall x, (i32_min <= f32_to_i32 x <= i32_max)%Z.
Proof.
  intros [s|[]| |s m e]; unfold f32_to_i32; try apply i32_clamp; unfold i32_min, i32_max; lia.
Qed.

(** The cast truncates towards zero and saturates. *)
Lemma to_i32_trunc : forall x, f32_finite x = true -> f32_to_i32 x = clamp_i32 (Ztrunc (val x)).
Proof.
  intros [s|s| |s m e] H; try discriminate.
  - unfold f32_to_i32, val. simpl. rewrite Ztrunc_IZR with (n := 0%Z). reflexivity.
  - unfold f32_to_i32. f_equal. rewrite val_finite.
    assert (P : Ztrunc (F2R (Float radix2 (Z.pos m) e)) =
                (if (0 <=? e)%Z then Z.pos m * 2 ^ e else Z.pos m / 2 ^ (- e))%Z).
    { unfold F2R. cbn [Fnum Fexp]. destruct (0 <=? e)%Z eqn:E.
      - rewrite <- IZR_Zpower by lia. rewrite <- mult_IZR. rewrite Ztrunc_IZR. reflexivity.
      - rewrite Ztrunc_floor.
        2:{ apply Rmult_le_pos; [apply IZR_le; lia|apply bpow_ge_0]. }
        replace (bpow radix2 e) with (/ IZR (2 ^ (- e)))%R.
        + change (IZR (Z.pos m) * / IZR (2 ^ (- e))) with (IZR (Z.pos m) / IZR (2 ^ (- e))).
          apply Zfloor_div. assert (0 < 2 ^ (- e))%Z by (apply Z.pow_pos_nonneg; lia). lia.
        + change (2 ^ (- e))%Z with (radix2 ^ (- e))%Z. rewrite IZR_Zpower by lia.
          rewrite <- bpow_opp. f_equal. lia. }
    destruct s.
    + rewrite F2R_cond_Zopp. unfold cond_Ropp. rewrite Ztrunc_opp, P. reflexivity.
    + rewrite <- P. reflexivity.
Qed.

(** Correct rounding of the product. *)
Lemma mul_correct : forall x y, fin x -> fin y -> Rabs (rnd32 (val x * val y)) < bpow radix2 128 ->
  fin (f32_mul x y) /\ val (f32_mul x y) = rnd32 (val x * val y).
Proof.
  intros x y Hx Hy H. destruct (fin_bin x Hx) as (b & -> & Hb). destruct (fin_bin y Hy) as (c & -> & Hc).
  rewrite !val_bin in *. rewrite mul_equiv.
  generalize (Bmult_correct 24 128 prec24 emax128 mode_NE b c). simpl round_mode.
  rewrite Rlt_bool_true by exact H. intros (E & F & _). rewrite Hb, Hc in F.
  split; [apply bin_fin; exact F|]. rewrite val_bin. exact E.
Qed.

Lemma n255 : fin (f32_of_N 255) /\ val (f32_of_N 255) = 255.
Proof.
  assert (E : f32_of_N 255 = S754_finite false 16711680 (-16)) by (vm_compute; reflexivity).
  rewrite E. split; [split; reflexivity|]. rewrite val_finite. unfold F2R. simpl. lra.
Qed.

Lemma format_255 : format32 255.
Proof.
  rewrite <- (proj2 n255). apply val_format. apply n255.
Qed.

Lemma bpow128_big : 255 < bpow radix2 128.
Proof. replace 255 with (IZR 255) by reflexivity. change (bpow radix2 128) with (IZR (2 ^ 128)). apply IZR_lt. reflexivity. Qed.

Lemma trunc_255 : forall y, 0 <= y <= 255 -> (0 <= Ztrunc y <= 255)%Z.
Proof.
  intros y [A B]. pose proof (Ztrunc_le _ _ A) as C. pose proof (Ztrunc_le _ _ B) as D.
  rewrite Ztrunc_IZR in C, D. lia.
Qed.

Lemma channel_value : forall x, fin x -> 0 <= val x <= 1 ->
  exists y, 0 <= y <= 255 /\ y = rnd32 (val x * 255) /\ channel x = Ztrunc y.
Proof.
  intros x Hx B. exists (rnd32 (val x * 255)).
  assert (B' : 0 <= rnd32 (val x * 255) <= 255).
  { split.
    - rewrite <- (round_0 radix2 fexp32 ZnearestE). apply round_le; auto with typeclass_instances. nra.
    - rewrite <- (round_generic radix2 fexp32 ZnearestE 255) at 2 by apply format_255.
      apply round_le; auto with typeclass_instances. nra. }
  split; [exact B'|]. split; [reflexivity|].
  unfold channel. destruct n255 as [F V].
  destruct (mul_correct x (f32_of_N 255) Hx F) as [G W].
  { rewrite V. rewrite Rabs_pos_eq by apply B'. pose proof bpow128_big. lra. }
  rewrite to_i32_trunc by apply G. rewrite W, V.
  assert (0 <= Ztrunc (rnd32 (val x * 255)) <= 255)%Z.
  { apply trunc_255, B'. }
  unfold clamp_i32, i32_min, i32_max. lia.
Qed.

Lemma channel_unit : forall x, fin x -> 0 <= val x <= 1 -> (0 <= channel x <= 255)%Z.
Proof.
  intros x Hx B. destruct (channel_value x Hx B) as (y & By & _ & ->).
  apply trunc_255, By.
Qed.

(** Brighter components print at least as large a number. *)
Lemma channel_mono : forall x y, fin x -> fin y -> 0 <= val x -> val x <= val y -> val y <= 1 ->
  (channel x <= channel y)%Z.
Proof.
  intros x y Hx Hy B1 B2 B3.
  destruct (channel_value x Hx) as (a & _ & -> & ->); [lra|].
  destruct (channel_value y Hy) as (b & _ & -> & ->); [lra|].
  apply Ztrunc_le, round_le; auto with typeclass_instances. lra.
Qed.

(** Comparison of finite values is comparison of reals. *)
Lemma cmp_correct : forall x y, fin x -> fin y -> f32_cmp x y = Some (Rcompare (val x) (val y)).
Proof.
  intros x y Hx Hy. destruct (fin_bin x Hx) as (b & -> & Hb). destruct (fin_bin y Hy) as (c & -> & Hc).
  rewrite !val_bin. exact (Bcompare_correct 24 128 b c Hb Hc).
Qed.

Lemma val_zero : val f32_zero = 0. Proof. reflexivity. Qed.
Lemma val_one : val f32_one = 1.
Proof. assert (E : f32_one = S754_finite false 8388608 (-23)) by (vm_compute; reflexivity).
  rewrite E, val_finite. unfold F2R. simpl. lra. Qed.
Lemma fin_zero : fin f32_zero. Proof. split; reflexivity. Qed.
Lemma fin_one : fin f32_one. Proof. split; vm_compute; reflexivity. Qed.

Lemma unit_fin : forall x, f32_valid x = true -> le32 f32_zero x = true -> le32 x f32_one = true ->
  fin x /\ 0 <= val x <= 1.
Proof.
  intros x Hv A B. assert (F : fin x).
  { split; [exact Hv|]. destruct x as [s|[]| |s m e]; try reflexivity; discriminate. }
  split; [exact F|]. unfold le32 in *. rewrite cmp_correct in A, B by auto using fin_zero, fin_one.
  rewrite val_zero in A. rewrite val_one in B.
  split; [destruct (Rcompare_spec 0 (val x))|destruct (Rcompare_spec (val x) 1)]; try discriminate; lra.
Qed.

Theorem channel_unit_range : forall x, f32_valid x = true -> le32 f32_zero x = true -> le32 x f32_one = true ->
  (0 <= channel x <= 255)%Z.
Proof. intros x Hv A B. destruct (unit_fin x Hv A B). now apply channel_unit. Qed.

(** Eight-bit colours survive the trip through [k / 255]. *)
Definition byte_color (k : N) : f32 := f32_div (f32_of_N k) (f32_of_N 255).
Theorem byte_color_channel : forall k, (k < 256)%N -> channel (byte_color k) = Z.of_N k.
Proof.
  intros k H.
  assert (A : forallb (fun k => Z.eqb (channel (byte_color (N.of_nat k))) (Z.of_nat k)) (seq 0 256) = true)
    by (vm_compute; reflexivity).
  rewrite forallb_forall in A. specialize (A (N.to_nat k)).
  rewrite in_seq in A. rewrite N2Nat.id in A. specialize (A ltac:(lia)). lia.
Qed.

Theorem show_color_unit : forall c, f32_valid (c_r c) = true -> f32_valid (c_g c) = true -> f32_valid (c_b c) = true ->
  (forall x, x = c_r c \/ x = c_g c \/ x = c_b c -> le32 f32_zero x = true /\ le32 x f32_one = true) ->
  exists r g b, show_color c = show_Z r ++ [32%N] ++ show_Z g ++ [32%N] ++ show_Z b
    /\ (0 <= r <= 255)%Z /\ (0 <= g <= 255)%Z /\ (0 <= b <= 255)%Z.
Proof.
  intros c R G B H. exists (channel (c_r c)), (channel (c_g c)), (channel (c_b c)).
  split; [reflexivity|].
  split; [|split]; apply channel_unit_range; auto; apply H; auto.
Qed.

Theorem show_color_any : forall c, exists r g b, show_color c = show_Z r ++ [32%N] ++ show_Z g ++ [32%N] ++ show_Z b
  /\ i32_range r /\ i32_range g /\ i32_range b.
Proof.
  intros c. exists (channel (c_r c)), (channel (c_g c)), (channel (c_b c)).
  split; [reflexivity|]. unfold i32_range, channel. auto using to_i32_range.
Qed.

Theorem byte_mono : forall x y, f32_valid x = true -> f32_valid y = true ->
  le32 f32_zero x = true -> le32 x y = true -> le32 y f32_one = true -> (byte_of x <= byte_of y)%Z.
Proof.
  intros x y Hx Hy A B C.
  assert (Fx : fin x).
  { split; [exact Hx|]. destruct x as [s|[]| |s m e]; try reflexivity; try discriminate.
    destruct y as [[]|[]| |[] m e]; discriminate. }
  assert (Fy : fin y).
  { split; [exact Hy|]. destruct y as [s|[]| |s m e]; try reflexivity; try discriminate.
    destruct x as [[]|[]| |[] m e]; discriminate. }
  unfold le32 in *. rewrite cmp_correct in A, B, C by auto using fin_zero, fin_one.
  rewrite val_zero in A. rewrite val_one in C.
  apply channel_mono; auto.
  - destruct (Rcompare_spec 0 (val x)); try discriminate; lra.
  - destruct (Rcompare_spec (val x) (val y)); try discriminate; lra.
  - destruct (Rcompare_spec (val y) 1); try discriminate; lra.
Qed.
