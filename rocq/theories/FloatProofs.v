(** The executable binary32 operations against the real numbers, through Flocq. *)
From Coq Require Import Reals Lra SpecFloat.
From Flocq Require Import Core BinarySingleNaN.
From Verif Require Import Prelude F32 BaseProofs.
From Verif Require Export NumberSpec.
Local Open Scope R_scope.

#[global] Instance prec24 : Prec_gt_0 24 := eq_refl _.
#[global] Instance emax128 : Prec_lt_emax 24 128 := eq_refl _.

Notation fexp32 := (SpecFloat.fexp 24 128).
Notation rnd32 := (round radix2 fexp32 ZnearestE).
Notation format32 := (generic_format radix2 fexp32).
Notation bin := (binary_float 24 128).

#[global] Instance fexp32_valid : Valid_exp fexp32 := FLT_exp_valid (SpecFloat.emin 24 128) 24.

(** ** Equivalence with Flocq's operations *)
Lemma round_nearest_even_equiv : forall s m l, round_nearest_even m l = choice_mode mode_NE s m l.
Proof.
  intros s m l. destruct l as [|[| |]]; try reflexivity. simpl. unfold Round.cond_incr. destruct (Z.even m); reflexivity.
Qed.

Lemma binary_round_aux_equiv : forall sx mx ex lx,
  SpecFloat.binary_round_aux 24 128 sx mx ex lx = binary_round_aux 24 128 mode_NE sx mx ex lx.
Proof.
  intros sx mx ex lx. unfold SpecFloat.binary_round_aux, binary_round_aux.
  destruct (shr_fexp 24 128 mx ex lx) as [mrs' e'].
  rewrite (round_nearest_even_equiv sx).
  destruct (shr_fexp 24 128 _ e' loc_Exact) as [mrs'' e''].
  destruct (shr_m mrs''); reflexivity.
Qed.

Lemma binary_round_equiv : forall s m e,
  SpecFloat.binary_round 24 128 s m e = binary_round 24 128 mode_NE s m e.
Proof.
  intros s m e. unfold SpecFloat.binary_round, binary_round, shl_align_fexp.
  destruct (shl_align m e _) as [mz ez]. apply binary_round_aux_equiv.
Qed.

Lemma binary_normalize_equiv : forall m e z,
  SpecFloat.binary_normalize 24 128 m e z = B2SF (binary_normalize 24 128 prec24 emax128 mode_NE m e z).
Proof.
  intros m e z. destruct m as [|m|m]; simpl; try reflexivity; rewrite B2SF_SF2B; apply binary_round_equiv.
Qed.

Lemma add_equiv : forall x y : bin, f32_add (B2SF x) (B2SF y) = B2SF (Bplus mode_NE x y).
Proof.
  intros [sx|sx| |sx mx ex Bx] [sy|sy| |sy my ey By]; try reflexivity; try (simpl; destruct (Bool.eqb sx sy); reflexivity).
  unfold f32_add, SFadd. simpl. apply binary_normalize_equiv.
Qed.

Lemma sub_equiv : forall x y : bin, f32_sub (B2SF x) (B2SF y) = B2SF (Bminus mode_NE x y).
Proof.
  intros [sx|sx| |sx mx ex Bx] [sy|sy| |sy my ey By]; try reflexivity; try (simpl; destruct (Bool.eqb sx (negb sy)); reflexivity).
  unfold f32_sub, SFsub. simpl. 
  rewrite <- binary_normalize_equiv. f_equal. unfold Fplus_naive. destruct sy; simpl; lia.
Qed.

Lemma mul_equiv : forall x y : bin, f32_mul (B2SF x) (B2SF y) = B2SF (Bmult mode_NE x y).
Proof.
  intros [sx|sx| |sx mx ex Bx] [sy|sy| |sy my ey By]; try reflexivity.
  unfold f32_mul, SFmul, Bmult. simpl. rewrite B2SF_SF2B. apply binary_round_aux_equiv.
Qed.

Lemma div_equiv : forall x y : bin, f32_div (B2SF x) (B2SF y) = B2SF (Bdiv mode_NE x y).
Proof.
  intros [sx|sx| |sx mx ex Bx] [sy|sy| |sy my ey By]; try reflexivity.
  unfold f32_div, SFdiv, Bdiv. cbn [B2SF]. rewrite B2SF_SF2B.
  destruct (SFdiv_core_binary 24 128 (Z.pos mx) ex (Z.pos my) ey) as [[mz ez] lz]. apply binary_round_aux_equiv.
Qed.

Lemma sqrt_equiv : forall x : bin, f32_sqrt (B2SF x) = B2SF (Bsqrt mode_NE x).
Proof.
  intros [sx|sx| |sx mx ex Bx]; try (destruct sx; reflexivity); try reflexivity.
  destruct sx; [reflexivity|]. unfold f32_sqrt, SFsqrt, Bsqrt. cbn [B2SF]. rewrite B2SF_SF2B.
  destruct (SFsqrt_core_binary 24 128 (Z.pos mx) ex) as [[mz ez] lz]. apply binary_round_aux_equiv.
Qed.

(** ** Values *)
Definition fin (x : f32) : Prop := f32_valid x = true /\ f32_finite x = true.

Lemma to_bin : forall x, f32_valid x = true -> exists b : bin, x = B2SF b.
Proof. intros x H. exists (SF2B x H). symmetry. apply B2SF_SF2B. Qed.

Lemma val_bin : forall b : bin, val (B2SF b) = B2R b.
Proof. intros b. apply SF2R_B2SF. Qed.

Lemma finite_bin : forall b : bin, f32_finite (B2SF b) = is_finite b.
Proof. intros [s|s| |s m e H]; reflexivity. Qed.

Lemma fin_bin : forall x, fin x -> exists b : bin, x = B2SF b /\ is_finite b = true.
Proof. intros x [Hv Hf]. destruct (to_bin x Hv) as [b ->]. exists b. rewrite <- finite_bin. auto. Qed.

Lemma bin_fin : forall b : bin, is_finite b = true -> fin (B2SF b).
Proof. intros b H. split; [apply valid_binary_B2SF|rewrite finite_bin; exact H]. Qed.

Lemma val_format : forall x, f32_valid x = true -> format32 (val x).
Proof. intros x H. destruct (to_bin x H) as [b ->]. rewrite val_bin. apply generic_format_B2R. Qed.

Lemma val_bound : forall x, f32_valid x = true -> Rabs (val x) < bpow radix2 128.
Proof. intros x H. destruct (to_bin x H) as [b ->]. rewrite val_bin. apply abs_B2R_lt_emax. Qed.

(** Two nonzero finite values with the same real value are the same. *)
Lemma val_inj : forall x y, fin x -> fin y -> val x = val y -> val x <> 0 -> x = y.
Proof.
  intros x y Hx Hy E Hn. destruct (fin_bin x Hx) as (b & -> & Hb). destruct (fin_bin y Hy) as (c & -> & Hc).
  rewrite !val_bin in *. f_equal. apply B2R_inj; [..|exact E].
  - destruct b; simpl in *; try discriminate; try reflexivity; exfalso; apply Hn; reflexivity.
  - rewrite E in Hn. destruct c; simpl in *; try discriminate; try reflexivity; exfalso; apply Hn; reflexivity.
Qed.

(** ** Correctness of decimal conversion *)
Lemma val_finite : forall s m e, val (S754_finite s m e) = F2R (Float radix2 (cond_Zopp s (Z.pos m)) e).
Proof. reflexivity. Qed.

Lemma finite_nonzero : forall s m e, val (S754_finite s m e) <> 0.
Proof. intros s m e. rewrite val_finite. apply F2R_neq_0. destruct s; discriminate. Qed.

(** A valid finite value is recovered from any finite datum with the same value. *)
Lemma is_finite_SF_finite : forall x, is_finite_SF x = f32_finite x.
Proof. intros [| | |]; reflexivity. Qed.

Lemma round_exact : forall x s, fin x -> forall z,
  f32_valid z = true ->
  (if Rlt_bool (Rabs (rnd32 (val x))) (bpow radix2 128)
   then SF2R radix2 z = rnd32 (val x) /\ is_finite_SF z = true /\ sign_SF z = s
   else z = binary_overflow 24 128 mode_NE s) ->
  fin z /\ val z = val x.
Proof.
  intros x s [Hv Hf] z Hz H. rewrite round_generic in H by (try apply val_format; auto with typeclass_instances).
  rewrite Rlt_bool_true in H by (apply val_bound; exact Hv).
  destruct H as (H1 & H2 & _). rewrite is_finite_SF_finite in H2. split; [split; assumption|exact H1].
Qed.

(** The exact decimal expansion of a float converts back to it. *)
Lemma dec_exact_nonneg : forall m e, f32_valid (S754_finite false m e) = true -> (0 <= e)%Z ->
  dec_to_f32 false (Z.to_N (Z.pos m * 2 ^ e)) 0 = S754_finite false m e.
Proof.
  intros m e Hv He. assert (Hp : (0 < Z.pos m * 2 ^ e)%Z) by (apply Z.mul_pos_pos; [lia|apply Z.pow_pos_nonneg; lia]).
  unfold dec_to_f32. destruct (Z.to_N (Z.pos m * 2 ^ e)) as [|p] eqn:E; [lia|].
  simpl. rewrite Pos.mul_1_r. rewrite binary_round_equiv.
  pose proof (binary_round_correct 24 128 _ _ mode_NE false p 0) as [H1 H2].
  assert (Ev : F2R (Float radix2 (cond_Zopp false (Z.pos p)) 0) = val (S754_finite false m e)).
  { rewrite val_finite. simpl cond_Zopp. replace (Z.pos p) with (Z.pos m * 2 ^ e)%Z by lia.
    rewrite (F2R_change_exp radix2 0 _ e) by lia. rewrite Z.sub_0_r. reflexivity. }
  cbv zeta in H2. rewrite Ev in H2.
  assert (Hfin : fin (S754_finite false m e)) by (split; [exact Hv|reflexivity]).
  apply (round_exact _ _ Hfin _ H1) in H2 as [Hf Hval].
  apply val_inj; [exact Hf|exact Hfin|exact Hval|]. rewrite Hval. apply finite_nonzero.
Qed.

Lemma dec_exact_neg : forall m e, f32_valid (S754_finite false m e) = true -> (e < 0)%Z ->
  dec_to_f32 false (Z.to_N (Z.pos m * 5 ^ (- e))) e = S754_finite false m e.
Proof.
  intros m e Hv He.
  assert (H5 : (0 < 5 ^ (- e))%Z) by (apply Z.pow_pos_nonneg; lia).
  assert (H2' : (0 < 2 ^ (- e))%Z) by (apply Z.pow_pos_nonneg; lia).
  assert (H10 : (10 ^ (- e) = 5 ^ (- e) * 2 ^ (- e))%Z) by (rewrite <- Z.pow_mul_l; reflexivity).
  unfold dec_to_f32. destruct (Z.to_N (Z.pos m * 5 ^ (- e))) as [|p] eqn:E; [nia|].
  assert (Ep : Z.pos p = (Z.pos m * 5 ^ (- e))%Z) by lia.
  assert (Hb : (0 <=? e)%Z = false) by lia. rewrite Hb.
  assert (Hq : exists q, (10 ^ (- e))%Z = Z.pos q) by (exists (Z.to_pos (10 ^ (- e))); nia).
  destruct Hq as [q Eq]. rewrite Eq.
  pose proof (Bdiv_correct_aux 24 128 _ _ mode_NE false p 0 false q 0) as [H1 H2].
  cbv zeta in *. simpl xorb in *. simpl cond_Zopp in *.
  destruct (SFdiv_core_binary 24 128 (Z.pos p) 0 (Z.pos q) 0) as [[mz ez] lz].
  rewrite binary_round_aux_equiv.
  assert (Ev : F2R (Float radix2 (Z.pos p) 0) / F2R (Float radix2 (Z.pos q) 0) = val (S754_finite false m e)).
  { rewrite val_finite. unfold F2R. simpl Fnum. simpl Fexp. rewrite Ep, <- Eq, H10. rewrite !mult_IZR.
    change (bpow radix2 0) with 1. rewrite !Rmult_1_r.
    replace (bpow radix2 e) with (/ IZR (2 ^ (- e))).
    - simpl cond_Zopp. field. split; apply not_eq_sym, Rlt_not_eq; apply (IZR_lt 0); assumption.
    - change 2%Z with (radix_val radix2). rewrite IZR_Zpower by lia. rewrite <- bpow_opp. f_equal. lia. }
  rewrite Ev in H2.
  assert (Hfin : fin (S754_finite false m e)) by (split; [exact Hv|reflexivity]).
  apply (round_exact _ _ Hfin _ H1) in H2 as [Hf Hval].
  apply val_inj; [exact Hf|exact Hfin|exact Hval|]. rewrite Hval. apply finite_nonzero.
Qed.

(** The sign only decorates the result. *)
Lemma round_aux_sign : forall m e l, SpecFloat.binary_round_aux 24 128 true m e l = SFopp (SpecFloat.binary_round_aux 24 128 false m e l).
Proof.
  intros m e l. unfold SpecFloat.binary_round_aux. destruct (shr_fexp 24 128 m e l) as [mrs' e'].
  destruct (shr_fexp 24 128 _ e' loc_Exact) as [mrs'' e'']. destruct (shr_m mrs''); try reflexivity.
  destruct (Zle_bool e'' (128 - 24)); reflexivity.
Qed.

Lemma dec_sign : forall m e, dec_to_f32 true m e = SFopp (dec_to_f32 false m e).
Proof.
  intros [|p] e; [reflexivity|]. unfold dec_to_f32. destruct (0 <=? e)%Z.
  - unfold SpecFloat.binary_round. destruct (shl_align _ _ _). apply round_aux_sign.
  - destruct (SFdiv_core_binary _ _ _ _ _ _) as [[? ?] ?]. apply round_aux_sign.
Qed.

(** ** Correct rounding of decimals *)
Lemma dec_correct : forall s m e,
  let r := IZR (cond_Zopp s (Z.of_N m)) * bpow radix10 e in
  let z := dec_to_f32 s m e in
  f32_valid z = true /\
  if Rlt_bool (Rabs (rnd32 r)) (bpow radix2 128) then f32_finite z = true /\ val z = rnd32 r
  else z = S754_infinity s.
Proof.
  intros s [|p] e; cbv zeta.
  - replace (IZR (cond_Zopp s (Z.of_N 0)) * bpow radix10 e) with 0 by (destruct s; simpl; ring).
    rewrite round_0, Rabs_R0, Rlt_bool_true by (auto with typeclass_instances; apply bpow_gt_0). repeat split.
  - unfold dec_to_f32. change (Z.of_N (N.pos p)) with (Z.pos p). destruct (0 <=? e)%Z eqn:He.
    + assert (Hp : (0 < Z.pos p * 10 ^ e)%Z) by (apply Z.mul_pos_pos; [lia|apply Z.pow_pos_nonneg; lia]).
      rewrite binary_round_equiv.
      pose proof (binary_round_correct 24 128 _ _ mode_NE s (Z.to_pos (Z.pos p * 10 ^ e)) 0) as [H1 H2].
      cbv zeta in H2. rewrite Z2Pos.id in H2 by exact Hp.
      replace (F2R (Float radix2 (cond_Zopp s (Z.pos p * 10 ^ e)) 0)) with (IZR (cond_Zopp s (Z.pos p)) * bpow radix10 e) in H2.
      * split; [exact H1|]. destruct (Rlt_bool _ _); [|exact H2].
        destruct H2 as (H2 & H3 & _). rewrite <- is_finite_SF_finite. auto.
      * unfold F2R. cbn [Fnum Fexp]. change (bpow radix2 0) with 1. rewrite Rmult_1_r.
        rewrite <- IZR_Zpower by lia. rewrite <- mult_IZR. f_equal. change (radix_val radix10) with 10%Z.
        destruct s; cbn [cond_Zopp]; ring.
    + assert (Hq : exists q, (10 ^ (- e))%Z = Z.pos q).
      { exists (Z.to_pos (10 ^ (- e))). rewrite Z2Pos.id; [reflexivity|apply Z.pow_pos_nonneg; lia]. }
      destruct Hq as [q Eq]. rewrite Eq.
      pose proof (Bdiv_correct_aux 24 128 _ _ mode_NE s p 0 false q 0) as [H1 H2].
      cbv zeta in *. rewrite xorb_false_r in *.
      destruct (SFdiv_core_binary 24 128 (Z.pos p) 0 (Z.pos q) 0) as [[mz ez] lz].
      rewrite binary_round_aux_equiv.
      replace (F2R (Float radix2 (cond_Zopp s (Z.pos p)) 0) / F2R (Float radix2 (cond_Zopp false (Z.pos q)) 0))
        with (IZR (cond_Zopp s (Z.pos p)) * bpow radix10 e) in H2.
      * split; [exact H1|]. destruct (Rlt_bool _ _); [|exact H2].
        destruct H2 as (H2 & H3 & _). rewrite <- is_finite_SF_finite. auto.
      * unfold F2R. cbn [Fnum Fexp cond_Zopp]. change (bpow radix2 0) with 1. rewrite !Rmult_1_r.
        unfold Rdiv. f_equal. rewrite <- Eq. change 10%Z with (radix_val radix10). rewrite IZR_Zpower by lia.
        rewrite <- bpow_opp. f_equal. lia.
Qed.
