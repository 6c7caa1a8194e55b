(** Printed numbers are shortest (C84). *)
From Coq Require Import Reals Lra SpecFloat.
From Flocq Require Import Core BinarySingleNaN.
From Verif Require Import Prelude F32 Text TextSpec NumberSpec BaseProofs FloatProofs DecimalProofs TextProofs NumberProofs.
Local Open Scope R_scope.

(** ** Powers of ten *)
Local Notation ten := (bpow radix10).
Lemma ten_pos : forall e, 0 < ten e. Proof. intros. apply bpow_gt_0. Qed.
Lemma ten_Z : forall e, (0 <= e)%Z -> IZR (10 ^ e) = ten e.
Proof. intros e H. exact (IZR_Zpower radix10 e H). Qed.
Lemma ten_add : forall a b, ten (a + b) = ten a * ten b. Proof. intros. apply bpow_plus. Qed.
Lemma ten_succ : forall a, ten (a + 1) = 10 * ten a.
Proof. intros a. rewrite ten_add. change (ten 1) with 10. ring. Qed.
Lemma ten_le : forall a b, (a <= b)%Z -> ten a <= ten b. Proof. intros. now apply bpow_le. Qed.

Lemma short_le : forall n n' r, (n <= n')%Z -> short n r -> short n' r.
Proof.
  intros n n' r L (K & j & (P & B) & E). exists K, j. split; [|exact E]. split; [exact P|]. eapply Z.lt_le_trans; [exact B|].
  apply Z.pow_le_mono_r; lia.
Qed.

(** ** Rounding to one value is convex *)
Section Target.
Context (m : positive) (e : Z).
Local Notation x := (S754_finite false m e).
Context (Fx : f32_valid x = true).
Local Notation v := (val x).
Definition reads (d : R) : Prop := rounded d false x.

Lemma v_F2R : v = IZR (Z.pos m) * bpow radix2 e. Proof. reflexivity. Qed.
Lemma v_pos : 0 < v. Proof. rewrite v_F2R. apply Rmult_lt_0_compat; [now apply (IZR_lt 0)|apply bpow_gt_0]. Qed.
Lemma x_fin : fin x. Proof. split; [exact Fx|reflexivity]. Qed.
Lemma reads_iff : forall d, 0 < d -> (reads d <-> nearest d = v).
Proof.
  intros d P. unfold reads, rounded. rewrite Rcompare_Gt by exact P. split.
  - intros (A & B). destruct (Rlt_or_le (Rabs (nearest d)) (bpow radix2 128)) as [L|L]; [|specialize (B L); discriminate B].
    destruct (A L) as (_ & V & _). now symmetry.
  - intros E. rewrite E. split.
    + intros _. split; [apply finite_fin; exact x_fin|]. split; reflexivity.
    + intros L. exfalso. apply (Rle_not_lt _ _ L). apply val_bound, Fx.
Qed.
Lemma reads_between : forall a b d, 0 < a -> reads a -> reads b -> a <= d <= b -> reads d.
Proof.
  intros a b d P A B (L1 & L2). apply reads_iff in A; [|lra]. apply reads_iff in B; [|lra]. apply reads_iff; [lra|].
  apply Rle_antisym.
  - rewrite <- B. apply round_le; auto with typeclass_instances.
  - rewrite <- A. apply round_le; auto with typeclass_instances.
Qed.
Lemma reads_v : reads v.
Proof. apply reads_iff; [exact v_pos|]. rewrite nearest_rnd. apply round_generic; auto with typeclass_instances. apply val_format, Fx. Qed.
Lemma dec_reads : forall k j, (0 <= k)%Z -> f32_same (dec_to_f32 false (Z.to_N k) j) x = true <-> reads (IZR k * ten j).
Proof.
  intros k j K. rewrite f32_same_eq. pose proof (dec_rounded false (Z.to_N k) j) as D. cbn [cond_Zopp] in D. rewrite Z2N.id in D by exact K. split.
  - intros E. rewrite E in D. exact D.
  - intros H. exact (rounded_unique _ _ _ _ D H).
Qed.

(** Everything closer than a quarter unit rounds to [v]. *)
Lemma valid_cases : (e = -149 \/ 2 ^ 23 <= Z.pos m)%Z /\ (-149 <= e)%Z /\ (Z.pos m < 2 ^ 24)%Z.
Proof.
  pose proof Fx as H. unfold f32_valid in H. cbn [valid_binary] in H. unfold bounded in H. apply andb_true_iff in H as [H _].
  unfold canonical_mantissa in H. apply Zeq_bool_eq in H. unfold fexp, emin in H.
  pose proof (digits2_Pnat_correct m) as D. 
  assert (Dg : Z.pos (digits2_pos m) = Zdigits radix2 (Z.pos m)) by (rewrite <- (Zpos_digits2_pos m); reflexivity).
  pose proof (Zdigits_correct radix2 (Z.pos m)) as (L & U). rewrite <- Dg in *. rewrite Z.abs_eq in L, U by lia.
  change (radix_val radix2) with 2%Z in *. set (g := Z.pos (digits2_pos m)) in *.
  assert (G : (g <= 24)%Z) by lia.
  split; [|split; [lia|]].
  - destruct (Z.eq_dec g 24) as [->|N]; [right; exact L|left; lia].
  - eapply Z.lt_le_trans; [exact U|]. apply Z.pow_le_mono_r; lia.
Qed.
Lemma format_multiple : forall g c, format32 g -> (c <= cexp radix2 fexp32 g)%Z -> exists n, g = IZR n * bpow radix2 c.
Proof.
  intros g c F C. exists (Ztrunc (scaled_mantissa radix2 fexp32 g) * 2 ^ (cexp radix2 fexp32 g - c))%Z.
  unfold generic_format in F. rewrite F at 1. unfold F2R. cbn [Fnum Fexp]. rewrite mult_IZR. change 2%Z with (radix_val radix2). rewrite IZR_Zpower by lia.
  rewrite Rmult_assoc, <- bpow_plus. do 2 f_equal. lia.
Qed.
Lemma near_format : forall g, format32 g -> Rabs (g - v) < bpow radix2 (e - 1) -> g = v.
Proof.
  intros g F L. destruct valid_cases as (C & Me & Mm).
  assert (Q : exists n, g = IZR n * bpow radix2 (e - 1)).
  { apply format_multiple; [exact F|]. unfold cexp, SpecFloat.fexp, SpecFloat.emin. destruct C as [C|C]; [lia|].
    assert (M : (23 + e <= mag radix2 g)%Z).
    { apply mag_ge_bpow. replace (23 + e - 1)%Z with (22 + e)%Z by lia.
      assert (V : bpow radix2 (23 + e) <= v).
      { rewrite v_F2R, bpow_plus. apply Rmult_le_compat_r; [apply bpow_ge_0|]. change (bpow radix2 23) with (IZR (2 ^ 23)). now apply IZR_le. }
      assert (H : bpow radix2 (23 + e) = 2 * bpow radix2 (22 + e)) by (replace (23 + e)%Z with (1 + (22 + e))%Z by lia; rewrite bpow_plus; reflexivity).
      assert (K : bpow radix2 (e - 1) <= bpow radix2 (22 + e)) by (apply bpow_le; lia).
      apply Rabs_lt_inv in L. apply Rle_trans with g; [lra|apply Rle_abs]. }
    lia. }
  destruct Q as (n & ->).
  assert (V : v = IZR (2 * Z.pos m) * bpow radix2 (e - 1)).
  { rewrite v_F2R, mult_IZR. replace e with (1 + (e - 1))%Z at 1 by lia. rewrite bpow_plus. change (bpow radix2 1) with 2. ring. }
  rewrite V in *. f_equal. f_equal. rewrite <- Rmult_minus_distr_r, Rabs_mult, (Rabs_pos_eq (bpow radix2 (e - 1))) in L by apply bpow_ge_0.
  assert (L1 : Rabs (IZR n - IZR (2 * Z.pos m)) < 1).
  { apply (Rmult_lt_reg_r (bpow radix2 (e - 1))); [apply bpow_gt_0|]. now rewrite Rmult_1_l. }
  rewrite <- minus_IZR, <- abs_IZR in L1. apply lt_IZR in L1. lia.
Qed.
Lemma near_reads : forall d, 0 < d -> Rabs (d - v) < bpow radix2 (e - 2) -> reads d.
Proof.
  intros d P L. apply reads_iff; [exact P|]. rewrite nearest_rnd.
  assert (Fm := generic_format_round radix2 fexp32 ZnearestE d). apply near_format; [exact Fm|].
  destruct (round_N_pt radix2 fexp32 (fun t => negb (Z.even t)) d) as (_ & N). specialize (N v (val_format _ Fx)).
  replace (rnd32 d - v) with ((rnd32 d - d) + (d - v)) by ring. eapply Rle_lt_trans; [apply Rabs_triang|].
  assert (H : bpow radix2 (e - 1) = bpow radix2 (e - 2) + bpow radix2 (e - 2)).
  { replace (e - 1)%Z with (1 + (e - 2))%Z by lia. rewrite bpow_plus. change (bpow radix2 1) with 2. ring. }
  rewrite H. rewrite (Rabs_minus_sym v d) in N. eapply Rle_lt_trans; [apply Rplus_le_compat_r, N|lra].
Qed.

(** ** The search *)
Section Search.
Context (num den k : Z).
Context (Pn : (0 < num)%Z) (Pd : (0 < den)%Z) (Vnd : IZR num = v * IZR den) (Klo : ten (k - 1) <= v) (Khi : v < ten k).

Definition scaled (n : Z) : Z * Z := if (0 <=? k - n)%Z then (num, den * 10 ^ (k - n))%Z else (num * 10 ^ (- (k - n)), den)%Z.
Definition low (n : Z) : Z := (fst (scaled n) / snd (scaled n))%Z.
Lemma scaled_spec : forall n, (0 < snd (scaled n))%Z /\ IZR (fst (scaled n)) * ten (k - n) = v * IZR (snd (scaled n)).
Proof.
  intros n. unfold scaled. destruct (Z.leb_spec 0 (k - n)) as [L|L]; cbn [fst snd].
  - split; [apply Z.mul_pos_pos; [exact Pd|apply Z.pow_pos_nonneg; lia]|]. rewrite mult_IZR, ten_Z, Vnd by exact L. ring.
  - split; [exact Pd|]. rewrite mult_IZR, ten_Z, Rmult_assoc, <- ten_add by lia.
    replace (- (k - n) + (k - n))%Z with 0%Z by lia. change (ten 0) with 1. rewrite Vnd. ring.
Qed.
Lemma low_spec : forall n, IZR (low n) * ten (k - n) <= v < IZR (low n + 1) * ten (k - n).
Proof.
  intros n. destruct (scaled_spec n) as (P & E). unfold low. set (a := fst (scaled n)) in *. set (b := snd (scaled n)) in *.
  assert (B : 0 < IZR b) by now apply (IZR_lt 0). pose proof (ten_pos (k - n)) as T.
  pose proof (Z.mul_div_le a b P) as L. pose proof (Z.mul_succ_div_gt a b P) as U. rewrite <- Z.add_1_r in U.
  apply IZR_le in L. apply IZR_lt in U. rewrite mult_IZR in L, U. set (q := (a / b)%Z) in *. split.
  - apply (Rmult_le_reg_r (IZR b)); [exact B|]. rewrite <- E. replace (IZR q * ten (k - n) * IZR b) with (IZR b * IZR q * ten (k - n)) by ring.
    apply Rmult_le_compat_r; lra.
  - apply (Rmult_lt_reg_r (IZR b)); [exact B|]. rewrite <- E. replace (IZR (q + 1) * ten (k - n) * IZR b) with (IZR b * IZR (q + 1) * ten (k - n)) by ring.
    apply Rmult_lt_compat_r; lra.
Qed.
Lemma low_range : forall n, (1 <= n)%Z -> (10 ^ (n - 1) <= low n < 10 ^ n)%Z.
Proof.
  intros n N. destruct (low_spec n) as (L & U). pose proof (ten_pos (k - n)) as T. split.
  - enough (10 ^ (n - 1) < low n + 1)%Z by lia. apply lt_IZR. apply (Rmult_lt_reg_r (ten (k - n))); [exact T|].
    rewrite ten_Z, <- ten_add by lia. replace (n - 1 + (k - n))%Z with (k - 1)%Z by lia. lra.
  - apply lt_IZR. apply (Rmult_lt_reg_r (ten (k - n))); [exact T|]. rewrite ten_Z, <- ten_add by lia. replace (n + (k - n))%Z with k by lia. lra.
Qed.
Lemma short_pos : forall n r, short n r -> 0 < r.
Proof. intros n r (K & j & (P & _) & ->). apply Rmult_lt_0_compat; [now apply (IZR_lt 0)|apply ten_pos]. Qed.
Lemma short_exp : forall n r, short n r -> exists K j, (0 < K < 10 ^ n)%Z /\ r = IZR K * ten j /\ ((k - n <= j)%Z \/ r < ten (k - 1)).
Proof.
  intros n r (K & j & (P & B) & E). exists K, j. split; [now split|]. split; [exact E|]. destruct (Z_le_gt_dec (k - n) j) as [L|L]; [now left|right].
  assert (N : (0 <= n)%Z) by (destruct (Z_le_gt_dec 0 n); [assumption|rewrite Z.pow_neg_r in B by lia; lia]).
  rewrite E. apply Rlt_le_trans with (ten n * ten j).
  - apply Rmult_lt_compat_r; [apply ten_pos|]. rewrite <- ten_Z by exact N. now apply IZR_lt.
  - rewrite <- ten_add. apply ten_le. lia.
Qed.
Lemma multiple : forall K j s, (s <= j)%Z -> IZR K * ten j = IZR (K * 10 ^ (j - s)) * ten s.
Proof. intros K j s L. rewrite mult_IZR, ten_Z, Rmult_assoc, <- ten_add by lia. do 2 f_equal. lia. Qed.
Lemma below_low : forall n r, (1 <= n)%Z -> short n r -> r <= v -> r <= IZR (low n) * ten (k - n).
Proof.
  intros n r N Sh L. destruct (short_exp n r Sh) as (K & j & P & E & [J|J]).
  - rewrite E, (multiple K j (k - n) J) in *. apply Rmult_le_compat_r; [left; apply ten_pos|]. apply IZR_le.
    enough (K * 10 ^ (j - (k - n)) < low n + 1)%Z by lia. apply lt_IZR. apply (Rmult_lt_reg_r (ten (k - n))); [apply ten_pos|].
    destruct (low_spec n). lra.
  - left. eapply Rlt_le_trans; [exact J|]. replace (k - 1)%Z with (n - 1 + (k - n))%Z by lia. rewrite ten_add, <- ten_Z by lia.
    apply Rmult_le_compat_r; [left; apply ten_pos|]. apply IZR_le. now apply low_range.
Qed.
Lemma above_high : forall n r, short n r -> v < r -> IZR (low n + 1) * ten (k - n) <= r.
Proof.
  intros n r Sh L. destruct (short_exp n r Sh) as (K & j & P & E & [J|J]); [|lra].
  rewrite E, (multiple K j (k - n) J) in *. apply Rmult_le_compat_r; [left; apply ten_pos|]. apply IZR_le.
  enough (low n < K * 10 ^ (j - (k - n)))%Z by lia. apply lt_IZR. apply (Rmult_lt_reg_r (ten (k - n))); [apply ten_pos|].
  destruct (low_spec n). lra.
Qed.

(** Dropping a zero *)
Definition dval (d : N * Z) : R := IZR (Z.of_N (fst d)) * ten (snd d).
Lemma strip_dval : forall M s, dval (strip0 (M, s)) = dval (M, s).
Proof.
  intros M s. unfold strip0, dval. destruct (N.eqb_spec (M mod 10) 0) as [E|E]; [|reflexivity]. cbn [fst snd].
  rewrite ten_succ. assert (Q : M = (10 * (M / 10))%N) by (pose proof (N.div_mod M 10 ltac:(lia)); lia).
  rewrite Q at 2. rewrite N2Z.inj_mul, mult_IZR. ring.
Qed.
Lemma short_multiple : forall n M s, (1 <= n)%Z -> (0 < M <= 10 ^ n)%Z -> short n (IZR M * ten s).
Proof.
  intros n M s N (P & B). destruct (Z.eq_dec M (10 ^ n)) as [->|Ne].
  - exists 1%Z, (n + s)%Z. split; [split; [lia|]|].
    + apply Z.lt_le_trans with (10 ^ 1)%Z; [reflexivity|apply Z.pow_le_mono_r; lia].
    + rewrite ten_Z, ten_add by lia. ring.
  - exists M, s. split; [lia|reflexivity].
Qed.
Lemma strip_last : forall n M s, (1 <= n)%Z -> (0 < Z.of_N M <= 10 ^ n)%Z ->
  (forall r, short (n - 1) r -> ~ reads r) -> reads (dval (M, s)) -> (fst (strip0 (M, s)) mod 10 <> 0)%N /\ (0 < fst (strip0 (M, s)))%N.
Proof.
  intros n M s N (P & B) Min Rd. unfold strip0. destruct (N.eqb_spec (M mod 10) 0) as [E|E]; [|cbn [fst]; split; [exact E|lia]]. cbn [fst].
  assert (Q : M = (10 * (M / 10))%N) by (pose proof (N.div_mod M 10 ltac:(lia)); lia).
  destruct (Z.eq_dec n 1) as [->|Ne].
  - change (10 ^ 1)%Z with 10%Z in B. assert (M / 10 = 1)%N as -> by lia. split; [discriminate|reflexivity].
  - exfalso. refine (Min (dval (M, s)) _ Rd). rewrite <- strip_dval. unfold strip0. rewrite E. unfold dval. cbn [N.eqb fst snd].
    apply short_multiple; [lia|]. replace n with (Z.succ (n - 1)) in B by lia. rewrite Z.pow_succ_r in B by lia. lia.
Qed.

(** The conclusion about a result of [n] digits *)
Definition best (n : Z) (d : N * Z) : Prop :=
  (1 <= n)%Z /\ reads (dval d) /\ short n (dval d) /\ (fst d mod 10 <> 0)%N /\ (0 < fst d)%N /\
  (forall r, short (n - 1) r -> ~ reads r) /\ (forall r, short n r -> reads r -> Rabs (dval d - v) <= Rabs (r - v)).

Lemma nine : exists r, short 9 r /\ reads r.
Proof.
  destruct (low_spec 9) as (L & U). pose proof (low_range 9 ltac:(lia)) as (B & B'). pose proof (ten_pos (k - 9)) as T.
  assert (W : ten (k - 9) / 2 < bpow radix2 (e - 2)).
  { assert (K : ten (k - 1) = 100000000 * ten (k - 9)) by (replace (k - 1)%Z with (8 + (k - 9))%Z by lia; rewrite ten_add; reflexivity).
    destruct valid_cases as (_ & _ & Mm). apply IZR_lt in Mm.
    assert (V : v <= 16777216 * bpow radix2 e).
    { rewrite v_F2R. apply Rmult_le_compat_r; [apply bpow_ge_0|]. change (IZR (2 ^ 24)) with 16777216 in Mm. lra. }
    assert (E : bpow radix2 e = 4 * bpow radix2 (e - 2)) by (replace e with (2 + (e - 2))%Z at 1 by lia; rewrite bpow_plus; reflexivity).
    pose proof (bpow_gt_0 radix2 (e - 2)). lra. }
  rewrite plus_IZR in U.
  assert (Pl : 0 < IZR (low 9)) by (apply (IZR_lt 0); change (10 ^ (9 - 1))%Z with 100000000%Z in B; lia).
  assert (Pt : 0 < IZR (low 9) * ten (k - 9)) by now apply Rmult_lt_0_compat.
  destruct (Rlt_or_le (v - IZR (low 9) * ten (k - 9)) (ten (k - 9) / 2)) as [H|H].
  - exists (IZR (low 9) * ten (k - 9)). split; [apply short_multiple; [lia|]; change (10 ^ (9 - 1))%Z with 100000000%Z in B; lia|].
    apply near_reads; [exact Pt|]. apply Rabs_lt. lra.
  - exists (IZR (low 9 + 1) * ten (k - 9)). split; [apply short_multiple; [lia|]; change (10 ^ (9 - 1))%Z with 100000000%Z in B; lia|].
    rewrite plus_IZR. apply near_reads; [lra|]. apply Rabs_lt. lra.
Qed.

Lemma search_step : forall f n dflt, shortest_search (S f) n k num den x dflt =
  let clo := strip0 (Z.to_N (low n), (k - n)%Z) in
  let chi := strip0 (Z.to_N (low n + 1), (k - n)%Z) in
  let oklo := negb (low n =? 0)%Z && f32_same (dec_to_f32 false (fst clo) (snd clo)) x in
  let okhi := f32_same (dec_to_f32 false (fst chi) (snd chi)) x in
  if oklo && okhi then (if (2 * (fst (scaled n) - low n * snd (scaled n)) <? snd (scaled n))%Z then clo else chi)
  else if oklo then clo else if okhi then chi else shortest_search f (n + 1) k num den x dflt.
Proof. intros. cbn [shortest_search]. unfold low, scaled. destruct (0 <=? k - n)%Z; reflexivity. Qed.

Lemma search_best : forall fuel n dflt, (1 <= n)%Z -> (n + Z.of_nat fuel = 10)%Z -> (forall r, short (n - 1) r -> ~ reads r) ->
  exists n', best n' (shortest_search fuel n k num den x dflt).
Proof.
  induction fuel as [|f IH]; intros n dflt N F Min.
  { exfalso. destruct nine as (r & S9 & R9). replace (n - 1)%Z with 9%Z in Min by lia. exact (Min r S9 R9). }
  rewrite search_step. cbv zeta. set (lo := low n). set (s := (k - n)%Z).
  pose proof (low_range n N) as (B & B'). fold lo in B, B'.
  assert (B0 : (1 <= lo)%Z) by (pose proof (Z.pow_pos_nonneg 10 (n - 1)); lia).
  destruct (low_spec n) as (L & U). fold lo s in L, U.
  assert (D1 : dval (Z.to_N lo, s) = IZR lo * ten s) by (unfold dval; cbn [fst snd]; rewrite Z2N.id by lia; reflexivity).
  assert (D2 : dval (Z.to_N (lo + 1), s) = IZR (lo + 1) * ten s) by (unfold dval; cbn [fst snd]; rewrite Z2N.id by lia; reflexivity).
  assert (Q : forall d, f32_same (dec_to_f32 false (fst d) (snd d)) x = true <-> reads (dval d)).
  { intros d. rewrite <- (N2Z.id (fst d)) at 1. rewrite dec_reads by lia. reflexivity. }
  set (clo := strip0 (Z.to_N lo, s)). set (chi := strip0 (Z.to_N (lo + 1), s)).
  assert (E1 : dval clo = IZR lo * ten s) by (unfold clo; now rewrite strip_dval).
  assert (E2 : dval chi = IZR (lo + 1) * ten s) by (unfold chi; now rewrite strip_dval).
  replace (lo =? 0)%Z with false by lia. cbn [negb andb].
  assert (Lo : forall r, short n r -> r <= v -> r <= dval clo) by (intros r Hr Hv; rewrite E1; now apply below_low).
  assert (Hi : forall r, short n r -> v < r -> dval chi <= r) by (intros r Hr Hv; rewrite E2; now apply above_high).
  assert (RLo : forall r, short n r -> reads r -> r <= v -> reads (dval clo)).
  { intros r Hr Rr Hv. apply (reads_between r v); [now apply (short_pos n)|exact Rr|exact reads_v|]. split; [now apply Lo|rewrite E1; exact L]. }
  assert (RHi : forall r, short n r -> reads r -> v < r -> reads (dval chi)).
  { intros r Hr Rr Hv. apply (reads_between v r); [exact v_pos|exact reads_v|exact Rr|]. split; [rewrite E2; lra|now apply Hi]. }
  assert (S1 : short n (dval clo)) by (rewrite E1; apply short_multiple; lia).
  assert (S2 : short n (dval chi)) by (rewrite E2; apply short_multiple; lia).
  assert (T1 : reads (dval clo) -> (fst clo mod 10 <> 0)%N /\ (0 < fst clo)%N).
  { intros Rc. apply (strip_last n); [exact N|rewrite Z2N.id; lia|exact Min|]. rewrite D1, <- E1. exact Rc. }
  assert (T2 : reads (dval chi) -> (fst chi mod 10 <> 0)%N /\ (0 < fst chi)%N).
  { intros Rc. apply (strip_last n); [exact N|rewrite Z2N.id; lia|exact Min|]. rewrite D2, <- E2. exact Rc. }
  assert (A1 : Rabs (dval clo - v) = v - dval clo) by (rewrite E1, Rabs_left1; lra).
  assert (A2 : Rabs (dval chi - v) = dval chi - v) by (rewrite E2, Rabs_pos_eq; lra).
  assert (A : forall r, r <= v -> Rabs (r - v) = v - r) by (intros; rewrite Rabs_left1; lra).
  assert (A' : forall r, v < r -> Rabs (r - v) = r - v) by (intros; rewrite Rabs_pos_eq; lra).
  pose proof (Q clo) as Q1. pose proof (Q chi) as Q2.
  destruct (f32_same (dec_to_f32 false (fst clo) (snd clo)) x) eqn:O1; destruct (f32_same (dec_to_f32 false (fst chi) (snd chi)) x) eqn:O2; cbn [andb].
  - destruct Q1 as (Q1 & _). destruct Q2 as (Q2 & _). specialize (Q1 eq_refl). specialize (Q2 eq_refl).
    destruct (scaled_spec n) as (Pb & Eb). set (a := fst (scaled n)) in *. set (b := snd (scaled n)) in *. fold s in Eb.
    assert (Pb' : 0 < IZR b) by now apply (IZR_lt 0). pose proof (ten_pos s) as Ts.
    assert (Cmp : (2 * (a - lo * b) < b)%Z <-> 2 * (v - dval clo) < ten s).
    { rewrite E1. transitivity (2 * (IZR a - IZR lo * IZR b) < IZR b).
      - rewrite <- mult_IZR, <- minus_IZR, <- mult_IZR. split; [apply IZR_lt|apply lt_IZR].
      - assert (E3 : (2 * (v - IZR lo * ten s)) * IZR b = 2 * (IZR a - IZR lo * IZR b) * ten s) by (rewrite Rmult_assoc, Rmult_minus_distr_r, <- Eb; ring).
        split; intros H.
        + apply (Rmult_lt_reg_r (IZR b)); [exact Pb'|]. rewrite E3, (Rmult_comm (ten s)). now apply Rmult_lt_compat_r.
        + apply (Rmult_lt_reg_r (ten s)); [exact Ts|]. rewrite <- E3, (Rmult_comm (IZR b)). now apply Rmult_lt_compat_r. }
    assert (E4 : dval chi = dval clo + ten s) by (rewrite E1, E2, plus_IZR; ring).
    exists n. destruct (Z.ltb_spec (2 * (a - lo * b)) b) as [C|C].
    + apply Cmp in C. destruct (T1 Q1) as (Ta & Tb). refine (conj N (conj Q1 (conj S1 (conj Ta (conj Tb (conj Min _)))))).
      intros r Hr Rr. rewrite A1. destruct (Rlt_or_le v r) as [V|V].
      * rewrite A' by exact V. specialize (Hi r Hr V). lra.
      * rewrite A by exact V. specialize (Lo r Hr V). lra.
    + assert (C' : ten s <= 2 * (v - dval clo)) by (destruct (Rlt_or_le (2 * (v - dval clo)) (ten s)) as [H|H]; [apply Cmp in H; lia|exact H]).
      destruct (T2 Q2) as (Ta & Tb). refine (conj N (conj Q2 (conj S2 (conj Ta (conj Tb (conj Min _)))))).
      intros r Hr Rr. rewrite A2. destruct (Rlt_or_le v r) as [V|V].
      * rewrite A' by exact V. specialize (Hi r Hr V). lra.
      * rewrite A by exact V. specialize (Lo r Hr V). lra.
  - destruct Q1 as (Q1 & _). specialize (Q1 eq_refl). destruct (T1 Q1) as (Ta & Tb). exists n. refine (conj N (conj Q1 (conj S1 (conj Ta (conj Tb (conj Min _)))))).
      intros r Hr Rr. rewrite A1.
    destruct (Rlt_or_le v r) as [V|V]; [apply RHi in V; auto; apply Q2 in V; discriminate V|].
    rewrite A by exact V. specialize (Lo r Hr V). lra.
  - destruct Q2 as (Q2 & _). specialize (Q2 eq_refl). destruct (T2 Q2) as (Ta & Tb). exists n. refine (conj N (conj Q2 (conj S2 (conj Ta (conj Tb (conj Min _)))))).
      intros r Hr Rr. rewrite A2.
    destruct (Rlt_or_le v r) as [V|V]; [|apply RLo in V; auto; apply Q1 in V; discriminate V].
    rewrite A' by exact V. specialize (Hi r Hr V). lra.
  - apply IH; [lia|lia|]. replace (n + 1 - 1)%Z with n by lia. intros r Hr Rr.
    destruct (Rlt_or_le v r) as [V|V]; [apply RHi in V; auto; apply Q2 in V; discriminate V|apply RLo in V; auto; apply Q1 in V; discriminate V].
Qed.
End Search.
End Target.

(** ** The decimal exponent *)
Section Exponent.
Context (num den : Z) (v : R).
Context (Pd : (0 < den)%Z) (Vnd : IZR num = v * IZR den).
Lemma below_iff : forall k, (if (0 <=? k)%Z then (num <? den * 10 ^ k)%Z else (num * 10 ^ (- k) <? den)%Z) = true <-> v < ten k.
Proof.
  intros k. assert (D : 0 < IZR den) by now apply (IZR_lt 0). pose proof (ten_pos k) as T. destruct (Z.leb_spec 0 k) as [L|L]; rewrite Z.ltb_lt.
  - transitivity (IZR num < IZR (den * 10 ^ k)); [split; [apply IZR_lt|apply lt_IZR]|]. rewrite mult_IZR, ten_Z, Vnd, (Rmult_comm (IZR den)) by exact L.
    split; intros H; [now apply (Rmult_lt_reg_r (IZR den))|now apply Rmult_lt_compat_r].
  - transitivity (IZR (num * 10 ^ (- k)) < IZR den); [split; [apply IZR_lt|apply lt_IZR]|]. rewrite mult_IZR, ten_Z, Vnd by lia.
    assert (P : ten (- k) * ten k = 1) by (rewrite <- ten_add; replace (- k + k)%Z with 0%Z by lia; reflexivity).
    assert (E : v * IZR den * ten (- k) * ten k = v * IZR den) by (rewrite Rmult_assoc, P; ring).
    split; intros H.
    + apply (Rmult_lt_reg_r (IZR den)); [exact D|]. rewrite <- E, (Rmult_comm (ten k)). now apply Rmult_lt_compat_r.
    + apply (Rmult_lt_reg_r (ten k)); [exact T|]. rewrite E, (Rmult_comm (IZR den)). now apply Rmult_lt_compat_r.
Qed.
Lemma exponent_spec : forall fuel k, ten (k - 1) <= v -> v < ten (k + Z.of_nat fuel) ->
  ten (dec_exponent fuel k num den - 1) <= v < ten (dec_exponent fuel k num den).
Proof.
  induction fuel as [|f IH]; intros k L U.
  - cbn [dec_exponent]. replace (k + Z.of_nat 0)%Z with k in U by lia. lra.
  - cbn [dec_exponent]. cbv zeta. pose proof (below_iff k) as B. destruct (if (0 <=? k)%Z then _ else _) eqn:E.
    + split; [exact L|now apply B].
    + apply IH; [|replace (k + 1 + Z.of_nat f)%Z with (k + Z.of_nat (S f))%Z by lia; exact U].
      replace (k + 1 - 1)%Z with k by lia. destruct (Rlt_or_le v (ten k)) as [H|H]; [apply B in H; discriminate H|exact H].
Qed.
End Exponent.

Lemma shortest_best : forall m e, f32_valid (S754_finite false m e) = true -> exists n, best m e n (shortest m e).
Proof.
  intros m e Fx. unfold shortest. cbv zeta. set (num := (Z.pos m * 2 ^ Z.max e 0)%Z). set (den := (2 ^ Z.max (- e) 0)%Z).
  assert (Pn : (0 < num)%Z) by (apply Z.mul_pos_pos; [lia|apply Z.pow_pos_nonneg; lia]).
  assert (Pd : (0 < den)%Z) by (apply Z.pow_pos_nonneg; lia).
  assert (V : IZR num = val (S754_finite false m e) * IZR den).
  { rewrite v_F2R. unfold num, den. rewrite mult_IZR. change 2%Z with (radix_val radix2). rewrite !IZR_Zpower, Rmult_assoc, <- bpow_plus by lia.
    do 2 f_equal. lia. }
  destruct (valid_cases m e Fx) as (_ & Me & _).
  assert (K : ten (dec_exponent 90 (-45) num den - 1) <= val (S754_finite false m e) < ten (dec_exponent 90 (-45) num den)).
  { apply (exponent_spec _ _ _ Pd V).
    - apply Rle_trans with (bpow radix2 (-149)).
      + replace (-45 - 1)%Z with (- (46))%Z by lia. rewrite bpow_opp. change (-149)%Z with (- (149))%Z. rewrite (bpow_opp radix2 149). apply Rinv_le; [apply bpow_gt_0|].
        rewrite <- !IZR_Zpower by lia. apply IZR_le. vm_compute. discriminate.
      + rewrite v_F2R. rewrite <- (Rmult_1_l (bpow radix2 (-149))). apply Rmult_le_compat; [lra|apply bpow_ge_0|apply (IZR_le 1); lia|now apply bpow_le].
    - apply Rlt_trans with (bpow radix2 128).
      + pose proof (val_bound _ Fx) as B. pose proof (v_pos m e). rewrite Rabs_pos_eq in B by lra. exact B.
      + replace (-45 + Z.of_nat 90)%Z with 45%Z by reflexivity. rewrite <- !IZR_Zpower by lia. apply IZR_lt. vm_compute. reflexivity. }
  apply search_best; auto; try lia; try apply K. intros r (z & j & (P & B) & _). exfalso. change (10 ^ (1 - 1))%Z with 1%Z in B. lia.
Qed.

(** ** Text *)
Lemma digits_fuel_ends : forall fuel n acc, (n < 10 ^ N.of_nat (S fuel))%N ->
  exists t, digits_fuel fuel n acc = t ++ (n mod 10 + 48)%N :: acc /\ ((0 < n)%N -> exists c u, t ++ [(n mod 10 + 48)%N] = c :: u /\ c <> 48%N).
Proof.
  induction fuel as [|f IH]; intros n acc H.
  - exists []. split; [reflexivity|]. intros P. eexists _, _. split; [reflexivity|]. change (10 ^ N.of_nat 1)%N with 10%N in H. rewrite N.mod_small by exact H. lia.
  - cbn [digits_fuel]. destruct (N.ltb_spec n 10) as [L|L].
    + exists []. rewrite N.mod_small by exact L. split; [reflexivity|]. intros P. eexists _, _. split; [reflexivity|]. lia.
    + rewrite Nat2N.inj_succ, N.pow_succ_r' in H.
      destruct (IH (n / 10)%N ((n mod 10 + 48)%N :: acc)) as (t & E & C). { apply N.div_lt_upper_bound; [lia|exact H]. }
      exists (t ++ [(n / 10) mod 10 + 48]%N). rewrite E, <- app_assoc. split; [reflexivity|]. intros _.
      destruct C as (c & u & -> & C). { apply N.div_str_pos. lia. } exists c, (u ++ [n mod 10 + 48]%N). now split.
Qed.
Lemma show_N_last : forall n, exists t, show_N n = t ++ [n mod 10 + 48]%N.
Proof. intros n. destruct (digits_fuel_ends _ n [] (size_bound n)) as (t & E & _). now exists t. Qed.
Lemma show_N_first : forall n, (0 < n)%N -> exists c u, show_N n = c :: u /\ c <> 48%N.
Proof. intros n P. unfold show_N. destruct (digits_fuel_ends _ n [] (size_bound n)) as (t & -> & C). now apply C. Qed.
Lemma show_N_place : forall n, all_digits (show_N n) /\ show_N n <> [] /\ place_value (show_N n) = Z.of_N n.
Proof. intros n. destruct (show_N_spec n) as (A & B & C). apply digits_iff in A. split; [exact A|]. split; [exact B|]. now rewrite <- place_dvalue, C by exact A. Qed.

Lemma zeros_digits : forall n, all_digits (repeat 48%N n).
Proof. intros n c H. apply repeat_spec in H as ->. lia. Qed.
Lemma zeros_value : forall n ds, place_value (repeat 48%N n ++ ds) = place_value ds.
Proof. induction n as [|n IH]; intros ds; [reflexivity|]. cbn [repeat app place_value]. rewrite IH. lia. Qed.

Lemma show_decimal_plain : forall m e, (0 < m)%N -> (m mod 10 <> 0)%N -> exists m' e', plain_text (show_decimal (m, e)) m' e' /\
  IZR m' * ten e' = dval (m, e).
Proof.
  intros m e P L. unfold show_decimal, dval. cbn [fst snd]. destruct (Z.leb_spec 0 e) as [E|E].
  - set (M := (m * 10 ^ Z.to_N e)%N). destruct (show_N_place M) as (D & Ne & V).
    exists (Z.of_N M), 0%Z. split.
    + exists (show_N M), []. split; [exact D|]. split; [now intros c []|]. split.
      * right. apply show_N_first. unfold M. assert (10 ^ Z.to_N e <> 0)%N by (apply N.pow_nonzero; lia). lia.
      * split; [now left|]. rewrite app_nil_r. now split.
    + unfold M. rewrite N2Z.inj_mul, N2Z.inj_pow, Z2N.id, mult_IZR by exact E. change (Z.of_N 10) with 10%Z. rewrite ten_Z by exact E. change (ten 0) with 1. ring.
  - destruct (show_N_place m) as (D & Ne & V). destruct (show_N_last m) as (t & T). destruct (show_N_first m P) as (c & u & C & C48).
    set (f := Z.to_nat (- e)) in *. set (z := (f + 1 - length (show_N m))%nat). set (ds := repeat 48%N z ++ show_N m). cbv zeta.
    assert (Len : (length ds = z + length (show_N m))%nat) by (unfold ds; rewrite app_length, repeat_length; reflexivity).
    assert (Ln : (1 <= length (show_N m))%nat) by (rewrite C; cbn; lia).
    assert (Dd : all_digits ds) by (apply all_digits_app; split; [apply zeros_digits|exact D]).
    set (ip := firstn (length ds - f) ds). set (fp := skipn (length ds - f) ds).
    assert (J : ip ++ fp = ds) by apply firstn_skipn.
    assert (Lf : length fp = f) by (unfold fp; rewrite skipn_length; lia).
    exists (Z.of_N m), e. split; [|reflexivity]. exists ip, fp.
    assert (Dj : all_digits ip /\ all_digits fp) by (apply all_digits_app; now rewrite J). destruct Dj as (Di & Df).
    split; [exact Di|]. split; [exact Df|]. split.
    { destruct (Nat.eq_dec z 0) as [Z0|Z0].
      - right. exists c, (firstn (length ds - f - 1) u). split; [|exact C48]. unfold ip, ds at 2. rewrite Z0, C. cbn [repeat app].
        replace (length ds - f)%nat with (S (length ds - f - 1)) at 1 by lia. reflexivity.
      - left. unfold ip. replace (length ds - f)%nat with 1%nat by lia. unfold ds. destruct z as [|z']; [congruence|]. reflexivity. }
    split.
    { right. assert (Fn : fp <> []) by (intros Hn; rewrite Hn in Lf; cbn in Lf; lia).
      destruct (exists_last Fn) as (t' & c' & Ef). exists t', c'. split; [exact Ef|]. split.
      - assert (Q : ip ++ t' ++ [c'] = (repeat 48%N z ++ t) ++ [m mod 10 + 48]%N) by (rewrite <- Ef, J; unfold ds; now rewrite T, app_assoc).
        rewrite app_assoc in Q. apply app_inj_tail in Q as (_ & ->). lia.
      - reflexivity. }
    split; [rewrite J; unfold ds; now rewrite zeros_value|]. lia.
Qed.

(** ** Printed numbers *)
Theorem show_finite : forall neg_zero x, finite x -> val x <> 0 -> exists body m e n,
  show_f32 neg_zero x = (if negative x then lit "-" else []) ++ body /\ plain_text body m e /\
  let r := IZR m * bpow radix10 e in
  let back r := rounded (cond_Ropp (negative x) r) (negative x) x in
  short n r /\ back r /\ forall n' r', short n' r' -> back r' -> (n <= n')%Z /\ (n' = n -> Rabs (r - Rabs (val x)) <= Rabs (r' - Rabs (val x))).
Proof.
  intros nz x (D & F) NZ. destruct x as [s|s| |s m e]; try discriminate F; [now elim NZ|].
  assert (Fx : f32_valid (S754_finite false m e) = true) by (rewrite <- D; destruct s; reflexivity).
  destruct (shortest_best m e Fx) as (n & N & Rd & Sh & Ml & P & Min & Cl).
  destruct (show_decimal_plain (fst (shortest m e)) (snd (shortest m e)) P Ml) as (m' & e' & Pl & Ev). rewrite <- surjective_pairing in Pl, Ev.
  exists (show_decimal (shortest m e)), m', e', n. split; [cbn [show_f32 negative sign_SF]; now destruct s|]. split; [exact Pl|]. cbv zeta. rewrite Ev.
  assert (A : Rabs (val (S754_finite s m e)) = val (S754_finite false m e)).
  { rewrite !val_finite, <- F2R_Zabs. destruct s; reflexivity. }
  assert (B : forall r, 0 < r -> (rounded (cond_Ropp s r) s (S754_finite s m e) <-> reads m e r)).
  { intros r Pr. destruct s; [|reflexivity]. cbn [cond_Ropp]. rewrite reads_iff by auto. unfold rounded. rewrite Rcompare_Lt by lra.
    rewrite !nearest_rnd, round_NE_opp, Rabs_Ropp.
    assert (W : val (S754_finite true m e) = - val (S754_finite false m e)) by (rewrite !val_finite, <- F2R_Zopp; reflexivity). rewrite W. split.
    - intros (H & H'). destruct (Rlt_or_le (Rabs (rnd32 r)) (bpow radix2 128)) as [K|K]; [|specialize (H' K); discriminate H'].
      destruct (H K) as (_ & Q & _). rewrite nearest_rnd. lra.
    - intros Q. rewrite nearest_rnd in Q. rewrite Q. split.
      + intros _. split; [now split|]. split; reflexivity.
      + intros K. exfalso. apply (Rle_not_lt _ _ K). apply val_bound, Fx. }
  cbn [negative sign_SF]. rewrite A. split; [exact Sh|]. split; [apply B; [now apply (short_pos n)|exact Rd]|].
  intros n' r' Sh' Rd'. apply B in Rd'; [|now apply (short_pos n')]. split.
  - destruct (Z_le_gt_dec n n') as [Le|Gt]; [exact Le|]. exfalso. apply (Min r'); [|exact Rd']. refine (short_le _ _ _ _ Sh'); lia.
  - intros ->. now apply Cl.
Qed.

Lemma show_special : forall neg_zero,
  show_f32 neg_zero S754_nan = lit "NaN" /\ show_f32 neg_zero (S754_infinity false) = lit "inf" /\ show_f32 neg_zero (S754_infinity true) = lit "-inf" /\
  show_f32 neg_zero (S754_zero false) = lit "0" /\ show_f32 neg_zero (S754_zero true) = if neg_zero then lit "-0" else lit "0".
Proof. intros [|]; repeat split. Qed.

Lemma show_integer : forall z, exists ds, show_Z z = (if (z <? 0)%Z then lit "-" else []) ++ ds /\ all_digits ds /\
  (ds = lit "0" \/ exists c t, ds = c :: t /\ c <> 48%N) /\ place_value ds = Z.abs z.
Proof.
  intros z. exists (show_N (Z.to_N (Z.abs z))). split; [|split; [|split]].
  - unfold show_Z. destruct (Z.ltb_spec z 0) as [L|L]; [rewrite Z.abs_neq by lia; reflexivity|now rewrite Z.abs_eq].
  - apply show_N_place.
  - destruct (Z.eq_dec z 0) as [->|N]; [now left|right]. apply show_N_first. lia.
  - destruct (show_N_place (Z.to_N (Z.abs z))) as (_ & _ & ->). lia.
Qed.

Lemma tenth : exists x y, finite x /\ val x <> 0 /\ finite y /\ val y <> 0 /\
  show_f32 true x = lit "-0.1" /\ show_f32 true y = lit "16777216000000".
Proof.
  exists (S754_finite true 13421773 (-27)), (S754_finite false 16000000 20).
  split; [split; reflexivity|]. split; [apply finite_nonzero|]. split; [split; reflexivity|]. split; [apply finite_nonzero|].
  split; vm_compute; reflexivity.
Qed.
