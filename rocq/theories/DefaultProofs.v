(** Defaults written to the FGD against defaults delivered (C53, C54, C62). *)
From Coq Require Import SpecFloat Reals Lra.
From Flocq Require Import Core.
From Verif Require Import Prelude F32 Text MapModel GameDataModel SceneModel GameDataSpec TreeSpec PropertySpec
  BaseProofs FloatProofs DecimalProofs TextProofs MapProofs GameDataProofs ColorProofs NodeProofs PropertyProofs.
Local Close Scope R_scope.
Local Open Scope nat_scope.

Lemma format_int : forall k, (Z.abs k < 2 ^ 24)%Z -> generic_format radix2 (SpecFloat.fexp 24 128) (IZR k).
Proof.
  intros k H. change (SpecFloat.fexp 24 128) with (FLT_exp (-149) 24). apply generic_format_FLT.
  exists (Float radix2 k 0).
  - unfold F2R. simpl. ring.
  - exact H.
  - simpl. lia.
Qed.

Lemma dec_int : forall n, (n < 2 ^ 24)%N -> fin (dec_to_f32 false n 0) /\ val (dec_to_f32 false n 0) = IZR (Z.of_N n).
Proof.
  intros n H. destruct (dec_correct false n 0) as (V & C). cbn [cond_Zopp] in C.
  change (bpow radix10 0) with 1%R in C. rewrite Rmult_1_r in C.
  rewrite round_generic in C; [|auto with typeclass_instances|apply format_int; lia].
  rewrite Rlt_bool_true in C.
  - destruct C as [F E]. split; [split; assumption|exact E].
  - rewrite <- abs_IZR. apply Rlt_trans with (IZR (2 ^ 24)); [apply IZR_lt; lia|].
    change (bpow radix2 128) with (IZR (2 ^ 128)). apply IZR_lt. reflexivity.
Qed.

Lemma parse_f32_show_nonneg : forall modern z, (0 <= z)%Z -> parse_f32 modern (show_Z z) = Some (dec_to_f32 false (Z.to_N z) 0).
Proof.
  intros modern z H. unfold show_Z. replace (z <? 0)%Z with false by lia.
  destruct (show_N_spec (Z.to_N z)) as (Hd & Hne & Hv). destruct (digits_cons _ Hd Hne) as (c & t & Es & Hc).
  rewrite Es, parse_f32_unsigned by exact Hc. rewrite <- Es, parse_decimal_int. reflexivity.
Qed.

(** A component in [0, 1] equals its channel only when it is zero. *)
Lemma channel_eq : forall x, unit_component x -> exists y, (forall modern, parse_f32 modern (channel_text x) = Some y)
  /\ (eq32 x y <-> eq32 x f32_zero).
Proof.
  intros x (V & A & B). destruct (unit_fin x V A B) as [F U]. pose proof (channel_unit x F U) as R.
  exists (dec_to_f32 false (Z.to_N (channel x)) 0). split; [intros modern; apply parse_f32_show_nonneg; apply R|].
  destruct (dec_int (Z.to_N (channel x))) as [Fy Vy]; [lia|]. rewrite Z2N.id in Vy by lia.
  unfold eq32. rewrite !cmp_correct by auto using fin_zero. rewrite Vy, val_zero.
  destruct (channel_value x F U) as (y & By & Ey & Ec).
  split; intros E; injection E as E; f_equal; apply Rcompare_Eq; apply Rcompare_Eq_inv in E.
  - destruct (Z.eq_dec (channel x) 0) as [Z0|Z0]; [rewrite Z0 in E; exact E|].
    destruct (Z.eq_dec (channel x) 1) as [Z1|Z1].
    + exfalso. rewrite Z1 in E. rewrite E, Rmult_1_l in Ey.
      rewrite round_generic in Ey by (auto using format_255 with typeclass_instances).
      rewrite Ey in Ec. rewrite (Ztrunc_IZR 255) in Ec. lia.
    + exfalso. assert (K : (2 <= channel x)%Z) by lia. apply IZR_le in K. lra.
  - rewrite E. rewrite E, Rmult_0_l, round_0 in Ey by auto with typeclass_instances.
    rewrite Ec, Ey. now rewrite (Ztrunc_IZR 0).
Qed.

Section Default.
Context (p : platform).
Let O := f32_num p.

Lemma two_values : forall (fd : forge_data f32) e1 e2 fe m1 m2 k s fp, forge_by fd e1 fe -> omits_and_spells e1 e2 k s ->
  get_properties O fd e1 = Ok m1 -> get_properties O fd e2 = Ok m2 -> last_named k (fe_properties fe) fp ->
  hget m1 k = Some (property_value O (fp_data fp) None) /\ hget m2 k = Some (property_value O (fp_data fp) (Some s)).
Proof.
  intros fd e1 e2 fe m1 m2 k s fp F (C & K1 & K2) E1 E2 L.
  assert (F2 : forge_by fd e2 fe) by (destruct F as (c & Hc & F); exists c; split; [congruence|exact F]).
  split; [rewrite <- K1|rewrite <- K2]; eapply properties_declared; eauto.
Qed.

Theorem choices_default : forall (fd : forge_data f32) e1 e2 fe m1 m2 k s fp cs d, forge_by fd e1 fe -> omits_and_spells e1 e2 k s ->
  get_properties O fd e1 = Ok m1 -> get_properties O fd e2 = Ok m2 -> last_named k (fe_properties fe) fp ->
  fp_data fp = FChoices cs d -> 
  (hget m1 k = hget m2 k <-> forall z, integer_text s z -> z = d).
Proof.
  intros fd e1 e2 fe m1 m2 k s fp cs d F OS E1 E2 L D.
  destruct (two_values fd e1 e2 fe m1 m2 k s fp F OS E1 E2 L) as [H1 H2]. rewrite H1, H2, D. simpl.
  destruct (parse_i32 s) as [z|] eqn:P.
  - apply parse_i32_iff in P. split.
    + intros E z' Hz. injection E as E. rewrite (integer_text_unique _ _ _ Hz P). auto.
    + intros H. rewrite (H z P). reflexivity.
  - split; [|reflexivity]. intros _ z Hz. apply parse_i32_iff in Hz. congruence.
Qed.

Lemma spaced_three : forall s x y z a b c, s = spaced x y z -> ~ In 32%N x -> ~ In 32%N y -> ~ In 32%N z ->
  number_text p x a -> number_text p y b -> number_text p z c -> three_text (number_text p) s a b c.
Proof.
  intros s x y z a b c -> Nx Ny Nz A B C. exists x, y, z, []. rewrite app_nil_r. repeat (split; [auto|]). auto.
Qed.

Lemma number_space : ~ number_char 32%N.
Proof. unfold number_char. lia. Qed.

Theorem color_default : forall (fd : forge_data f32) e1 e2 fe m1 m2 k s fp c, forge_by fd e1 fe -> omits_and_spells e1 e2 k s ->
  get_properties O fd e1 = Ok m1 -> get_properties O fd e2 = Ok m2 -> last_named k (fe_properties fe) fp ->
  fp_data fp = FColor c -> unit_color c -> fgd_default (visible_body p fp) = Some s ->
  exists c2, hget m1 k = Some (PrColor c) /\ hget m2 k = Some (PrColor c2) /\ (color_eq c c2 <-> black c).
Proof.
  intros fd e1 e2 fe m1 m2 k s fp c F OS E1 E2 L D (U1 & U2 & U3) Fd.
  destruct (two_values fd e1 e2 fe m1 m2 k s fp F OS E1 E2 L) as [H1 H2]. rewrite H1, H2, D.
  unfold visible_body in Fd. rewrite D in Fd. simpl in Fd. injection Fd as Es.
  destruct (channel_eq _ U1) as (r & P1 & Q1). destruct (channel_eq _ U2) as (g & P2 & Q2). destruct (channel_eq _ U3) as (b & P3 & Q3).
  assert (Nc : forall x, ~ In 32%N (channel_text x)).
  { intros x. apply number_no; [apply show_Z_chars|exact number_space]. }
  assert (R : color_reads p s (Color r g b)) by (eapply spaced_three; [symmetry; exact Es|..]; unfold number_text; simpl; auto).
  exists (Color r g b). split; [reflexivity|]. split.
  - apply parse_color_iff in R. simpl. fold O. unfold O. rewrite R. reflexivity.
  - unfold color_eq, black, color_eq. cbn [c_r c_g c_b]. rewrite Q1, Q2, Q3. tauto.
Qed.

Lemma finite_reads : forall x, finite32 x -> exists y, number_text p (num_text p x) y /\ same_number p x y.
Proof.
  intros x [V F]. unfold number_text, num_text. eexists. split; [now apply parse_show_f32|]. unfold same_number.
  destruct x as [[]|s| |s m e]; try discriminate; auto. destruct (p_neg_zero p) eqn:E; [auto|]. right. split; [reflexivity|]. eauto.
Qed.

Theorem exact_defaults : forall (fd : forge_data f32) e1 e2 fe m1 m2 k s fp, forge_by fd e1 fe -> omits_and_spells e1 e2 k s ->
  get_properties O fd e1 = Ok m1 -> get_properties O fd e2 = Ok m2 -> last_named k (fe_properties fe) fp ->
  exact_default (fp_data fp) -> fgd_default (visible_body p fp) = Some s ->
  exists v1 v2, hget m1 k = Some v1 /\ hget m2 k = Some v2 /\ same_delivery p v1 v2.
Proof.
  intros fd e1 e2 fe m1 m2 k s fp F OS E1 E2 L X Fd.
  destruct (two_values fd e1 e2 fe m1 m2 k s fp F OS E1 E2 L) as [H1 H2].
  do 2 eexists. split; [exact H1|]. split; [exact H2|]. clear - X Fd. unfold visible_body in Fd.
  destruct (fp_data fp) eqn:D; simpl in X; try contradiction; simpl in Fd; injection Fd as Es; simpl.
  - subst s. rewrite parse_i32_show by exact X. constructor.
  - destruct (finite_reads _ X) as (y & P & S). subst s. unfold number_text in P. rewrite P. now constructor.
  - destruct X as (X1 & X2 & X3). destruct (finite_reads _ X1) as (a & P1 & S1). destruct (finite_reads _ X2) as (b & P2 & S2).
    destruct (finite_reads _ X3) as (c & P3 & S3).
    assert (Nc : forall x, ~ In 32%N (num_text p x)).
    { intros x. apply number_no; [apply show_f32_chars|exact number_space]. }
    assert (R : vector_reads p s (V3 a b c)) by (eapply spaced_three; [symmetry; exact Es|..]; simpl; auto).
    apply parse_vector_iff in R. fold O in R. rewrite R. constructor. repeat split; assumption.
  - subst s. constructor.
Qed.

(** ** Flags *)
Lemma flags_sum : forall fs i d z, (0 <= i)%Z -> (i + Z.of_nat (length fs) <= 31)%Z -> flag_sum (visible_flags i d fs) z ->
  z = (2 ^ i * ((d / 2 ^ i) mod 2 ^ Z.of_nat (length fs)))%Z.
Proof.
  induction fs as [|f fs IH]; intros i d z Hi L (vs & F & ->).
  - simpl in F. inv F. simpl. rewrite Z.mod_1_r. lia.
  - simpl in F. inv F. cbn [fold_right length] in *.
    rewrite (IH (i + 1)%Z d (fold_right Z.add 0%Z l') ltac:(lia) ltac:(lia)) by (eexists; eauto).
    assert (Ey : y = if Z.testbit d i then (2 ^ i)%Z else 0%Z).
    { destruct H1 as [[Eb I]|[Eb ->]]; destruct (Z.testbit d i); try discriminate; [|reflexivity].
      apply parse_i32_iff in I. rewrite parse_i32_show in I.
      - now injection I.
      - assert (0 < 2 ^ i < 2 ^ 31)%Z by (split; [apply Z.pow_pos_nonneg; lia|apply Z.pow_lt_mono_r; lia]).
        unfold i32_min, i32_max. lia. }
    rewrite Ey. rewrite Nat2Z.inj_succ, Z.pow_succ_r by lia.
    assert (P1 : (0 < 2 ^ i)%Z) by (apply Z.pow_pos_nonneg; lia).
    assert (P2 : (0 < 2 ^ Z.of_nat (length fs))%Z) by (apply Z.pow_pos_nonneg; lia).
    rewrite Z.pow_add_r, Z.pow_1_r by lia. rewrite <- Z.div_div by lia.
    rewrite (Z.rem_mul_r (d / 2 ^ i) 2 (2 ^ Z.of_nat (length fs))) by lia.
    assert (Bit : ((d / 2 ^ i) mod 2 = if Z.testbit d i then 1 else 0)%Z).
    { rewrite <- Z.bit0_mod, Z.testbit_0_l || (rewrite Zmod_odd; rewrite <- Z.shiftr_div_pow2 by lia; rewrite <- Z.bit0_odd, Z.shiftr_spec by lia; simpl (0 + i)%Z).
      destruct (Z.testbit d i); reflexivity. }
    rewrite Bit. destruct (Z.testbit d i); ring.
Qed.

Theorem flags_default : forall (fd : forge_data f32) e1 e2 fe m1 m2 k s fp fs d l z, forge_by fd e1 fe -> omits_and_spells e1 e2 k s ->
  get_properties O fd e1 = Ok m1 -> get_properties O fd e2 = Ok m2 -> last_named k (fe_properties fe) fp ->
  fp_data fp = FFlags fs d -> length fs <= 31 -> visible_body p fp = AFlags l -> flag_sum l z -> integer_text s z ->
  (hget m1 k = hget m2 k <-> (0 <= d < 2 ^ Z.of_nat (length fs))%Z).
Proof.
  intros fd e1 e2 fe m1 m2 k s fp fs d l z F OS E1 E2 L D Ln V S I.
  destruct (two_values fd e1 e2 fe m1 m2 k s fp F OS E1 E2 L) as [H1 H2]. rewrite H1, H2, D. simpl.
  apply parse_i32_iff in I. rewrite I. unfold visible_body in V. rewrite D in V. injection V as <-.
  rewrite (flags_sum fs 0 d z) by (try exact S; lia). rewrite Z.pow_0_r, Z.div_1_r, Z.mul_1_l.
  assert (P : (0 < 2 ^ Z.of_nat (length fs))%Z) by (apply Z.pow_pos_nonneg; lia).
  split.
  - intros E. injection E as E. rewrite E. now apply Z.mod_pos_bound.
  - intros B. now rewrite Z.mod_small.
Qed.
End Default.
