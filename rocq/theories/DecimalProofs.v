(** Decimal text: printing and reading back (C09), integers. *)
From Coq Require Import SpecFloat.
From Verif Require Import Prelude F32 Text BaseProofs FloatProofs.
Local Open Scope N_scope.

Definition digits (ds : str) : Prop := forall c, In c ds -> is_digit c = true.
Definition dvalue (acc : N) (ds : str) : N := fold_left (fun a c => 10 * a + (c - 48)) ds acc.

Lemma read_digits_app : forall ds rest acc n, digits ds ->
  read_digits (ds ++ rest) acc n = read_digits rest (dvalue acc ds) (n + length ds)%nat.
Proof.
  induction ds as [|c ds IH]; intros rest acc n H; simpl.
  - rewrite Nat.add_0_r. reflexivity.
  - rewrite (H c (or_introl eq_refl)). rewrite IH by (intros x Hx; apply H; right; exact Hx).
    simpl. replace (n + S (length ds))%nat with (S n + length ds)%nat by lia. reflexivity.
Qed.

Lemma read_digits_stop : forall rest acc n, match rest with [] => True | c :: _ => is_digit c = false end ->
  read_digits rest acc n = (acc, n, rest).
Proof. intros [|c rest] acc n H; [reflexivity|]. simpl. rewrite H. reflexivity. Qed.

Lemma dvalue_app : forall a b acc, dvalue acc (a ++ b) = dvalue (dvalue acc a) b.
Proof. intros. unfold dvalue. apply fold_left_app. Qed.

Lemma digit_char : forall n, n < 10 -> is_digit (n + 48) = true.
Proof. intros n H. unfold is_digit. lia. Qed.

Lemma digits_fuel_spec : forall fuel n acc, n < 10 ^ N.of_nat (S fuel) ->
  exists ds, digits_fuel fuel n acc = ds ++ acc /\ digits ds /\ ds <> [] /\ dvalue 0 ds = n.
Proof.
  induction fuel as [|f IH]; intros n acc H.
  - exists [n mod 10 + 48]. simpl. change (10 ^ N.of_nat 1) with 10 in H.
    rewrite N.mod_small by exact H. repeat split; try discriminate.
    + intros c [<-|[]]. apply digit_char. exact H.
    + unfold dvalue. simpl fold_left. lia.
  - simpl. destruct (n <? 10) eqn:E.
    + exists [n + 48]. repeat split; try discriminate.
      * intros c [<-|[]]. apply digit_char. lia.
      * unfold dvalue. simpl fold_left. lia.
    + rewrite Nat2N.inj_succ, N.pow_succ_r' in H.
      destruct (IH (n / 10) (n mod 10 + 48 :: acc)) as (ds & E1 & Hd & Hne & Hv).
      { apply N.div_lt_upper_bound; [lia|]. exact H. }
      exists (ds ++ [n mod 10 + 48]). rewrite E1, <- app_assoc. repeat split.
      * intros c Hc. apply in_app_or in Hc as [Hc|[<-|[]]]; [auto|]. apply digit_char. apply N.mod_lt. lia.
      * destruct ds; discriminate.
      * rewrite dvalue_app, Hv. change (10 * (n / 10) + (n mod 10 + 48 - 48) = n).
        pose proof (N.div_mod n 10 ltac:(lia)). pose proof (N.mod_lt n 10 ltac:(lia)). lia.
Qed.

Lemma size_bound : forall n, n < 10 ^ N.of_nat (S (N.size_nat n)).
Proof.
  intros n. destruct n as [|p]; [reflexivity|].
  apply N.lt_le_trans with (2 ^ N.of_nat (S (N.size_nat (N.pos p)))).
  - rewrite Nat2N.inj_succ. apply N.lt_trans with (2 ^ N.of_nat (N.size_nat (N.pos p))).
    + simpl N.size_nat. induction p as [p IH|p IH|]; simpl Pos.size_nat; try reflexivity;
        rewrite Nat2N.inj_succ, N.pow_succ_r'; lia.
    + apply N.pow_lt_mono_r; lia.
  - apply N.pow_le_mono_l. lia.
Qed.

Lemma show_N_spec : forall n, digits (show_N n) /\ show_N n <> [] /\ dvalue 0 (show_N n) = n.
Proof.
  intros n. unfold show_N. destruct (digits_fuel_spec (N.size_nat n) n [] (size_bound n)) as (ds & -> & H).
  rewrite app_nil_r. exact H.
Qed.

Lemma digits_cons : forall ds, digits ds -> ds <> [] -> exists c t, ds = c :: t /\ 48 <= c <= 57.
Proof.
  intros [|c t] H Hne; [contradiction|]. exists c, t. split; [reflexivity|].
  specialize (H c (or_introl eq_refl)). unfold is_digit in H. lia.
Qed.

Lemma parse_i32_unsigned : forall c t, 48 <= c <= 57 ->
  parse_i32 (c :: t) =
  let '(v, n, rest) := read_digits (c :: t) 0 0 in
  match n, rest with
  | S _, [] => if ((i32_min <=? Z.of_N v) && (Z.of_N v <=? i32_max))%Z then Some (Z.of_N v) else None
  | _, _ => None
  end.
Proof.
  intros c t H. unfold parse_i32. destruct c as [|p]; [reflexivity|].
  do 6 (destruct p as [p|p|]; try reflexivity); lia.
Qed.

Lemma parse_f32_unsigned : forall modern c t, 48 <= c <= 57 ->
  parse_f32 modern (c :: t) =
  match parse_decimal (c :: t) with
  | Some (m, e) => Some (dec_to_f32 false m e)
  | None => parse_nonfinite modern false (c :: t)
  end.
Proof.
  intros modern c t H. unfold parse_f32. destruct c as [|p]; [reflexivity|].
  do 6 (destruct p as [p|p|]; try reflexivity); lia.
Qed.

(** ** Integers *)
Lemma parse_i32_show : forall z, (i32_min <= z <= i32_max)%Z -> parse_i32 (show_Z z) = Some z.
Proof.
  intros z Hz. unfold show_Z. destruct (z <? 0)%Z eqn:E.
  - destruct (show_N_spec (Z.to_N (- z))) as (Hd & Hne & Hv). unfold parse_i32.
    rewrite <- (app_nil_r (show_N _)), read_digits_app by exact Hd. simpl read_digits.
    rewrite Hv. destruct (show_N (Z.to_N (- z))) as [|c t] eqn:Es; [contradiction|]. simpl length.
    replace (- Z.of_N (Z.to_N (- z)))%Z with z by lia.
    replace ((i32_min <=? z) && (z <=? i32_max))%Z with true by lia. reflexivity.
  - destruct (show_N_spec (Z.to_N z)) as (Hd & Hne & Hv).
    destruct (digits_cons _ Hd Hne) as (c & t & Es & Hc). rewrite Es, parse_i32_unsigned by exact Hc.
    rewrite <- Es. rewrite <- (app_nil_r (show_N _)), read_digits_app by exact Hd. simpl read_digits.
    rewrite Hv, Es. simpl length.
    replace (Z.of_N (Z.to_N z))%Z with z by lia.
    replace ((i32_min <=? z) && (z <=? i32_max))%Z with true by lia. reflexivity.
Qed.

(** ** Decimals *)
Lemma parse_decimal_int : forall n, parse_decimal (show_N n) = Some (n, 0%Z).
Proof.
  intros n. destruct (show_N_spec n) as (Hd & Hne & Hv). unfold parse_decimal.
  rewrite <- (app_nil_r (show_N n)), read_digits_app by exact Hd. simpl read_digits. rewrite Hv.
  destruct (show_N n); [contradiction|]. reflexivity.
Qed.

Lemma dvalue_zeros : forall k, dvalue 0 (repeat 48 k) = 0.
Proof. induction k as [|k IH]; [reflexivity|]. simpl. exact IH. Qed.

Lemma digits_zeros : forall k, digits (repeat 48 k).
Proof. intros k c H. apply repeat_spec in H. subst. reflexivity. Qed.

Lemma digits_app : forall a b, digits a -> digits b -> digits (a ++ b).
Proof. intros a b Ha Hb c H. apply in_app_or in H as [H|H]; auto. Qed.

Lemma parse_decimal_point : forall m f, (0 < f)%nat ->
  let ds := repeat 48 (f + 1 - length (show_N m)) ++ show_N m in
  parse_decimal (firstn (length ds - f) ds ++ 46 :: skipn (length ds - f) ds) = Some (m, (- Z.of_nat f)%Z) /\
  exists c t, firstn (length ds - f) ds = c :: t /\ 48 <= c <= 57.
Proof.
  intros m f Hf ds. destruct (show_N_spec m) as (Hd & Hne & Hv).
  assert (Hds : digits ds) by (apply digits_app; [apply digits_zeros|exact Hd]).
  assert (Hval : dvalue 0 ds = m) by (unfold ds; rewrite dvalue_app, dvalue_zeros; exact Hv).
  assert (Hlen : (f < length ds)%nat).
  { unfold ds. rewrite app_length, repeat_length. destruct (show_N m); [contradiction|]. simpl length. lia. }
  assert (Ha : digits (firstn (length ds - f) ds)).
  { intros c Hc. apply Hds. rewrite <- (firstn_skipn (length ds - f) ds). apply in_or_app. left. exact Hc. }
  assert (Hb : digits (skipn (length ds - f) ds)).
  { intros c Hc. apply Hds. rewrite <- (firstn_skipn (length ds - f) ds). apply in_or_app. right. exact Hc. }
  split.
  - unfold parse_decimal. rewrite read_digits_app by exact Ha. rewrite read_digits_stop by reflexivity.
    rewrite <- (app_nil_r (skipn _ ds)), read_digits_app by exact Hb. simpl read_digits.
    rewrite <- dvalue_app, firstn_skipn, Hval. rewrite firstn_length, skipn_length.
    change (0 + (length ds - (length ds - f)))%nat with (length ds - (length ds - f))%nat.
    replace (length ds - (length ds - f))%nat with f by lia.
    destruct (Nat.eqb_spec (0 + Nat.min (length ds - f) (length ds) + f) 0) as [E|_]; [exfalso; lia|]. reflexivity.
  - apply digits_cons; [exact Ha|]. intros E. apply (f_equal (@length N)) in E. rewrite firstn_length in E. simpl in E. lia.
Qed.

Lemma dec_scale : forall s m e, (0 <= e)%Z -> dec_to_f32 s (m * 10 ^ Z.to_N e) 0 = dec_to_f32 s m e.
Proof.
  intros s m e He. destruct m as [|p]; [reflexivity|].
  assert (Hp : 0 < 10 ^ Z.to_N e) by (apply N.neq_0_lt_0, N.pow_nonzero; lia).
  destruct (N.pos p * 10 ^ Z.to_N e) as [|q] eqn:E; [lia|].
  unfold dec_to_f32. replace (0 <=? e)%Z with true by lia. simpl (0 <=? 0)%Z. cbv iota.
  f_equal. f_equal. rewrite Z.pow_0_r, Z.mul_1_r.
  change (Z.pos q) with (Z.of_N (N.pos q)). rewrite <- E, N2Z.inj_mul, N2Z.inj_pow.
  rewrite Z2N.id by exact He. reflexivity.
Qed.

(** Reading back positional text, with either sign. *)
Lemma show_decimal_first : forall d, exists c t, show_decimal d = c :: t /\ 48 <= c <= 57.
Proof.
  intros [m e]. unfold show_decimal. destruct (0 <=? e)%Z eqn:He.
  - destruct (show_N_spec (m * 10 ^ Z.to_N e)) as (Hd & Hne & _). apply digits_cons; assumption.
  - destruct (parse_decimal_point m (Z.to_nat (- e)) ltac:(lia)) as [_ (c & t & E & Hc)].
    cbv zeta in E. rewrite E. exists c. eexists. split; [reflexivity|exact Hc].
Qed.

Lemma parse_show_decimal : forall s d,
  match parse_decimal (show_decimal d) with
  | Some (m, e) => dec_to_f32 s m e = dec_to_f32 s (fst d) (snd d)
  | None => False
  end.
Proof.
  intros s [m e]. unfold show_decimal. destruct (0 <=? e)%Z eqn:He.
  - rewrite parse_decimal_int. apply dec_scale. simpl. lia.
  - destruct (parse_decimal_point m (Z.to_nat (- e)) ltac:(lia)) as [E _]. cbv zeta in E. rewrite E.
    replace (- Z.of_nat (Z.to_nat (- e)))%Z with e by lia. reflexivity.
Qed.

Lemma parse_f32_decimal : forall modern d, parse_f32 modern (show_decimal d) = Some (dec_to_f32 false (fst d) (snd d)).
Proof.
  intros modern d. destruct (show_decimal_first d) as (c & t & E & Hc). rewrite E, parse_f32_unsigned by exact Hc.
  rewrite <- E. pose proof (parse_show_decimal false d) as H.
  destruct (parse_decimal (show_decimal d)) as [[m e]|]; [congruence|contradiction].
Qed.

Lemma parse_f32_neg_decimal : forall modern d,
  parse_f32 modern (45 :: show_decimal d) = Some (dec_to_f32 true (fst d) (snd d)).
Proof.
  intros modern d. unfold parse_f32. pose proof (parse_show_decimal true d) as H.
  destruct (parse_decimal (show_decimal d)) as [[m e]|]; [congruence|contradiction].
Qed.

(** ** The shortest search answers a decimal of the value itself. *)
Lemma f32_same_eq : forall a b, f32_same a b = true <-> a = b.
Proof.
  intros a b. split.
  - destruct a as [s|s| |s m e], b as [s'|s'| |s' m' e']; simpl; intros H; try discriminate; try reflexivity.
    + apply eqb_prop in H. congruence.
    + apply eqb_prop in H. congruence.
    + apply andb_true_iff in H as [H H3]. apply andb_true_iff in H as [H1 H2].
      apply eqb_prop in H1. apply Pos.eqb_eq in H2. apply Z.eqb_eq in H3. congruence.
  - intros <-. destruct a; simpl; rewrite ?eqb_reflx, ?Pos.eqb_refl, ?Z.eqb_refl; reflexivity.
Qed.

Lemma search_spec : forall fuel n k num den x dflt,
  dec_to_f32 false (fst dflt) (snd dflt) = x ->
  let d := shortest_search fuel n k num den x dflt in dec_to_f32 false (fst d) (snd d) = x.
Proof.
  induction fuel as [|f IH]; intros n k num den x dflt H; cbv zeta; [exact H|].
  cbn [shortest_search].
  destruct (if (0 <=? k - n)%Z then (num, (den * 10 ^ (k - n))%Z) else ((num * 10 ^ (- (k - n)))%Z, den)) as [a b].
  set (clo := strip0 _). set (chi := strip0 _).
  destruct (f32_same (dec_to_f32 false (fst chi) (snd chi)) x) eqn:Ehi;
  destruct (f32_same (dec_to_f32 false (fst clo) (snd clo)) x) eqn:Elo;
  rewrite ?andb_true_r, ?andb_false_r; cbv iota.
  - apply f32_same_eq in Ehi, Elo. destruct (negb (a / b =? 0)%Z); [destruct (2 * (a - a / b * b) <? b)%Z|]; assumption.
  - apply f32_same_eq in Ehi. assumption.
  - apply f32_same_eq in Elo. destruct (negb (a / b =? 0)%Z); [assumption|]. apply IH. exact H.
  - apply IH. exact H.
Qed.

Lemma shortest_spec : forall m e, f32_valid (S754_finite false m e) = true ->
  dec_to_f32 false (fst (shortest m e)) (snd (shortest m e)) = S754_finite false m e.
Proof.
  intros m e Hv. unfold shortest. apply search_spec.
  destruct (0 <=? e)%Z eqn:He; simpl fst; simpl snd.
  - apply dec_exact_nonneg; [exact Hv|lia].
  - apply dec_exact_neg; [exact Hv|lia].
Qed.

Lemma parse_show_f32 : forall modern neg_zero x, f32_valid x = true -> f32_finite x = true ->
  parse_f32 modern (show_f32 neg_zero x) =
  Some (match x with S754_zero true => S754_zero neg_zero | _ => x end).
Proof.
  intros modern neg_zero [s|s| |s m e] Hv Hf; try discriminate.
  - destruct s, neg_zero, modern; reflexivity.
  - unfold show_f32. destruct s.
    + rewrite parse_f32_neg_decimal, dec_sign, shortest_spec by exact Hv. reflexivity.
    + rewrite parse_f32_decimal, shortest_spec by exact Hv. reflexivity.
Qed.

Lemma parse_bracket : forall modern, parse_f32 modern (lit "[") = None.
Proof. intros [|]; reflexivity. Qed.
