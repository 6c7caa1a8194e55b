(** Numbers: reading texts, arithmetic (C82). *)
From Coq Require Import Reals Lra SpecFloat.
From Flocq Require Import Core BinarySingleNaN.
From Verif Require Import Prelude F32 Text TextSpec NumberSpec BaseProofs FloatProofs DecimalProofs TextProofs.
Local Close Scope R_scope.
Local Open Scope nat_scope.

(** ** Rounding *)
Lemma nearest_rnd : forall r, nearest r = rnd32 r.
Proof. reflexivity. Qed.
Lemma finite_fin : forall x, finite x <-> fin x.
Proof. intros x. unfold finite, datum, fin, f32_valid. rewrite is_finite_SF_finite. tauto. Qed.

Lemma rounded_unique : forall r z x y, rounded r z x -> rounded r z y -> x = y.
Proof.
  intros r z x y (A1 & A2) (B1 & B2). destruct (Rlt_or_le (Rabs (nearest r)) (bpow radix2 128)) as [L|L].
  - destruct (A1 L) as (Fx & Vx & Sx). destruct (B1 L) as (Fy & Vy & Sy). clear A1 A2 B1 B2.
    destruct (Req_dec (val x) 0) as [Z|Z].
    + assert (G : forall w s, finite w -> val w = 0%R -> negative w = s -> w = S754_zero s).
      { intros w s Fw Vw <-. destruct Fw as (_ & Fw). destruct w; try discriminate Fw; [reflexivity|]. now apply finite_nonzero in Vw. }
      rewrite (G x _ Fx Z Sx). rewrite (G y _ Fy ltac:(congruence) Sy). reflexivity.
    + apply val_inj; [now apply finite_fin..|congruence|exact Z].
  - now rewrite (A2 L), (B2 L).
Qed.

Lemma round_aux_signed : forall s m e l, SpecFloat.binary_round_aux 24 128 s m e l = S754_nan
  \/ sign_SF (SpecFloat.binary_round_aux 24 128 s m e l) = s.
Proof.
  intros s m e l. unfold SpecFloat.binary_round_aux. destruct (shr_fexp 24 128 m e l) as [mrs' e'].
  destruct (shr_fexp 24 128 _ e' loc_Exact) as [mrs'' e'']. destruct (shr_m mrs''); auto.
  destruct (Zle_bool e'' (128 - 24)); auto.
Qed.
Lemma dec_signed : forall s m e, dec_to_f32 s m e <> S754_nan -> sign_SF (dec_to_f32 s m e) = s.
Proof.
  intros s [|q] e; [reflexivity|]. unfold dec_to_f32. destruct (0 <=? e)%Z.
  - unfold SpecFloat.binary_round. destruct (shl_align _ _ _). intros H. destruct (round_aux_signed s (Z.pos p) z loc_Exact); [contradiction|assumption].
  - destruct (SFdiv_core_binary _ _ _ _ _ _) as [[a b] c]. intros H. destruct (round_aux_signed s a b c); [contradiction|assumption].
Qed.

Lemma bpow10_pos : forall e, (0 < bpow radix10 e)%R. Proof. intros. apply bpow_gt_0. Qed.
Lemma dec_rounded : forall s m e, rounded (IZR (cond_Zopp s (Z.of_N m)) * bpow radix10 e) s (dec_to_f32 s m e).
Proof.
  intros s m e. pose proof (dec_correct s m e) as (V & C). cbv zeta in *.
  set (r := (IZR (cond_Zopp s (Z.of_N m)) * bpow radix10 e)%R) in *.
  assert (Neg : match Rcompare r 0 with Lt => true | Gt => false | Eq => s end = s).
  { pose proof (bpow10_pos e) as P. destruct (Rcompare_spec r 0) as [L|E|L]; [|reflexivity|]; destruct s; try reflexivity; exfalso; unfold r in L; cbn [cond_Zopp] in L.
    - assert (0 <= IZR (Z.of_N m))%R by (apply IZR_le; lia). apply (Rlt_not_le _ _ L). apply Rmult_le_pos; lra.
    - assert (IZR (- Z.of_N m) <= 0)%R by (apply IZR_le; lia). apply (Rlt_not_le _ _ L).
      rewrite <- (Rmult_0_l (bpow radix10 e)). apply Rmult_le_compat_r; lra. }
  unfold rounded. rewrite Neg. clear Neg. rewrite nearest_rnd. split; intros L.
  - rewrite Rlt_bool_true in C by exact L. destruct C as (F & Ev). split; [apply finite_fin; now split|]. split; [exact Ev|].
    apply dec_signed. intros E. rewrite E in F. discriminate.
  - rewrite Rlt_bool_false in C by exact L. exact C.
Qed.

(** ** Decimal texts *)
Lemma read_digits_split : forall s acc n v k rest, read_digits s acc n = (v, k, rest) ->
  exists ds, s = ds ++ rest /\ digits ds /\ v = dvalue acc ds /\ k = n + length ds
    /\ match rest with [] => True | c :: _ => is_digit c = false end.
Proof.
  induction s as [|c s IH]; intros acc n v k rest H; simpl in H.
  - inv H. exists []. simpl. repeat split; auto; try lia. intros c [].
  - destruct (is_digit c) eqn:D.
    + apply IH in H. destruct H as (ds & -> & Dd & -> & -> & N). exists (c :: ds). repeat split; auto.
      * intros x [<-|I]; auto.
      * simpl. lia.
    + inv H. exists []. simpl. repeat split; auto; try lia. intros x [].
Qed.
Lemma read_digits_at : forall ds rest acc n, digits ds -> match rest with [] => True | c :: _ => is_digit c = false end ->
  read_digits (ds ++ rest) acc n = (dvalue acc ds, n + length ds, rest).
Proof. intros ds rest acc n D N. rewrite read_digits_app by exact D. now apply read_digits_stop. Qed.

Definition frac_part (r : str) (ip : N) : N * nat * str :=
  match r with 46%N :: r' => read_digits r' ip 0 | _ => (ip, 0%nat, r) end.
Lemma frac_part_point : forall r ip, frac_part (46%N :: r) ip = read_digits r ip 0. Proof. reflexivity. Qed.
Lemma frac_part_none : forall r ip, (forall t, r <> 46%N :: t) -> frac_part r ip = (ip, 0, r).
Proof.
  intros [|c r] ip H; [reflexivity|]. unfold frac_part. destruct (N.eq_dec c 46) as [->|N]; [exfalso; now apply (H r)|].
  destruct c as [|q]; [reflexivity|]. do 6 (destruct q as [q|q|]; try reflexivity); congruence.
Qed.
Definition exp_part (r2 : str) : option Z :=
  match r2 with
  | [] => Some 0%Z
  | c :: r3 =>
    if (c =? 101)%N || (c =? 69)%N then
      let '(neg, r4) := signed r3 in
      let '(x, nx, r5) := read_digits r4 0 0 in
      match nx, r5 with S _, [] => Some (if neg then - Z.of_N x else Z.of_N x)%Z | _, _ => None end
    else None
  end.
Lemma parse_decimal_parts : forall s, parse_decimal s =
  let '(ip, ni, r) := read_digits s 0 0 in
  let '(m, nf, r2) := frac_part r ip in
  if (ni + nf =? 0)%nat then None
  else match exp_part r2 with Some x => Some (m, (x - Z.of_nat nf)%Z) | None => None end.
Proof.
  intros s. unfold parse_decimal. destruct (read_digits s 0 0) as [[ip ni] r]. fold (frac_part r ip). destruct (frac_part r ip) as [[m nf] r2].
  destruct (ni + nf =? 0)%nat; [reflexivity|]. destruct r2 as [|c r3]; [reflexivity|]. unfold exp_part.
  destruct ((c =? 101)%N || (c =? 69)%N); [|reflexivity]. change (match r3 with 45%N :: u => (true, u) | 43%N :: v => (false, v) | _ => (false, r3) end) with (signed r3). destruct (signed r3) as [neg r4].
  destruct (read_digits r4 0 0) as [[x nx] r5]. destruct nx, r5; reflexivity.
Qed.

Lemma signed_text_cases : forall s neg r, signed s = (neg, r) -> exists sign, s = sign ++ r /\ signed_text sign neg.
Proof.
  intros s neg r H. destruct (signed_cases s) as [(t & -> & E)|[(t & -> & E)|(_ & E)]]; rewrite E in H; inv H.
  - exists (lit "-"). split; [reflexivity|now left].
  - exists (lit "+"). split; [reflexivity|right; auto].
  - exists []. split; [reflexivity|right; auto].
Qed.
Lemma signed_text_signed : forall sign neg r, signed_text sign neg -> (forall t, r <> 45%N :: t /\ r <> 43%N :: t) -> signed (sign ++ r) = (neg, r).
Proof.
  intros sign neg r [(-> & ->)|([-> | ->] & ->)] N; try reflexivity. simpl.
  destruct (signed_cases r) as [(t & E & _)|[(t & E & _)|(_ & E)]]; [now destruct (N t)..|exact E].
Qed.
Lemma digits_unsigned : forall ds rest, all_digits ds -> ds <> [] -> forall t, ds ++ rest <> 45%N :: t /\ ds ++ rest <> 43%N :: t.
Proof.
  intros ds rest D N t. destruct ds as [|c ds]; [congruence|]. specialize (D c (or_introl eq_refl)). split; intros E; injection E as -> _; lia.
Qed.

Lemma exp_part_iff : forall s x, exp_part s = Some x <-> exponent_text s x.
Proof.
  intros s x. split.
  - destruct s as [|c r3]; simpl; intros H; [inv H; now left|]. right.
    destruct ((c =? 101)%N || (c =? 69)%N) eqn:M; [|discriminate].
    destruct (signed r3) as [neg r4] eqn:Sg. destruct (read_digits r4 0 0) as [[v nx] r5] eqn:Rd.
    destruct nx; [discriminate|]. destruct r5; [|discriminate]. inv H.
    apply read_digits_inv in Rd. destruct Rd as (D & -> & L). apply signed_text_cases in Sg. destruct Sg as (sign & -> & St).
    exists [c], sign, neg, r4. apply digits_iff in D. split; [reflexivity|]. split.
    { apply orb_true_iff in M. destruct M as [M|M]; apply N.eqb_eq in M; subst c; auto. }
    split; [exact St|]. split; [intros ->; discriminate|]. split; [exact D|]. rewrite place_dvalue by exact D. reflexivity.
  - intros [(-> & ->)|(mark & sign & neg & ds & -> & Mk & St & N & D & ->)]; [reflexivity|].
    assert (Hd : exp_part (mark ++ sign ++ ds) = let '(neg, r4) := signed (sign ++ ds) in
      let '(x, nx, r5) := read_digits r4 0 0 in
      match nx, r5 with S _, [] => Some (if neg then - Z.of_N x else Z.of_N x)%Z | _, _ => None end) by (destruct Mk as [-> | ->]; reflexivity).
    rewrite Hd, (signed_text_signed _ _ _ St).
    + rewrite read_all by now apply digits_iff. destruct ds as [|c ds]; [congruence|]. cbn [length plus].
      rewrite place_dvalue by exact D. reflexivity.
    + intros t. pose proof (digits_unsigned ds [] D N t) as U. now rewrite app_nil_r in U.
Qed.
Lemma exponent_start : forall s x, exponent_text s x -> match s with [] => True | c :: _ => c = 101%N \/ c = 69%N end.
Proof. intros s x [(-> & _)|(mark & sign & neg & ds & -> & [-> | ->] & _)]; simpl; auto. Qed.

Lemma all_digits_app : forall a b, all_digits (a ++ b) <-> all_digits a /\ all_digits b.
Proof. intros a b. unfold all_digits. split; [intros H; split; intros c I; apply H, in_or_app; auto|intros (A & B) c I; apply in_app_or in I; destruct I; auto]. Qed.

Theorem parse_decimal_iff : forall s m e, parse_decimal s = Some (m, e) <-> decimal_text s (Z.of_N m) e.
Proof.
  intros s m e. rewrite parse_decimal_parts. split.
  - destruct (read_digits s 0 0) as [[ip ni] r] eqn:R1. destruct (frac_part r ip) as [[m' nf] r2] eqn:R2.
    destruct (Nat.eqb_spec (ni + nf) 0) as [Z|Z]; [discriminate|]. destruct (exp_part r2) as [x|] eqn:X; [|discriminate]. intros H. inv H.
    apply read_digits_split in R1. destruct R1 as (ds & -> & D & -> & -> & N1). apply exp_part_iff in X. apply digits_iff in D.
    destruct r as [|c r]; [|destruct (N.eq_dec c 46) as [->|Nc]].
    + rewrite frac_part_none in R2 by discriminate. inv R2. exists ds, [], [], [], x. rewrite !app_nil_r. cbn [app].
      repeat (split; [first [reflexivity|assumption|intros ? []]|]). split; [intros ->; simpl in Z; lia|]. split; [now right|]. split; [exact X|].
      rewrite place_dvalue by exact D. split; [reflexivity|simpl; lia].
    + rewrite frac_part_point in R2. apply read_digits_split in R2. destruct R2 as (fs & -> & F & -> & -> & N2). apply digits_iff in F.
      exists ds, (lit "."), fs, r2, x. split; [reflexivity|]. split; [exact D|]. split; [exact F|]. split.
      { intros Q. apply app_eq_nil in Q. destruct Q as (-> & ->). simpl in Z. lia. }
      split; [now left|]. split; [exact X|]. rewrite <- dvalue_app, place_dvalue by now apply all_digits_app. split; [reflexivity|simpl; lia].
    + rewrite frac_part_none in R2 by congruence. inv R2. exists ds, [], [], (c :: r), x. rewrite !app_nil_r. cbn [app].
      repeat (split; [first [reflexivity|assumption|intros ? []]|]). split; [intros ->; simpl in Z; lia|]. split; [now right|]. split; [exact X|].
      rewrite place_dvalue by exact D. split; [reflexivity|simpl; lia].
  - intros (ip & point & fp & ex & x & -> & Di & Df & Ne & Pt & X & Em & ->). pose proof (exponent_start _ _ X) as St. apply exp_part_iff in X.
    assert (Ndex : match ex with [] => True | c :: _ => is_digit c = false end) by (destruct ex as [|c ex]; [exact I|destruct St as [-> | ->]; reflexivity]).
    assert (Di' := proj2 (digits_iff _) Di). assert (Df' := proj2 (digits_iff _) Df).
    assert (Em' : m = dvalue (dvalue 0 ip) fp).
    { apply N2Z.inj. rewrite Em, <- dvalue_app, place_dvalue by now apply all_digits_app. reflexivity. }
    destruct Pt as [-> | (-> & ->)].
    + rewrite read_digits_at by (exact Di' || reflexivity). rewrite (frac_part_point (fp ++ ex)), read_digits_at by assumption. rewrite X.
      destruct (Nat.eqb_spec (0 + length ip + (0 + length fp)) 0) as [Z|Z].
      { exfalso. apply Ne. destruct ip, fp; try reflexivity; simpl in Z; lia. }
      rewrite <- Em'. reflexivity.
    + cbn [app] in *. rewrite read_digits_at by assumption. rewrite frac_part_none.
      2:{ intros t E. rewrite E in St. destruct St as [St|St]; discriminate St. }
      rewrite X. destruct (Nat.eqb_spec (0 + length ip + 0) 0) as [Z|Z].
      { exfalso. apply Ne. destruct ip; [reflexivity|simpl in Z; lia]. }
      rewrite Em'. reflexivity.
Qed.

(** ** Spellings *)
Lemma lower_char : forall k c, (97 <= k <= 122)%N -> (ascii_lower c = k <-> c = k \/ c = k - 32)%N.
Proof. intros k c H. unfold ascii_lower. destruct ((65 <=? c) && (c <=? 90))%N eqn:E; lia. Qed.
Lemma any_case_iff : forall w s, Forall (fun k => 97 <= k <= 122)%N w -> (map ascii_lower s = w <-> any_case w s).
Proof.
  intros w s H. revert s. induction H as [|k w K H IH]; intros [|c s]; simpl; (split; [intros E|intros E; inv E]); try discriminate; try constructor; auto.
  - apply lower_char; [exact K|]. now injection E.
  - apply IH. now injection E.
  - f_equal; [now apply lower_char|now apply IH].
Qed.
Lemma small_word : forall w, forallb (fun k => (97 <=? k) && (k <=? 122))%N w = true -> Forall (fun k => 97 <= k <= 122)%N w.
Proof. intros w H. rewrite forallb_forall in H. apply Forall_forall. intros k I. specialize (H k I). lia. Qed.

Lemma nonfinite_iff : forall modern neg s x, parse_nonfinite modern neg s = Some x <->
  (infinite_text modern s /\ x = S754_infinity neg) \/ (nan_text modern s /\ x = S754_nan).
Proof.
  intros [|] neg s x; unfold parse_nonfinite, infinite_text, nan_text.
  - rewrite <- !any_case_iff by (apply small_word; reflexivity). cbv zeta.
    destruct (str_eqb (map ascii_lower s) (lit "inf")) eqn:E1; [apply str_eqb_eq in E1; rewrite E1|].
    { simpl. split; [intros H; inv H; auto|]. intros [(_ & ->)|(H & _)]; [reflexivity|discriminate]. }
    destruct (str_eqb (map ascii_lower s) (lit "infinity")) eqn:E2; [apply str_eqb_eq in E2; rewrite E2|].
    { simpl. split; [intros H; inv H; auto|]. intros [(_ & ->)|(H & _)]; [reflexivity|discriminate]. }
    destruct (str_eqb (map ascii_lower s) (lit "nan")) eqn:E3; [apply str_eqb_eq in E3; rewrite E3|].
    { simpl. split; [intros H; inv H; auto|]. intros [([H|H] & _)|(_ & ->)]; [discriminate..|reflexivity]. }
    simpl. split; [discriminate|]. intros [([H|H] & _)|(H & _)]; apply str_eqb_eq in H; congruence.
  - destruct (str_eqb s (lit "inf")) eqn:E1; [apply str_eqb_eq in E1; rewrite E1|].
    { simpl. split; [intros H; inv H; auto|]. intros [(_ & ->)|(H & _)]; [reflexivity|discriminate]. }
    destruct (str_eqb s (lit "NaN")) eqn:E3; [apply str_eqb_eq in E3; rewrite E3|].
    { simpl. split; [intros H; inv H; auto|]. intros [(H & _)|(_ & ->)]; [discriminate|reflexivity]. }
    split; [discriminate|]. intros [(H & _)|(H & _)]; apply str_eqb_eq in H; congruence.
Qed.

Definition unsigned_body (modern : bool) (neg : bool) (body : str) (x : f32) : Prop :=
  (exists m e, decimal_text body m e /\ rounded (IZR (cond_Zopp neg m) * bpow radix10 e) neg x)
  \/ (infinite_text modern body /\ x = S754_infinity neg) \/ (nan_text modern body /\ x = S754_nan).
Lemma place_value_nonneg : forall ds, all_digits ds -> (0 <= place_value ds)%Z.
Proof. intros ds D. rewrite <- place_dvalue by exact D. lia. Qed.
Lemma decimal_nonneg : forall s m e, decimal_text s m e -> (0 <= m)%Z.
Proof. intros s m e (ip & point & fp & ex & x & _ & A & B & _ & _ & _ & -> & _). apply place_value_nonneg, all_digits_app. now split. Qed.
Lemma decimal_start : forall s m e, decimal_text s m e -> exists c t, s = c :: t /\ ((48 <= c <= 57)%N \/ c = 46%N).
Proof.
  intros s m e (ip & point & fp & ex & x & -> & A & B & N & P & _). destruct ip as [|c ip].
  - destruct P as [-> | (-> & ->)]; [|now elim N]. eexists _, _. split; [reflexivity|now right].
  - eexists _, _. split; [reflexivity|]. left. apply A. now left.
Qed.
Lemma head_differs : forall c s w, hd 0%N w <> c -> str_eqb (c :: s) w = false.
Proof. intros c s w H. destruct (str_eqb (c :: s) w) eqn:E; [|reflexivity]. apply str_eqb_eq in E. subst w. now elim H. Qed.
Lemma body_iff : forall modern neg body x,
  match parse_decimal body with Some (m, e) => Some (dec_to_f32 neg m e) | None => parse_nonfinite modern neg body end = Some x
  <-> unsigned_body modern neg body x.
Proof.
  intros modern neg body x. unfold unsigned_body. destruct (parse_decimal body) as [[m e]|] eqn:P.
  - assert (D := proj1 (parse_decimal_iff _ _ _) P). split.
    + intros H. inv H. left. exists (Z.of_N m), e. split; [exact D|apply dec_rounded].
    + intros [(m' & e' & D' & Rd)|K].
      * pose proof (decimal_nonneg _ _ _ D') as Nn. rewrite <- (Z2N.id m') in D' by exact Nn. apply parse_decimal_iff in D'. rewrite P in D'. inv D'.
        f_equal. apply (rounded_unique _ _ _ _ (dec_rounded _ _ _)). rewrite Z2N.id by exact Nn. exact Rd.
      * exfalso. destruct (decimal_start _ _ _ D) as (c & t & -> & C). apply nonfinite_iff in K.
        assert (F : parse_nonfinite modern neg (c :: t) = None).
        { unfold parse_nonfinite. destruct modern.
          - cbn [map]. assert (L : ascii_lower c = c) by (unfold ascii_lower; destruct ((65 <=? c) && (c <=? 90))%N eqn:E; lia). rewrite L.
            now rewrite (head_differs c (map ascii_lower t) (lit "inf")), (head_differs c (map ascii_lower t) (lit "infinity")),
              (head_differs c (map ascii_lower t) (lit "nan")) by (simpl; lia).
          - now rewrite (head_differs c t (lit "inf")), (head_differs c t (lit "NaN")) by (simpl; lia). }
        congruence.
  - rewrite nonfinite_iff. split; [auto|]. intros [(m & e & D & _)|K]; [|exact K]. exfalso.
    pose proof (decimal_nonneg _ _ _ D) as Nn. rewrite <- (Z2N.id m) in D by exact Nn. apply parse_decimal_iff in D. congruence.
Qed.
Lemma body_unsigned : forall modern neg body x, unsigned_body modern neg body x -> forall t, body <> 45%N :: t /\ body <> 43%N :: t.
Proof.
  intros modern neg body x [(m & e & D & _)|[(H & _)|(H & _)]] t.
  - destruct (decimal_start _ _ _ D) as (c & u & -> & C). split; intros E; injection E as -> _; lia.
  - unfold infinite_text in H. destruct modern; [|subst; split; discriminate]. destruct H as [H|H]; inv H; split; intros E; injection E as -> _; lia.
  - unfold nan_text in H. destruct modern; [|subst; split; discriminate]. inv H; split; intros E; injection E as -> _; lia.
Qed.

Theorem parse_f32_iff : forall modern s x, parse_f32 modern s = Some x <-> float_text modern s x.
Proof.
  intros modern s x. unfold parse_f32. change (match s with 45%N :: u => (true, u) | 43%N :: v => (false, v) | _ => (false, s) end) with (signed s). destruct (signed s) as [neg r] eqn:Sg. rewrite body_iff. unfold float_text. split.
  - intros H. apply signed_text_cases in Sg. destruct Sg as (sign & -> & St). exists sign, neg, r. auto.
  - intros (sign & neg' & body & -> & St & H). fold (unsigned_body modern neg' body x) in H.
    rewrite (signed_text_signed _ _ _ St (body_unsigned _ _ _ _ H)) in Sg. now inv Sg.
Qed.
