(** Proofs about the FGD writer. *)
From Verif Require Import Prelude F32 Text MapModel GameDataModel GameDataSpec BaseProofs MapSpec DecimalProofs.
Local Open Scope N_scope.

(** ** Reader combinators *)
Lemma until_app : forall d a r, ~ In d a -> until d (a ++ d :: r) = Some (a, r).
Proof.
  induction a as [|c a IH]; simpl; intros r H.
  - now rewrite N.eqb_refl.
  - destruct (N.eqb_spec c d) as [->|]; [exfalso; auto|]. rewrite IH; auto.
Qed.

Lemma expect_app : forall w r, expect w (w ++ r) = Some r.
Proof. induction w; simpl; intros; auto. now rewrite N.eqb_refl. Qed.

Lemma read_quoted_app : forall a r, no_quote a -> read_quoted (34 :: a ++ 34 :: r) = Some (a, r).
Proof. intros a r H. unfold read_quoted. simpl. now apply until_app. Qed.

Lemma quoted_app : forall a r, no_quote a -> read_quoted (q ++ a ++ q ++ r) = Some (a, r).
Proof. exact read_quoted_app. Qed.

Lemma many_app : forall A B (item : str -> option (B * str)) stop (pr : A -> str) (vis : A -> B) l fuel rest,
  (forall x, In x l -> pr x <> [] /\ (forall r, expect stop (pr x ++ r) = None)
                       /\ (forall r, item (pr x ++ r) = Some (vis x, r))) ->
  (length l < fuel)%nat ->
  many fuel stop item (flat_map pr l ++ stop ++ rest) = Some (map vis l, rest).
Proof.
  intros A B item stop pr vis l. induction l as [|x l IH]; intros fuel rest H Hf.
  - destruct fuel; [simpl in Hf; lia|]. simpl. now rewrite expect_app.
  - destruct fuel; [simpl in Hf; lia|]. cbn [many flat_map map].
    destruct (H x (or_introl eq_refl)) as (_ & He & Hi).
    rewrite <- app_assoc. rewrite He, Hi.
    rewrite IH; auto. + intros; apply H; simpl; auto. + simpl in Hf; lia.
Qed.

Lemma flat_map_length_ge : forall A (pr : A -> str) l, (forall x, In x l -> pr x <> []) ->
  (length l <= length (flat_map pr l))%nat.
Proof.
  induction l as [|x l IH]; intros H; simpl; auto. rewrite app_length.
  assert (pr x <> []) by (apply H; simpl; auto).
  destruct (pr x); [congruence|]. simpl.
  specialize (IH (fun y Hy => H y (or_intror Hy))). lia.
Qed.

Lemma many_full : forall A B (item : str -> option (B * str)) stop (pr : A -> str) (vis : A -> B) l rest,
  (forall x, In x l -> pr x <> [] /\ (forall r, expect stop (pr x ++ r) = None)
                       /\ (forall r, item (pr x ++ r) = Some (vis x, r))) ->
  many (S (length (flat_map pr l ++ stop ++ rest))) stop item (flat_map pr l ++ stop ++ rest)
  = Some (map vis l, rest).
Proof.
  intros A B item stop pr vis l rest H. apply many_app; auto.
  rewrite app_length. pose proof (flat_map_length_ge _ pr l (fun x Hx => proj1 (H x Hx))). lia.
Qed.

(** ** Characters of numbers *)
Definition number_char (c : N) : Prop :=
  48 <= c <= 57 \/ c = 45 \/ c = 46 \/ 65 <= c <= 90 \/ 97 <= c <= 122.

Lemma digits_chars : forall s, digits s -> forall c, In c s -> number_char c.
Proof. intros s H c Hc. left. specialize (H c Hc). unfold is_digit in H. lia. Qed.

Lemma show_N_chars : forall n c, In c (show_N n) -> number_char c.
Proof. intros n. apply digits_chars, show_N_spec. Qed.

Lemma show_Z_chars : forall z c, In c (show_Z z) -> number_char c.
Proof.
  intros z c H. unfold show_Z in H. destruct (z <? 0)%Z.
  - destruct H as [<-|H]; [unfold number_char; lia|eauto using show_N_chars].
  - eauto using show_N_chars.
Qed.

Lemma show_decimal_chars : forall d c, In c (show_decimal d) -> number_char c.
Proof.
  intros [m e] c H. unfold show_decimal in H. destruct (0 <=? e)%Z.
  - eauto using show_N_chars.
  - assert (D : digits (repeat 48 (Z.to_nat (- e) + 1 - length (show_N m)) ++ show_N m)).
    { apply digits_app; [apply digits_zeros|apply show_N_spec]. }
    apply in_app_or in H. destruct H as [H|[<-|H]].
    + apply (digits_chars _ D). rewrite <- (firstn_skipn (length (repeat 48 (Z.to_nat (- e) + 1 - length (show_N m)) ++ show_N m) - Z.to_nat (- e))).
      apply in_or_app; auto.
    + unfold number_char; lia.
    + apply (digits_chars _ D). rewrite <- (firstn_skipn (length (repeat 48 (Z.to_nat (- e) + 1 - length (show_N m)) ++ show_N m) - Z.to_nat (- e))).
      apply in_or_app; auto.
Qed.

Lemma show_f32_chars : forall b x c, In c (show_f32 b x) -> number_char c.
Proof.
  intros b [s|s| |s m e] c H; simpl in H.
  - unfold number_char. destruct (s && b); simpl in H; lia.
  - unfold number_char. destruct s; simpl in H; lia.
  - unfold number_char. lia.
  - destruct s; [destruct H as [<-|H]|]; eauto using show_decimal_chars. unfold number_char; lia.
Qed.

Lemma number_no : forall s d, (forall c, In c s -> number_char c) -> ~ number_char d -> ~ In d s.
Proof. auto. Qed.

Lemma show_Z_nonempty : forall z, show_Z z <> [].
Proof.
  intros z. unfold show_Z. destruct (z <? 0)%Z; [discriminate|]. apply show_N_spec.
Qed.
Lemma show_f32_nonempty : forall b x, show_f32 b x <> [].
Proof.
  intros b [s|s| |s m e]; simpl.
  - destruct (s && b); discriminate.
  - destruct s; discriminate.
  - discriminate.
  - destruct (show_decimal_first (shortest m e)) as (c & t & -> & _). destruct s; discriminate.
Qed.

Ltac nochar := first
  [ apply number_no; [first [apply show_Z_chars|apply show_f32_chars]|unfold number_char; lia]
  | assumption ].

(** ** Pieces *)
Arguments until : simpl never.
Arguments read_quoted : simpl never.
Arguments many : simpl never.
Arguments show_Z : simpl never.
Arguments show_f32 : simpl never.
Arguments split_char : simpl never.
Arguments show_float : simpl never.
Arguments num_text : simpl never.
Arguments channel_text : simpl never.
Arguments channel : simpl never.
Arguments f32_mul : simpl never.
Arguments f32_to_i32 : simpl never.

(** Base class list: the accumulator test only matters for empty names (C56). *)
Lemma join_base_from : forall l acc, acc <> [] -> 
  fold_left (fun acc next => (match acc with [] => [] | _ => acc ++ lit ", " end) ++ next) l acc
  = acc ++ flat_map (fun x => lit ", " ++ x) l.
Proof.
  induction l as [|x l IH]; intros acc H; simpl.
  - now rewrite app_nil_r.
  - destruct acc as [|a acc]; [congruence|]. rewrite IH by discriminate.
    simpl. rewrite <- !app_assoc. reflexivity.
Qed.

Lemma commas_flat : forall l x, comma_separated (x :: l) = x ++ flat_map (fun y => lit ", " ++ y) l.
Proof.
  induction l as [|y l IH]; intros x; cbn [flat_map].
  - simpl. now rewrite app_nil_r.
  - change (comma_separated (x :: y :: l)) with (x ++ lit ", " ++ comma_separated (y :: l)). rewrite IH.
    now rewrite <- app_assoc.
Qed.

Lemma join_base_commas : forall l, (forall c, In c l -> c <> []) -> join_base l = comma_separated l.
Proof.
  intros [|x l] H; [reflexivity|]. unfold join_base. cbn [fold_left].
  rewrite join_base_from by (simpl; apply H; simpl; auto). now rewrite commas_flat.
Qed.

Lemma drop_space_id : forall s, ~ In 32 s -> drop_space s = s.
Proof.
  intros [|c s] H; [reflexivity|]. unfold drop_space.
  destruct c as [|p]; [reflexivity|].
  assert (N.pos p <> 32) by (intros E; apply H; rewrite E; left; reflexivity).
  repeat (destruct p as [p|p|]; try reflexivity). congruence.
Qed.

Lemma comma_list_commas : forall l, (forall c, In c l -> c <> [] /\ ~ In 32 c /\ ~ In 44 c) ->
  comma_list (comma_separated l) = l.
Proof.
  intros [|x l] H; [reflexivity|].
  assert (E : split_char 44 (comma_separated (x :: l)) = x :: map (cons 32) l).
  { clear -H. revert x H. induction l as [|y l IH]; intros x H.
    - apply split_char_none. apply H; simpl; auto.
    - change (comma_separated (x :: y :: l)) with (x ++ 44 :: 32 :: comma_separated (y :: l)).
      rewrite split_char_app_sep by (apply H; simpl; auto). f_equal.
      specialize (IH y (fun c Hc => H c (or_intror Hc))).
      change (split_char 44 (32 :: comma_separated (y :: l))) with
        (if 32 =? 44 then [] :: split_char 44 (comma_separated (y :: l))
         else match split_char 44 (comma_separated (y :: l)) with p :: ps => (32 :: p) :: ps | [] => [[32]] end).
      rewrite IH. reflexivity. }
  unfold comma_list. destruct (comma_separated (x :: l)) eqn:C.
  - exfalso. rewrite commas_flat in C. apply app_eq_nil in C.
    destruct (H x (or_introl eq_refl)) as [Hx _]. destruct C; auto.
  - rewrite E. simpl. f_equal.
    + apply drop_space_id. apply H; simpl; auto.
    + rewrite map_map. simpl. apply map_id.
Qed.

Lemma commas_no : forall l d, d <> 44 -> d <> 32 -> (forall c, In c l -> ~ In d c) -> ~ In d (comma_separated l).
Proof.
  intros [|x l] d H1 H2 H; [auto|]. rewrite commas_flat. intros I. apply in_app_or in I.
  destruct I as [I|I]; [eapply H; [|apply I]; simpl; auto|].
  apply in_flat_map in I. destruct I as (y & Hy & I). simpl in I.
  destruct I as [I|[I|I]]; [congruence|congruence|]. eapply H; [|apply I]; simpl; auto.
Qed.

Lemma commas6 : forall a b c d e f, comma_separated [a; b; c; d; e; f] =
  (a ++ lit ", " ++ b ++ lit ", " ++ c) ++ lit ", " ++ (d ++ lit ", " ++ e ++ lit ", " ++ f).
Proof. intros. simpl. rewrite <- !app_assoc. simpl. rewrite <- app_assoc. reflexivity. Qed.

Section Writer.
Context (p : platform).

Lemma read_meta_ok : forall m, wf_meta m -> forall r,
  read_meta ((show_metadata p m ++ lit " ") ++ r) = Some (visible_meta p m, r).
Proof.
  intros m H r. unfold read_meta. destruct m as [cs|c|lo hi].
  - cbn [show_metadata]. rewrite join_base_commas by (intros c Hc; apply (H c Hc)).
    simpl in H.
    change ((((lit "base(" ++ comma_separated cs ++ lit ")") ++ lit " ") ++ r))
      with (lit "base" ++ 40 :: ((comma_separated cs ++ lit ")") ++ lit " ") ++ r).
    rewrite until_app by (simpl; intuition discriminate).
    rewrite <- !app_assoc. cbn [app lit].
    change (lit ")" ++ lit " " ++ r) with (41 :: 32 :: r).
    rewrite until_app by (apply commas_no; [discriminate|discriminate|intros c Hc; apply (H c Hc)]).
    simpl. rewrite comma_list_commas; [reflexivity|]. intros c Hc. specialize (H c Hc). tauto.
  - cbn [show_metadata]. unfold show_color.
    change (((lit "color(" ++ (show_Z (channel (c_r c)) ++ lit " " ++ show_Z (channel (c_g c)) ++ lit " "
       ++ show_Z (channel (c_b c))) ++ lit ")") ++ lit " ") ++ r) with
     (lit "color" ++ 40 :: (((show_Z (channel (c_r c)) ++ 32 :: show_Z (channel (c_g c)) ++ 32 ::
       show_Z (channel (c_b c))) ++ lit ")") ++ lit " ") ++ r).
    rewrite until_app by (simpl; intuition discriminate).
    rewrite <- !(app_assoc _ _ r), <- app_assoc.
    change (lit ")" ++ lit " " ++ r) with (41 :: 32 :: r).
    rewrite until_app.
    2:{ intros I. apply in_app_or in I. simpl in I. destruct I as [I|[I|I]]; [|discriminate|].
        - revert I. nochar. - apply in_app_or in I. simpl in I. destruct I as [I|[I|I]]; [|discriminate|];
          revert I; nochar. }
    simpl. rewrite !split_char_app_sep by nochar. rewrite split_char_none by nochar. reflexivity.
  - cbn [show_metadata]. unfold show_vec.
    set (L := [show_float p (vx lo); show_float p (vy lo); show_float p (vz lo);
               show_float p (vx hi); show_float p (vy hi); show_float p (vz hi)]).
    match goal with |- context [lit "size(" ++ ?X] => replace X with (comma_separated L ++ lit ")") end.
    2:{ unfold L. rewrite commas6, <- !app_assoc. reflexivity. }
    assert (HL : forall c, In c L -> c <> [] /\ ~ In 32 c /\ ~ In 44 c /\ ~ In 41 c).
    { intros c I. unfold L in I. simpl in I.
      repeat (destruct I as [<-|I]; [split; [apply show_f32_nonempty|split; [|split]; nochar]|]). destruct I. }
    change ((((lit "size(" ++ comma_separated L ++ lit ")") ++ lit " ") ++ r))
      with (lit "size" ++ 40 :: ((comma_separated L ++ lit ")") ++ lit " ") ++ r).
    rewrite until_app by (simpl; intuition discriminate).
    rewrite <- !(app_assoc _ _ r), <- app_assoc.
    change (lit ")" ++ lit " " ++ r) with (41 :: 32 :: r).
    rewrite until_app by (apply commas_no; [discriminate|discriminate|intros c Hc; apply (HL c Hc)]).
    simpl expect. cbn iota beta. rewrite comma_list_commas; [reflexivity|]. intros c Hc. specialize (HL c Hc). tauto.
Qed.

(** ** Flags *)
Lemma pow2_land : forall d i, (0 <= i)%Z -> Z.land d (2 ^ i) = if Z.testbit d i then (2 ^ i)%Z else 0%Z.
Proof.
  intros d i Hi. apply Z.bits_inj'. intros n Hn. rewrite Z.land_spec.
  destruct (Z.eq_dec i n) as [->|Hne].
  - rewrite Z.pow2_bits_true by auto. rewrite andb_true_r.
    destruct (Z.testbit d n); [now rewrite Z.pow2_bits_true|now rewrite Z.bits_0].
  - rewrite Z.pow2_bits_false by auto. rewrite andb_false_r.
    destruct (Z.testbit d i); [now rewrite Z.pow2_bits_false|now rewrite Z.bits_0].
Qed.

Definition flag_text (d : Z) (i : Z) (f : str) : str :=
  flag_line (2 ^ i) f (Z.testbit d i).

Lemma show_flag_ok : forall d i f, (Z.of_nat i < 31)%Z ->
  show_flag p d (i, f) = Ok (flag_text d (Z.of_nat i) f).
Proof.
  intros d i f H. unfold show_flag, flag_bit. cbn [fst snd].
  replace (Z.of_nat i <? 31)%Z with true by lia. cbn [bind].
  rewrite pow2_land by lia. unfold flag_text.
  pose proof (Z.pow_pos_nonneg 2 (Z.of_nat i) ltac:(lia) ltac:(lia)).
  destruct (Z.testbit d (Z.of_nat i)).
  - replace (0 <? 2 ^ Z.of_nat i)%Z with true by lia. reflexivity.
  - reflexivity.
Qed.

Fixpoint flags_text (d : Z) (i : Z) (fs : list str) : list str :=
  match fs with [] => [] | f :: t => flag_text d i f :: flags_text d (i + 1) t end.

Lemma show_flags_ok : forall d fs i, (Z.of_nat i + Z.of_nat (length fs) <= 31)%Z ->
  mapM (show_flag p d) (enumerate_from i fs) = Ok (flags_text d (Z.of_nat i) fs).
Proof.
  induction fs as [|f fs IH]; intros i H; [reflexivity|].
  cbn [enumerate_from mapM flags_text]. cbn [length] in H. rewrite show_flag_ok by lia. cbn [bind].
  rewrite IH by lia. cbn [bind]. do 3 f_equal. lia.
Qed.

Lemma flags_text_nth : forall d fs i k f, nth_error fs k = Some f ->
  nth_error (flags_text d i fs) k = Some (flag_line (2 ^ (i + Z.of_nat k)) f (Z.testbit d (i + Z.of_nat k))).
Proof.
  induction fs as [|g fs IH]; intros i [|k] f H; try discriminate H.
  - injection H as ->. cbn [flags_text nth_error]. unfold flag_text. now rewrite Z.add_0_r.
  - cbn [flags_text nth_error]. erewrite IH by exact H. now replace (i + 1 + Z.of_nat k)%Z with (i + Z.of_nat (S k))%Z by lia.
Qed.

Lemma flags_text_length : forall d fs i, length (flags_text d i fs) = length fs.
Proof. induction fs; simpl; intros; auto. Qed.

Lemma show_flag_panic : forall d i f, (31 <= Z.of_nat i)%Z -> p_overflow_checks p = true ->
  show_flag p d (i, f) = Panic (lit "attempt to multiply with overflow").
Proof.
  intros d i f H O. unfold show_flag, flag_bit. cbn [fst]. replace (Z.of_nat i <? 31)%Z with false by lia.
  rewrite O. reflexivity.
Qed.

Lemma show_flags_panic : forall d fs i, (31 < Z.of_nat i + Z.of_nat (length fs))%Z -> (Z.of_nat i <= 31)%Z ->
  p_overflow_checks p = true ->
  mapM (show_flag p d) (enumerate_from i fs) = Panic (lit "attempt to multiply with overflow").
Proof.
  induction fs as [|f fs IH]; intros i H Hi O; [simpl in H; lia|].
  cbn [enumerate_from mapM]. destruct (Z.eq_dec (Z.of_nat i) 31).
  - rewrite show_flag_panic by lia. reflexivity.
  - rewrite show_flag_ok by lia. cbn [bind]. cbn [length] in H. rewrite IH by lia. reflexivity.
Qed.

(** Unchecked build: bit 31 is the sign and never reported as set, later bits are 0. *)
Lemma show_flag_wrapped : forall d i f, (i32_min <= d <= i32_max)%Z -> (31 <= Z.of_nat i)%Z -> p_overflow_checks p = false ->
  show_flag p d (i, f) = Ok (flag_line (if (Z.of_nat i =? 31)%Z then i32_min else 0)%Z f false).
Proof.
  intros d i f Hd H O. unfold show_flag, flag_bit. cbn [fst snd]. replace (Z.of_nat i <? 31)%Z with false by lia.
  rewrite O. cbn [bind].
  replace (0 <? Z.land d (if (Z.of_nat i =? 31)%Z then i32_min else 0))%Z with false; [reflexivity|].
  symmetry. destruct (Z.of_nat i =? 31)%Z; [|now rewrite Z.land_0_r].
  apply Z.ltb_ge. unfold i32_min, i32_max in *.
  assert (E : Z.land d (- 2 ^ 31) = (d / 2 ^ 31 * 2 ^ 31)%Z).
  { rewrite <- Z.shiftr_div_pow2 by lia. rewrite <- Z.shiftl_mul_pow2 by lia.
    rewrite <- Z.ldiff_ones_r by lia. rewrite Z.ldiff_land. reflexivity. }
  rewrite E. assert (d / 2 ^ 31 <= 0)%Z; [|nia].
  apply Z.lt_succ_r. apply Z.div_lt_upper_bound; lia.
Qed.

Lemma mapM_ok_map : forall A B (f : A -> res B) (g : A -> B) l, (forall x, In x l -> f x = Ok (g x)) ->
  mapM f l = Ok (map g l).
Proof.
  intros A B f g l H. rewrite (mapM_ext _ _ f (fun x => Ok (g x))) by auto. apply mapM_map_ok.
Qed.

Definition wrapped_line (d : Z) (i : Z) (f : str) : str :=
  if (i <? 31)%Z then flag_line (2 ^ i) f (Z.testbit d i)
  else flag_line (if (i =? 31)%Z then i32_min else 0)%Z f false.

Lemma show_flags_wrapped : forall d fs i, (i32_min <= d <= i32_max)%Z -> p_overflow_checks p = false ->
  mapM (show_flag p d) (enumerate_from i fs) =
  Ok (map (fun x => wrapped_line d (Z.of_nat (fst x)) (snd x)) (enumerate_from i fs)).
Proof.
  intros d fs i Hd O. apply mapM_ok_map. intros [k f] _. cbn [fst snd]. unfold wrapped_line.
  destruct (Z.of_nat k <? 31)%Z eqn:E.
  - now rewrite show_flag_ok by lia.
  - now rewrite show_flag_wrapped by (auto; lia).
Qed.

(** ** Properties *)
Definition ptext (pr : forge_property f32) : str :=
  match show_property p pr with Ok s => s | _ => [] end.

Lemma nth_choice_ok : forall cs d, (0 <= d < Z.of_nat (length cs))%Z ->
  exists c, nth_error cs (Z.to_nat d) = Some c /\ nth_choice cs d = Ok c.
Proof.
  intros cs d H. unfold nth_choice. replace (d <? 0)%Z with false by lia.
  replace (d <? Z.of_nat (length cs))%Z with true by lia.
  destruct (nth_error cs (Z.to_nat d)) as [c|] eqn:E; [exists c; auto|].
  apply nth_error_None in E. lia.
Qed.

Lemma show_property_ok : forall pr, wf_property pr -> show_property p pr = Ok (ptext pr).
Proof.
  intros pr (_ & _ & _ & H). unfold ptext, show_property. destruct (fp_data pr); try reflexivity.
  - destruct H as [_ H]. destruct (nth_choice_ok _ _ H) as (c & _ & ->). reflexivity.
  - destruct H as [_ H]. unfold enumerate. rewrite show_flags_ok by (simpl; lia). reflexivity.
Qed.

Lemma read_choice_ok : forall c, wf_choice c -> forall r,
  read_choice ((tab ++ tab ++ show_choice p c ++ nl) ++ r)
  = Some ((literal_of p (ch_value c), ch_name c), r).
Proof.
  intros [n v] [Hn Hv] r. unfold read_choice, show_choice. cbn [ch_name ch_value] in *.
  destruct v as [i|x|s]; cbn [literal_of].
  - rewrite <- !app_assoc. simpl.
    assert (E : read_quoted (show_Z i ++ 32 :: 58 :: 32 :: 34 :: n ++ 34 :: 10 :: r) = None).
    { destruct (show_Z i) as [|c t] eqn:E; [now apply show_Z_nonempty in E|].
      unfold read_quoted. cbn [app expect]. destruct (N.eqb_spec 34 c); [|reflexivity].
      exfalso. assert (number_char c) by (apply (show_Z_chars i); rewrite E; simpl; auto).
      subst c. unfold number_char in *. lia. }
    rewrite E. rewrite until_app by nochar. simpl. rewrite read_quoted_app by auto. reflexivity.
  - rewrite <- !app_assoc. simpl.
    assert (E : read_quoted (show_float p x ++ 32 :: 58 :: 32 :: 34 :: n ++ 34 :: 10 :: r) = None).
    { unfold show_float. destruct (show_f32 (p_neg_zero p) x) as [|c t] eqn:E; [now apply show_f32_nonempty in E|].
      unfold read_quoted. cbn [app expect]. destruct (N.eqb_spec 34 c); [|reflexivity].
      exfalso. assert (number_char c) by (apply (show_f32_chars (p_neg_zero p) x); rewrite E; simpl; auto).
      subst c. unfold number_char in *. lia. }
    rewrite E. rewrite until_app by nochar. simpl. rewrite read_quoted_app by auto. reflexivity.
  - rewrite <- !app_assoc. simpl. rewrite read_quoted_app by auto. simpl.
    rewrite read_quoted_app by auto. reflexivity.
Qed.

Lemma read_flag_ok : forall d i f, no_quote f -> forall r,
  read_flag (flag_text d i f ++ r) = Some ((show_Z (2 ^ i), f, if Z.testbit d i then lit "1" else lit "0"), r).
Proof.
  intros d i f H r. unfold read_flag, flag_text, flag_line. rewrite <- !app_assoc.
  cbn [app]. cbn [expect N.eqb Pos.eqb].
  change (lit " : " ++ 34 :: f ++ 34 :: lit " : " ++ (if Z.testbit d i then lit "1" else lit "0") ++ 10 :: r)
    with (32 :: 58 :: 32 :: 34 :: f ++ 34 :: 32 :: 58 :: 32 :: (if Z.testbit d i then lit "1" else lit "0") ++ 10 :: r).
  rewrite until_app by nochar. simpl.
  rewrite read_quoted_app by auto. simpl.
  rewrite until_app by (destruct (Z.testbit d i); simpl; intuition discriminate). reflexivity.
Qed.

Lemma read_flags_ok : forall d fs i r, Forall no_quote fs ->
  many (S (length (concat (flags_text d i fs) ++ closing ++ r))) closing read_flag (concat (flags_text d i fs) ++ closing ++ r)
  = Some (visible_flags i d fs, r).
Proof.
  intros d fs i r H.
  assert (E : exists l, flags_text d i fs = map (fun x => flag_text d (fst x) (snd x)) l
    /\ visible_flags i d fs = map (fun x => (show_Z (2 ^ fst x), snd x, if Z.testbit d (fst x) then lit "1" else lit "0")) l
    /\ Forall (fun x => no_quote (snd x)) l).
  { clear r. revert i. induction H as [|f fs Hf H IH]; intros i.
    - exists []. simpl. auto.
    - destruct (IH (i + 1)%Z) as (l & E1 & E2 & E3). exists ((i, f) :: l). simpl. rewrite E1, E2.
      repeat split; auto. }
  destruct E as (l & E1 & E2 & E3). rewrite E1, E2. rewrite <- flat_map_concat_map.
  apply many_full. intros [j f] Hx. cbn [fst snd].
  rewrite Forall_forall in E3. specialize (E3 _ Hx). simpl in E3.
  split; [discriminate|]. split.
  - intros r'. reflexivity.
  - intros r'. now apply read_flag_ok.
Qed.

Lemma read_field_ok : forall value v text short long r,
  no_quote short -> no_quote long ->
  (forall r, value (text ++ 32 :: r) = Some (v, r)) ->
  read_field value ((lit " : " ++ (q ++ short ++ q) ++ lit " : " ++ text ++ lit " : " ++ (q ++ long ++ q)) ++ r)
  = Some ((short, v, long), r).
Proof.
  intros value v text short long r Hs Hl Hv. unfold read_field, read_short.
  rewrite <- !app_assoc. simpl. rewrite read_quoted_app by auto. simpl.
  rewrite Hv. simpl. rewrite read_quoted_app by auto. reflexivity.
Qed.

Lemma read_target_ok : forall short long r,
  no_quote short -> no_quote long ->
  read_target ((lit " : " ++ (q ++ short ++ q) ++ lit " : : " ++ (q ++ long ++ q)) ++ r)
  = Some ((short, long), r).
Proof.
  intros short long r Hs Hl. unfold read_target, read_short.
  rewrite <- !app_assoc. simpl. rewrite read_quoted_app by auto. simpl.
  rewrite read_quoted_app by auto. reflexivity.
Qed.

Lemma read_value_ok : forall v r, no_quote v -> read_value ((q ++ v ++ q) ++ 32 :: r) = Some (v, r).
Proof.
  intros v r H. unfold read_value. rewrite <- !app_assoc. simpl. rewrite read_quoted_app by auto.
  reflexivity.
Qed.

Lemma spaced_no_quote : forall x y z, (forall c, In c x -> number_char c) -> (forall c, In c y -> number_char c) ->
  (forall c, In c z -> number_char c) -> no_quote (spaced x y z).
Proof.
  intros x y z Hx Hy Hz I. unfold spaced in I.
  assert (~ number_char 34) by (unfold number_char; lia).
  repeat (apply in_app_or in I; destruct I as [I|I]); auto; destruct I as [I|[]]; discriminate.
Qed.

Lemma read_property_ok : forall pr, wf_property pr -> forall r,
  read_property ((tab ++ ptext pr ++ nl) ++ r) = Some ((fp_name pr, visible_body p pr), r).
Proof.
  intros pr H r. destruct H as (Hn & Hs & Hl & Hd).
  assert (G : exists ty s, ptext pr = fp_name pr ++ 40 :: ty ++ 41 :: s /\ ~ In 41 ty
              /\ forall r, read_body ty (s ++ r) = Some (visible_body p pr, r)).
  2:{ destruct G as (ty & s & E & Hty & G). unfold read_property.
      rewrite E, <- !app_assoc. cbn [tab app expect N.eqb Pos.eqb].
      rewrite until_app by auto. rewrite <- app_assoc. cbn [app]. rewrite until_app by auto.
      rewrite G. reflexivity. }
  unfold ptext, show_property, visible_body.
  destruct (fp_data pr) as [i|x|v|s|c|cs d|fs d| |] eqn:Ed; cbn [bind].
  - exists (lit "integer"), (lit " : " ++ (q ++ fp_short pr ++ q) ++ lit " : " ++ show_Z i ++ lit " : " ++ (q ++ fp_long pr ++ q)).
    split; [reflexivity|]. split; [simpl; intuition discriminate|].
    intros r'. unfold read_body. simpl str_eqb. cbn iota.
    rewrite (read_field_ok _ (show_Z i)); auto.
    intros. apply until_app. nochar.
  - exists (lit "float"), (lit " : " ++ (q ++ fp_short pr ++ q) ++ lit " : " ++ show_float p x ++ lit " : " ++ (q ++ fp_long pr ++ q)).
    split; [reflexivity|]. split; [simpl; intuition discriminate|].
    intros r'. unfold read_body. simpl str_eqb. cbn iota.
    rewrite (read_field_ok _ (num_text p x)); auto.
    intros. apply until_app. nochar.
  - exists (lit "string"), (lit " : " ++ (q ++ fp_short pr ++ q) ++ lit " : "
      ++ (q ++ spaced (num_text p (vx v)) (num_text p (vy v)) (num_text p (vz v)) ++ q) ++ lit " : " ++ (q ++ fp_long pr ++ q)).
    split; [unfold spaced; rewrite <- !app_assoc; reflexivity|]. split; [simpl; intuition discriminate|].
    intros r'. unfold read_body. simpl str_eqb. cbn iota.
    erewrite read_field_ok; eauto.
    intros. apply read_value_ok. apply spaced_no_quote; apply show_f32_chars.
  - exists (lit "string"), (lit " : " ++ (q ++ fp_short pr ++ q) ++ lit " : "
      ++ (q ++ s ++ q) ++ lit " : " ++ (q ++ fp_long pr ++ q)).
    split; [rewrite <- !app_assoc; reflexivity|]. split; [simpl; intuition discriminate|].
    intros r'. unfold read_body. simpl str_eqb. cbn iota.
    erewrite read_field_ok; eauto.
    intros. apply read_value_ok. auto.
  - exists (lit "color255"), (lit " : " ++ (q ++ fp_short pr ++ q) ++ lit " : "
      ++ (q ++ spaced (channel_text (c_r c)) (channel_text (c_g c)) (channel_text (c_b c)) ++ q) ++ lit " : " ++ (q ++ fp_long pr ++ q)).
    split; [unfold spaced, show_color; rewrite <- !app_assoc; reflexivity|]. split; [simpl; intuition discriminate|].
    intros r'. unfold read_body. simpl str_eqb. cbn iota.
    erewrite read_field_ok; eauto.
    intros. apply read_value_ok. apply spaced_no_quote; apply show_Z_chars.
  - destruct Hd as [Hcs Hd]. destruct (nth_choice_ok _ _ Hd) as (c & Hc & E).
    exists (lit "choices"), (lit " : " ++ (q ++ fp_short pr ++ q) ++ lit " : " ++ (q ++ show_choice_data p (ch_value c) ++ q)
      ++ opening ++ flat_map (fun c => tab ++ tab ++ show_choice p c ++ nl) cs ++ closing).
    rewrite E. cbn [bind].
    split; [rewrite <- !app_assoc; reflexivity|]. split; [simpl; intuition discriminate|].
    intros r'. unfold read_body. simpl str_eqb. cbn iota.
    assert (Hq : no_quote (show_choice_data p (ch_value c))).
    { rewrite Forall_forall in Hcs. apply nth_error_In in Hc. destruct (Hcs _ Hc) as [_ Hv].
      destruct (ch_value c); simpl; [apply number_no; [apply show_Z_chars|unfold number_char; lia]
        |apply number_no; [apply show_f32_chars|unfold number_char; lia]|auto]. }
    rewrite <- !app_assoc. unfold read_short.
    rewrite expect_app, quoted_app by auto. rewrite expect_app, quoted_app by auto.
    rewrite expect_app.
    rewrite (many_full _ _ read_choice closing (fun c => tab ++ tab ++ show_choice p c ++ nl)
               (fun c => (literal_of p (ch_value c), ch_name c))).
    + rewrite Hc. do 3 f_equal. destruct (ch_value c); reflexivity.
    + intros c' Hc'. rewrite Forall_forall in Hcs.
      split; [discriminate|split; [reflexivity|now apply read_choice_ok; auto]].
  - destruct Hd as [Hf Hd].
    exists (lit "flags"), (opening ++ concat (flags_text d 0 fs) ++ closing).
    unfold enumerate. rewrite show_flags_ok by (simpl; lia). cbn [bind Z.of_nat].
    split; [reflexivity|]. split; [simpl; intuition discriminate|].
    intros r'. unfold read_body. simpl str_eqb. cbn iota.
    rewrite <- !app_assoc, expect_app. rewrite read_flags_ok by auto. reflexivity.
  - exists (lit "target_source"), (lit " : " ++ (q ++ fp_short pr ++ q) ++ lit " : : " ++ (q ++ fp_long pr ++ q)).
    split; [reflexivity|]. split; [simpl; intuition discriminate|].
    intros r'. unfold read_body. simpl str_eqb. cbn iota.
    rewrite read_target_ok; auto.
  - exists (lit "target_destination"), (lit " : " ++ (q ++ fp_short pr ++ q) ++ lit " : : " ++ (q ++ fp_long pr ++ q)).
    split; [reflexivity|]. split; [simpl; intuition discriminate|].
    intros r'. unfold read_body. simpl str_eqb. cbn iota.
    rewrite read_target_ok; auto.
Qed.

(** ** Entities and files *)
Definition etext (e : forge_entity f32) : str :=
  match show_entity p e with Ok s => s | _ => [] end.

Lemma flat_map_map : forall A B C (f : A -> B) (g : B -> list C) l, flat_map g (map f l) = flat_map (fun x => g (f x)) l.
Proof. induction l; simpl; congruence. Qed.

Lemma show_entity_ok : forall e, wf_entity e -> show_entity p e = Ok (etext e).
Proof.
  intros e (_ & _ & _ & H). unfold etext, show_entity. rewrite Forall_forall in H.
  rewrite (mapM_ok_map _ _ _ ptext) by (intros; apply show_property_ok; auto). reflexivity.
Qed.

Lemma read_entity_ok : forall e, wf_entity e -> forall r,
  read_entity ((etext e ++ nl ++ nl) ++ r) = Some (visible_entity p e, r).
Proof.
  intros e (Hm & Hn & Hd & Hp) r. unfold etext, show_entity.
  rewrite Forall_forall in Hm, Hp.
  rewrite (mapM_ok_map _ _ _ ptext) by (intros; apply show_property_ok; auto). cbn [bind].
  rewrite flat_map_map. rewrite <- !app_assoc. unfold read_entity.
  replace (show_class (fe_class e)) with (lit "@" ++ class_word (fe_class e)) by (destruct (fe_class e); reflexivity).
  rewrite <- app_assoc, expect_app.
  match goal with |- context [class_word (fe_class e) ++ lit " " ++ ?X] =>
    change (lit " " ++ X) with (32 :: X) end.
  rewrite until_app by (destruct (fe_class e); simpl; intuition discriminate).
  rewrite (many_full _ _ read_meta (lit "= ") (fun m => show_metadata p m ++ lit " ") (visible_meta p)).
  2:{ intros m H. split; [destruct m; discriminate|]. split; [destruct m; reflexivity|].
      now apply read_meta_ok; auto. }
  match goal with |- context [fe_name e ++ lit " : " ++ ?X] =>
    change (lit " : " ++ X) with (32 :: lit ": " ++ X) end.
  rewrite until_app, expect_app, quoted_app by auto.
  match goal with |- context [nl ++ lit "[" ++ nl ++ ?X] =>
    change (nl ++ lit "[" ++ nl ++ X) with ([10; 91; 10] ++ X) end.
  rewrite expect_app.
  rewrite (many_full _ _ read_property (lit "]") (fun pr => tab ++ ptext pr ++ nl)
             (fun pr => (fp_name pr, visible_body p pr))).
  2:{ intros pr H. split; [discriminate|]. split; [reflexivity|]. now apply read_property_ok; auto. }
  change (nl ++ nl ++ r) with ([10; 10] ++ r). rewrite expect_app. reflexivity.
Qed.

Lemma read_entities_ok : forall es fuel, Forall wf_entity es -> (length es <= fuel)%nat ->
  read_entities fuel (flat_map (fun e => etext e ++ nl ++ nl) es) = Some (map (visible_entity p) es).
Proof.
  induction es as [|e es IH]; intros fuel H Hf.
  - destruct fuel; reflexivity.
  - inv H. destruct fuel; [simpl in Hf; lia|].
    cbn [flat_map map].
    assert (E : exists c t, (etext e ++ nl ++ nl) ++ flat_map (fun e => etext e ++ nl ++ nl) es = c :: t).
    { destruct (etext e); simpl; eauto. }
    destruct E as (c & t & E).
    assert (R : forall s, s = c :: t -> read_entities (S fuel) s =
      (let* (e, r) := read_entity s in let* l := read_entities fuel r in Some (e :: l))).
    { intros s ->. reflexivity. }
    rewrite (R _ E). rewrite read_entity_ok by auto. rewrite IH; auto. simpl in Hf; lia.
Qed.

Theorem show_forge_total : forall g, wf_forge g -> exists t, show_forge_data p g = Ok t.
Proof.
  intros g (_ & _ & H). unfold show_forge_data. rewrite Forall_forall in H.
  rewrite (mapM_ok_map _ _ _ etext) by (intros; apply show_entity_ok; auto). simpl. eauto.
Qed.

Theorem read_show_forge : forall g t, wf_forge g -> show_forge_data p g = Ok t -> read_fgd t = Some (visible p g).
Proof.
  intros g t (Hn & Hi & He) H. unfold show_forge_data in H.
  rewrite (mapM_ok_map _ _ _ etext) in H by (intros; apply show_entity_ok; rewrite Forall_forall in He; auto).
  cbn [bind] in H. apply f_equal with (f := fun r => match r with Ok x => x | _ => [] end) in H.
  cbn iota in H. subst t. rewrite flat_map_map. unfold read_fgd.
  rewrite expect_app.
  match goal with |- context [fd_name g ++ nl ++ ?X] => change (nl ++ X) with (10 :: X) end.
  rewrite until_app by auto.
  match goal with |- context [expect [10] (nl ++ ?X)] => change (expect [10] (nl ++ X)) with (Some X) end.
  cbn iota.
  rewrite (many_full _ _ read_include nl (fun s => lit "@include " ++ q ++ s ++ q ++ nl) (fun s => s)).
  - rewrite read_entities_ok; auto.
    + unfold visible. rewrite map_id. reflexivity.
    + assert (forall l, (length l <= length (flat_map (fun e => etext e ++ nl ++ nl) l))%nat); [|eauto].
      intros l. apply flat_map_length_ge. intros x _. destruct (etext x); discriminate.
  - intros s Hs. rewrite Forall_forall in Hi. split; [discriminate|]. split; [reflexivity|].
    intros r. unfold read_include. rewrite <- !app_assoc. rewrite expect_app, quoted_app by auto.
    reflexivity.
Qed.

Theorem base_text : forall cs, (forall c, In c cs -> c <> []) ->
  show_metadata p (MBase cs) = lit "base(" ++ comma_separated cs ++ lit ")".
Proof. intros cs H. unfold show_metadata. now rewrite join_base_commas. Qed.
End Writer.
