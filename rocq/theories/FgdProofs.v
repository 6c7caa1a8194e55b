(** Equal FGD text means equal game data, up to what the format omits (C50); colours (C55). *)
From Coq Require Import SpecFloat.
From Verif Require Import Prelude F32 Text MapModel GameDataModel GameDataSpec BaseProofs DecimalProofs GameDataProofs.
From Verif Require Import TextSpec.
From Verif Require ShortProofs.
Local Open Scope N_scope.

Lemma show_N_inj : forall a b, show_N a = show_N b -> a = b.
Proof.
  intros a b H. destruct (show_N_spec a) as (_ & _ & Ha). destruct (show_N_spec b) as (_ & _ & Hb).
  congruence.
Qed.

Lemma show_N_first : forall n c t, show_N n = c :: t -> c <> 45.
Proof.
  intros n c t H E. destruct (show_N_spec n) as (D & _ & _). rewrite H in D.
  specialize (D c (or_introl eq_refl)). subst c. discriminate.
Qed.

Lemma show_Z_inj : forall a b, show_Z a = show_Z b -> a = b.
Proof.
  intros a b H. unfold show_Z in H. destruct (a <? 0)%Z eqn:A, (b <? 0)%Z eqn:B.
  - apply (f_equal (@tl N)) in H. apply show_N_inj in H. lia.
  - symmetry in H. apply show_N_first in H. congruence.
  - apply show_N_first in H. congruence.
  - apply show_N_inj in H. lia.
Qed.

Lemma parse_show_any : forall neg_zero x, f32_valid x = true ->
  parse_f32 true (show_f32 neg_zero x) =
  Some (match x with S754_zero true => S754_zero neg_zero | _ => x end).
Proof.
  intros nz x Hv. destruct x as [s|s| |s m e].
  - apply parse_show_f32; auto.
  - destruct s; reflexivity.
  - reflexivity.
  - apply parse_show_f32; auto.
Qed.

Section P.
Context (p : platform).

Lemma num_text_same : forall x y, f32_valid x = true -> f32_valid y = true ->
  num_text p x = num_text p y -> same_number p x y.
Proof.
  intros x y Hx Hy H. apply (f_equal (parse_f32 true)) in H. unfold num_text in H.
  rewrite !parse_show_any in H by auto. unfold same_number.
  destruct (p_neg_zero p); destruct x as [[]|[]| |[] ? ?], y as [[]|[]| |[] ? ?]; inv H; auto; right; eauto.
Qed.

Lemma channel_same : forall x y, channel_text x = channel_text y -> byte_of x = byte_of y.
Proof. intros x y H. now apply show_Z_inj. Qed.

Lemma spaced_inj : forall x y z x' y' z',
  ~ In 32 x -> ~ In 32 y -> ~ In 32 z -> ~ In 32 x' -> ~ In 32 y' -> ~ In 32 z' ->
  spaced x y z = spaced x' y' z' -> x = x' /\ y = y' /\ z = z'.
Proof.
  intros x y z x' y' z' H1 H2 H3 H4 H5 H6 E. apply (f_equal (split_char 32)) in E. unfold spaced in E.
  cbn [app] in E. rewrite !split_char_app_sep in E by auto. rewrite !split_char_none in E by auto.
  inv E. auto.
Qed.

Lemma num_no_space : forall x, ~ In 32 (num_text p x).
Proof. intros x. unfold num_text. nochar. Qed.
Lemma channel_no_space : forall x, ~ In 32 (channel_text x).
Proof. intros x. unfold channel_text. nochar. Qed.

Lemma coords_same : forall v w, valid_vec v -> valid_vec w -> coords p v = coords p w -> same_vec p v w.
Proof.
  intros v w (A & B & C) (D & E & F) H. unfold coords in H.
  injection H as H1 H2 H3. unfold same_vec. auto using num_text_same.
Qed.

Lemma agree_meta_ok : forall a b, typed_meta a -> typed_meta b -> visible_meta p a = visible_meta p b -> agree_meta p a b.
Proof.
  intros [cs|c|lo hi] [cs'|c'|lo' hi'] Ha Hb H; try discriminate H.
  - injection H as ->. constructor.
  - unfold visible_meta, channels in H. injection H as H1 H2 H3. constructor.
    unfold same_color. auto using channel_same.
  - destruct Ha, Hb. cbn [visible_meta] in H.
    assert (E : coords p lo = coords p lo' /\ coords p hi = coords p hi').
    { unfold coords in *. cbn [app] in H. inv H. split; congruence. }
    destruct E. constructor; apply coords_same; auto.
Qed.

Lemma agree_value_ok : forall a b, typed_value a -> typed_value b ->
  literal_of p a = literal_of p b -> agree_value p a b.
Proof.
  intros [i|x|s] [j|y|t] Ha Hb H; simpl in H; try discriminate H; injection H as H.
  - apply show_Z_inj in H. subst. constructor.
  - now constructor.
  - now constructor.
  - constructor. apply num_text_same; auto.
  - subst. constructor.
Qed.

Lemma map_eq_Forall2 : forall A B (f : A -> B) (R : A -> A -> Prop) l l',
  (forall x y, In x l -> In y l' -> f x = f y -> R x y) -> map f l = map f l' -> Forall2 R l l'.
Proof.
  induction l as [|x l IH]; intros [|y l'] H E; try discriminate E; constructor.
  - injection E as E1 E2. apply H; simpl; auto.
  - injection E as E1 E2. apply IH; auto. intros; apply H; simpl; auto.
Qed.

Lemma visible_flags_inj : forall fs fs' d d' i, (0 <= i)%Z ->
  visible_flags i d fs = visible_flags i d' fs' ->
  fs = fs' /\ forall j, (i <= j < i + Z.of_nat (length fs))%Z -> Z.testbit d j = Z.testbit d' j.
Proof.
  induction fs as [|f fs IH]; intros [|f' fs'] d d' i Hi E; try discriminate E.
  - split; [reflexivity|]. simpl. intros; lia.
  - cbn [visible_flags] in E. injection E as E1 E2 E3.
    destruct (IH _ _ _ (i + 1)%Z ltac:(lia) E3) as [-> G]. subst f'. split; [reflexivity|].
    intros j Hj. cbn [length] in Hj. destruct (Z.eq_dec j i) as [->|].
    + destruct (Z.testbit d i), (Z.testbit d' i); auto; discriminate E2.
    + apply G. lia.
Qed.

Lemma agree_property_ok : forall a b, wf_property a -> wf_property b -> typed_data (fp_data a) -> typed_data (fp_data b) ->
  (fp_name a, visible_body p a) = (fp_name b, visible_body p b) -> agree_property p a b.
Proof.
  intros a b (_ & _ & _ & Wa) (_ & _ & _ & Wb) Ha Hb H. injection H as Hn H. split; [exact Hn|].
  unfold visible_body in H.
  destruct (fp_data a) as [i|x|v|s|c|cs d|fs d| |], (fp_data b) as [i'|x'|v'|s'|c'|cs' d'|fs' d'| |];
    try discriminate H.
  - injection H as H1 H2 H3. apply show_Z_inj in H2. subst. exists true, true. auto using AgInteger.
  - injection H as H1 H2 H3. exists true, true. auto using AgF32, num_text_same.
  - injection H as H1 H2 H3. exists true, true. repeat split; auto.
    apply spaced_inj in H2; try apply num_no_space. destruct H2 as (E1 & E2 & E3).
    constructor. apply coords_same; auto. unfold coords. congruence.
  - injection H as H1 H2 H3. exists true, true. subst s'. split; [apply AgVecString|auto].
  - injection H as H1 H2 H3. exists true, true. subst s. split; [apply AgStringVec|auto].
  - injection H as H1 H2 H3. exists true, true. subst s'. split; [constructor|auto].
  - injection H as H1 H2 H3. exists true, true. repeat split; auto.
    apply spaced_inj in H2; try apply channel_no_space. destruct H2 as (E1 & E2 & E3).
    constructor. unfold same_color. auto using channel_same.
  - injection H as H1 H2 H3. exists true, false. split; [|split; [auto|discriminate]].
    destruct Wa as [_ Wa], Wb as [_ Wb]. constructor.
    + eapply map_eq_Forall2; [|exact H3]. simpl. intros x y Ix Iy E. injection E as E1 E2.
      split; auto. simpl in Ha, Hb. rewrite Forall_forall in Ha, Hb. apply agree_value_ok; auto.
    + unfold default_text.
      destruct (nth_choice_ok _ _ Wa) as (x & Ex & _). destruct (nth_choice_ok _ _ Wb) as (y & Ey & _).
      rewrite Ex, Ey in *. simpl. congruence.
  - injection H as H. exists false, false. split; [|split; discriminate].
    apply visible_flags_inj in H; [|lia]. destruct H as [-> H]. constructor. intros i Hi. apply H. lia.
  - injection H as H1 H2. exists true, true. split; [constructor|auto].
  - injection H as H1 H2. exists true, true. split; [constructor|auto].
Qed.

Theorem same_text_agree : forall a b t, wf_forge a -> wf_forge b -> typed_forge a -> typed_forge b ->
  show_forge_data p a = Ok t -> show_forge_data p b = Ok t -> agree p a b.
Proof.
  intros a b t Wa Wb Ta Tb Sa Sb.
  apply read_show_forge in Sa; auto. apply read_show_forge in Sb; auto.
  rewrite Sa in Sb. injection Sb as E1 E2 E3. split; [auto|]. split; [auto|].
  destruct Wa as (_ & _ & Wa), Wb as (_ & _ & Wb).
  unfold typed_forge in *. rewrite Forall_forall in Wa, Wb, Ta, Tb.
  eapply map_eq_Forall2; [|exact E3]. intros x y Ix Iy E. unfold visible_entity in E.
  injection E as F1 F2 F3 F4 F5.
  destruct (Wa _ Ix) as (_ & _ & _ & Px), (Wb _ Iy) as (_ & _ & _ & Py).
  destruct (Ta _ Ix) as [Mx Qx], (Tb _ Iy) as [My Qy].
  rewrite Forall_forall in Px, Py, Mx, My, Qx, Qy.
  repeat split; auto.
  - destruct (fe_class x), (fe_class y); auto; discriminate F1.
  - eapply map_eq_Forall2; [|exact F2]. intros. apply agree_meta_ok; auto.
  - eapply map_eq_Forall2; [|exact F5]. intros. apply agree_property_ok; auto.
Qed.

(** ** Conversely, agreeing data print the same *)
Lemma same_number_text : forall x y, same_number p x y -> num_text p x = num_text p y.
Proof.
  intros x y [->|(E & s & t & -> & ->)]; [reflexivity|]. unfold num_text, show_f32. rewrite E.
  now rewrite !andb_false_r.
Qed.

Lemma same_vec_text : forall v w, same_vec p v w -> show_vec p v = show_vec p w.
Proof.
  intros v w (A & B & C). unfold show_vec.
  apply same_number_text in A, B, C. unfold num_text in *. unfold show_float. congruence.
Qed.

Lemma same_color_text : forall a b, same_color a b -> show_color a = show_color b.
Proof. intros a b (A & B & C). unfold show_color, channel. unfold byte_of in *. congruence. Qed.

Lemma agree_meta_text : forall a b, agree_meta p a b -> show_metadata p a = show_metadata p b.
Proof.
  intros a b H. destruct H; simpl; auto.
  - erewrite same_color_text by eauto. reflexivity.
  - rewrite (same_vec_text a c), (same_vec_text b d) by auto. reflexivity.
Qed.

Lemma agree_value_text : forall a b, agree_value p a b -> literal_of p a = literal_of p b.
Proof.
  intros a b H. destruct H; simpl; auto; try congruence.
  f_equal. now apply same_number_text.
Qed.

Lemma show_choice_literal : forall c, show_choice p c =
  (match literal_of p (ch_value c) with Bare s => s | Quoted s => q ++ s ++ q end) ++ lit " : " ++ q ++ ch_name c ++ q.
Proof. intros [n []]; reflexivity. Qed.

Lemma show_choice_data_literal : forall c, show_choice_data p c = literal_text (literal_of p c).
Proof. intros []; reflexivity. Qed.

Lemma flags_text_ext : forall d d' fs i, (forall j, (i <= j < i + Z.of_nat (length fs))%Z -> Z.testbit d j = Z.testbit d' j) ->
  flags_text d i fs = flags_text d' i fs.
Proof.
  induction fs as [|f fs IH]; intros i H; [reflexivity|]. cbn [flags_text]. f_equal.
  - unfold flag_text. rewrite H by (cbn [length]; lia). reflexivity.
  - apply IH. intros j Hj. apply H. cbn [length]. lia.
Qed.

Lemma agree_property_text : forall a b, wf_property a -> wf_property b -> agree_property p a b ->
  show_property p a = show_property p b.
Proof.
  intros a b (_ & _ & _ & Wa) (_ & _ & _ & Wb) (Hn & sh & lo & H & Hs & Hl).
  unfold show_property. rewrite Hn.
  destruct H; try specialize (Hs eq_refl); try specialize (Hl eq_refl); rewrite ?Hs, ?Hl; try reflexivity.
  - apply same_number_text in H. unfold num_text in H. unfold show_float. now rewrite H.
  - destruct H as (A & B & C). apply same_number_text in A, B, C. unfold num_text in *. unfold show_float.
    now rewrite A, B, C.
  - unfold vector_text, spaced. rewrite <- !app_assoc. reflexivity.
  - unfold vector_text, spaced. rewrite <- !app_assoc. reflexivity.
  - now rewrite (same_color_text a0 b0).
  - destruct Wa as [_ Wa], Wb as [_ Wb].
    destruct (nth_choice_ok _ _ Wa) as (x & Ex & ->). destruct (nth_choice_ok _ _ Wb) as (y & Ey & ->).
    cbn [bind]. unfold default_text in H0. rewrite Ex, Ey in H0. simpl in H0. injection H0 as H0.
    rewrite !show_choice_data_literal, H0.
    replace (flat_map (fun c => tab ++ tab ++ show_choice p c ++ nl) cs)
      with (flat_map (fun c => tab ++ tab ++ show_choice p c ++ nl) cs'); [reflexivity|].
    clear -H. induction H as [|x y l l' [N V] H IH]; [reflexivity|]. cbn [flat_map]. rewrite IH.
    rewrite !show_choice_literal, N. apply agree_value_text in V. now rewrite V.
  - destruct Wa as [_ Wa]. unfold enumerate. rewrite !show_flags_ok by (simpl; lia). cbn [bind Z.of_nat].
    rewrite (flags_text_ext d d'); [reflexivity|]. intros j Hj. apply H. lia.
Qed.

Lemma flat_map_Forall2 : forall A B (f : A -> list B) (R : A -> A -> Prop) l l', (forall x y, R x y -> f x = f y) ->
  Forall2 R l l' -> flat_map f l = flat_map f l'.
Proof. intros A B f R l l' H F. induction F; simpl; auto. erewrite H by eauto. congruence. Qed.

Lemma mapM_Forall2 : forall A B (f : A -> res B) (R : A -> A -> Prop) l l',
  (forall x y, In x l -> In y l' -> R x y -> f x = f y) -> Forall2 R l l' -> mapM f l = mapM f l'.
Proof.
  intros A B f R l l' H F. induction F; simpl; auto. rewrite (H x y); simpl; auto.
  rewrite IHF; auto. intros; apply H; simpl; auto.
Qed.

Theorem agree_same_text : forall a b, wf_forge a -> wf_forge b -> agree p a b ->
  show_forge_data p a = show_forge_data p b.
Proof.
  intros a b (_ & _ & Wa) (_ & _ & Wb) (Hn & Hi & H). unfold show_forge_data. rewrite Hn, Hi.
  rewrite Forall_forall in Wa, Wb.
  erewrite mapM_Forall2 with (l := fd_definitions a); [reflexivity| |exact H].
  intros x y Ix Iy (C & N & D & M & P). unfold show_entity. rewrite C, N, D.
  destruct (Wa _ Ix) as (_ & _ & _ & Px), (Wb _ Iy) as (_ & _ & _ & Py). rewrite Forall_forall in Px, Py.
  erewrite mapM_Forall2 with (l := fe_properties x); [| |exact P].
  2:{ intros. apply agree_property_text; auto. }
  erewrite flat_map_Forall2 with (l := fe_metadata x); [reflexivity| |exact M].
  simpl. intros. erewrite agree_meta_text by eauto. reflexivity.
Qed.

(** ** Flags, choices *)
Theorem flags_ok : forall pr fs d, fp_data pr = FFlags fs d -> (length fs <= 31)%nat ->
  exists ls, show_property p pr = Ok (fp_name pr ++ lit "(flags) =" ++ [10; 9] ++ lit "[" ++ [10] ++ concat ls ++ [9] ++ lit "]")
    /\ length ls = length fs
    /\ forall i f, nth_error fs i = Some f ->
         nth_error ls i = Some (flag_line (2 ^ Z.of_nat i) f (Z.testbit d (Z.of_nat i))).
Proof.
  intros pr fs d E H. exists (flags_text d 0 fs). unfold show_property. rewrite E. unfold enumerate.
  rewrite show_flags_ok by (simpl; lia). split; [reflexivity|]. split; [apply flags_text_length|].
  intros i f Hi. now rewrite (flags_text_nth _ _ _ _ _ Hi).
Qed.

Theorem flags_values : forall pr fs d, fp_data pr = FFlags fs d -> (length fs <= 31)%nat ->
  exists ls, show_property p pr = Ok (fp_name pr ++ lit "(flags) =" ++ [10; 9] ++ lit "[" ++ [10] ++ concat ls ++ [9] ++ lit "]")
    /\ length ls = length fs
    /\ forall i f, nth_error fs i = Some f -> exists ds, all_digits ds /\ place_value ds = (2 ^ Z.of_nat i)%Z /\ (exists c t, ds = c :: t /\ c <> 48)
         /\ nth_error ls i = Some ([9; 9] ++ ds ++ lit " : " ++ [34] ++ f ++ [34] ++ (if Z.testbit d (Z.of_nat i) then lit " : 1" else lit " : 0") ++ [10]).
Proof.
  intros pr fs d E H. destruct (flags_ok pr fs d E H) as (ls & A & B & C). exists ls. split; [exact A|]. split; [exact B|]. intros i f Hi.
  assert (Ps : (0 < 2 ^ Z.of_nat i)%Z) by (apply Z.pow_pos_nonneg; lia).
  destruct (ShortProofs.show_integer (2 ^ Z.of_nat i)) as (ds & Es & Al & Fi & Pl). exists ds. replace (2 ^ Z.of_nat i <? 0)%Z with false in Es by lia. rewrite Z.abs_eq in Pl by lia.
  split; [exact Al|]. split; [exact Pl|]. split; [destruct Fi as [->|Fi]; [cbn in Pl; lia|exact Fi]|].
  rewrite (C i f Hi). unfold flag_line. rewrite Es. destruct (Z.testbit d (Z.of_nat i)); reflexivity.
Qed.

Theorem flags_panic : forall pr fs d, fp_data pr = FFlags fs d -> (32 <= length fs)%nat -> p_overflow_checks p = true ->
  exists w, show_property p pr = Panic w.
Proof.
  intros pr fs d E H O. unfold show_property. rewrite E. unfold enumerate.
  rewrite show_flags_panic by (simpl; auto; lia). simpl. eauto.
Qed.

Theorem flags_unchecked : forall pr fs d, fp_data pr = FFlags fs d -> i32_range d -> p_overflow_checks p = false ->
  exists ls, show_property p pr = Ok (fp_name pr ++ lit "(flags) =" ++ [10; 9] ++ lit "[" ++ [10] ++ concat ls ++ [9] ++ lit "]")
    /\ length ls = length fs
    /\ forall i f, nth_error fs i = Some f ->
         nth_error ls i = Some
           (if (i <? 31)%nat then flag_line (2 ^ Z.of_nat i) f (Z.testbit d (Z.of_nat i))
            else if (i =? 31)%nat then flag_line (- 2 ^ 31) f false else flag_line 0 f false).
Proof.
  intros pr fs d E Hd O. unfold show_property. rewrite E. unfold enumerate.
  rewrite show_flags_wrapped by auto. cbn [bind].
  exists (map (fun x => wrapped_line d (Z.of_nat (fst x)) (snd x)) (enumerate_from 0 fs)).
  split; [reflexivity|]. split; [now rewrite map_length, enumerate_from_length|].
  intros i f Hi. rewrite nth_error_map, nth_error_enumerate_from, Hi. simpl option_map. unfold wrapped_line.
  destruct (Nat.ltb_spec i 31).
  - now replace (Z.of_nat i <? 31)%Z with true by lia.
  - replace (Z.of_nat i <? 31)%Z with false by lia.
    destruct (Nat.eqb_spec i 31).
    + now replace (Z.of_nat i =? 31)%Z with true by lia.
    + now replace (Z.of_nat i =? 31)%Z with false by lia.
Qed.

Theorem choices_ok : forall pr cs d, fp_data pr = FChoices cs d -> (0 <= d)%Z ->
  forall c, nth_error cs (Z.to_nat d) = Some c ->
  exists body, show_property p pr =
    Ok (fp_name pr ++ lit "(choices) : " ++ [34] ++ fp_short pr ++ [34] ++ lit " : " ++
        [34] ++ literal_text (literal_of p (ch_value c)) ++ [34] ++ lit " =" ++ [10; 9] ++ lit "[" ++ [10]
        ++ body ++ [9] ++ lit "]")
  /\ body = flat_map (fun c => [9; 9] ++ (match literal_of p (ch_value c) with
                                          | Bare s => s | Quoted s => [34] ++ s ++ [34] end)
                               ++ lit " : " ++ [34] ++ ch_name c ++ [34] ++ [10]) cs.
Proof.
  intros pr cs d E Hd c Hc. eexists. split; [|reflexivity].
  unfold show_property. rewrite E.
  assert (R : (0 <= d < Z.of_nat (length cs))%Z).
  { assert (nth_error cs (Z.to_nat d) <> None) by congruence. apply nth_error_Some in H. lia. }
  destruct (nth_choice_ok _ _ R) as (c' & Ec & ->). assert (c' = c) by congruence. subst c'.
  cbn [bind]. rewrite show_choice_data_literal.
  replace (flat_map (fun c => tab ++ tab ++ show_choice p c ++ nl) cs) with
   (flat_map (fun c => [9; 9] ++ (match literal_of p (ch_value c) with
                                          | Bare s => s | Quoted s => [34] ++ s ++ [34] end)
                               ++ lit " : " ++ [34] ++ ch_name c ++ [34] ++ [10]) cs).
  - rewrite <- !app_assoc. reflexivity.
  - apply flat_map_ext. intros x. rewrite show_choice_literal. rewrite <- !app_assoc. reflexivity.
Qed.

Theorem choices_panic : forall pr cs d, fp_data pr = FChoices cs d ->
  ((exists w, show_property p pr = Panic w) <-> ~ (0 <= d < Z.of_nat (length cs))%Z).
Proof.
  intros pr cs d E. unfold show_property. rewrite E. split.
  - intros [w H] R. destruct (nth_choice_ok _ _ R) as (c & _ & Ec). rewrite Ec in H. discriminate H.
  - intros R. unfold nth_choice. destruct (d <? 0)%Z eqn:N; [simpl; eauto|].
    replace (d <? Z.of_nat (length cs))%Z with false by lia. simpl. eauto.
Qed.

(** Printing never fails otherwise: the only panics of the writer are those two. *)
Theorem show_property_total : forall pr,
  (forall cs d, fp_data pr = FChoices cs d -> (0 <= d < Z.of_nat (length cs))%Z) ->
  (forall fs d, fp_data pr = FFlags fs d -> (length fs <= 31)%nat \/ p_overflow_checks p = false) ->
  exists t, show_property p pr = Ok t.
Proof.
  intros pr Hc Hf. unfold show_property. destruct (fp_data pr) as [| | | | |cs d|fs d| |] eqn:E; eauto.
  - destruct (nth_choice_ok _ _ (Hc _ _ eq_refl)) as (c & _ & ->). simpl. eauto.
  - destruct (mapM_total _ _ (show_flag p d) (enumerate fs)) as [r ->]; [|simpl; eauto].
    intros [i f] I. unfold show_flag, flag_bit. cbn [fst snd].
    destruct (Z.of_nat i <? 31)%Z eqn:L; [simpl; eauto|].
    destruct (Hf _ _ eq_refl) as [H|H]; [|rewrite H; simpl; eauto].
    exfalso. apply In_nth_error in I. destruct I as [k I]. unfold enumerate in I.
    rewrite nth_error_enumerate_from in I. destruct (nth_error fs k) eqn:K; [|discriminate I].
    simpl in I. injection I as I1 I2. assert (k < length fs)%nat by (apply nth_error_Some; congruence). lia.
Qed.
End P.

(** ** Sample data for the examples *)
Definition f (s : str) : f32 := match parse_f32 true s with Some x => x | None => S754_nan end.
Definition sample_property : forge_property f32 :=
  ForgeProperty (lit "p") (lit "Short") (lit "Long") (FChoices [Choice (lit "a") (ChFloat (f (lit "1.5"))); Choice (lit "b") (ChString (lit "x"))] 1).
Definition sample : forge_data f32 :=
  ForgeData (lit "Test") [lit "base.fgd"]
    [ForgeEntity PointClass [MBase [lit "Origin"; lit "Other"]; MSize (V3 f32_zero f32_zero f32_zero) (V3 f32_one f32_one f32_one)]
       (lit "info") (lit "Some (text) = [here]") [sample_property; ForgeProperty (lit "fl") [] [] (FFlags [lit "u"; lit "v"] 2)]].

Ltac chars := unfold no_quote; simpl; intuition discriminate.
Lemma sample_wf : wf_forge sample /\ typed_forge sample.
Proof.
  split.
  - split; [chars|]. split; [repeat apply Forall_cons; [chars|constructor]|].
    apply Forall_cons; [|constructor]. split; [|split; [chars|split; [chars|]]].
    + apply Forall_cons; [|apply Forall_cons; [exact I|constructor]].
      intros c Hc. simpl in Hc. destruct Hc as [<-|[<-|[]]]; (split; [discriminate|repeat split; chars]).
    + apply Forall_cons; [|apply Forall_cons; [|constructor]].
      * split; [chars|]. split; [chars|]. split; [chars|]. split; [|simpl; lia].
        repeat apply Forall_cons; try constructor; simpl; auto; chars.
      * split; [chars|]. split; [chars|]. split; [chars|]. split; [|simpl; lia].
        repeat apply Forall_cons; try constructor; chars.
  - apply Forall_cons; [|constructor]. split.
    + repeat apply Forall_cons; try constructor; repeat split.
    + repeat apply Forall_cons; try constructor; repeat constructor.
Qed.
