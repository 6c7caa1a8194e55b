(** C50 to C52, C55 to C57, C61: game data and the FGD writer. *)
From Coq Require Import SpecFloat.
From Verif Require Import Prelude F32 Text TextSpec MapModel GameDataModel GameDataSpec GameDataProofs FgdProofs ColorProofs CodeProofs.
Local Open Scope N_scope.

(** * C50 The FGD text is unambiguous *)

(** A reader of the format recovers everything the format shows. *)
Theorem C50_read_back : forall p g t, wf_forge g -> show_forge_data p g = Ok t ->
  read_fgd t = Some (visible p g).
Proof. exact GameDataProofs.read_show_forge. Qed.
Print Assumptions C50_read_back.

(** Well-formed data always print, and two of them print the same text exactly when they agree up to
    the omitted information ([agree] lists it). *)
Theorem C50_total : forall p g, wf_forge g -> exists t, show_forge_data p g = Ok t.
Proof. exact GameDataProofs.show_forge_total. Qed.
Print Assumptions C50_total.

Theorem C50_unambiguous : forall p a b t, wf_forge a -> wf_forge b -> typed_forge a -> typed_forge b ->
  show_forge_data p a = Ok t -> show_forge_data p b = Ok t -> agree p a b.
Proof. exact FgdProofs.same_text_agree. Qed.
Print Assumptions C50_unambiguous.

Theorem C50_only_omitted : forall p a b, wf_forge a -> wf_forge b -> agree p a b ->
  show_forge_data p a = show_forge_data p b.
Proof. exact FgdProofs.agree_same_text. Qed.
Print Assumptions C50_only_omitted.

Example C50_example : wf_forge sample /\ typed_forge sample.
Proof. exact FgdProofs.sample_wf. Qed.

(** * C51 Flag lines *)
Theorem C51_flags : forall p pr fs d, fp_data pr = FFlags fs d -> (length fs <= 31)%nat ->
  exists ls, show_property p pr = Ok (fp_name pr ++ lit "(flags) =" ++ [10; 9] ++ lit "[" ++ [10] ++ concat ls ++ [9] ++ lit "]")
    /\ length ls = length fs
    /\ forall i f, nth_error fs i = Some f ->
         nth_error ls i = Some (flag_line (2 ^ Z.of_nat i) f (Z.testbit d (Z.of_nat i))).
Proof. exact FgdProofs.flags_ok. Qed.
Print Assumptions C51_flags.

(** The value, in decimal digits, is the power of two. *)
Theorem C51_values : forall p pr fs d, fp_data pr = FFlags fs d -> (length fs <= 31)%nat ->
  exists ls, show_property p pr = Ok (fp_name pr ++ lit "(flags) =" ++ [10; 9] ++ lit "[" ++ [10] ++ concat ls ++ [9] ++ lit "]")
    /\ length ls = length fs
    /\ forall i f, nth_error fs i = Some f -> exists ds, all_digits ds /\ place_value ds = (2 ^ Z.of_nat i)%Z /\ (exists c t, ds = c :: t /\ c <> 48)
         /\ nth_error ls i = Some ([9; 9] ++ ds ++ lit " : " ++ [34] ++ f ++ [34] ++ (if Z.testbit d (Z.of_nat i) then lit " : 1" else lit " : 0") ++ [10]).
Proof. exact FgdProofs.flags_values. Qed.
Print Assumptions C51_values.

Theorem C51_too_many : forall p pr fs d, fp_data pr = FFlags fs d -> (32 <= length fs)%nat -> p_overflow_checks p = true ->
  exists w, show_property p pr = Panic w.
Proof. exact FgdProofs.flags_panic. Qed.
Print Assumptions C51_too_many.

(** Without overflow checks flag 31 is printed as -2147483648 and later flags as 0, never set. *)
Theorem C51_unchecked : forall p pr fs d, fp_data pr = FFlags fs d -> i32_range d -> p_overflow_checks p = false ->
  exists ls, show_property p pr = Ok (fp_name pr ++ lit "(flags) =" ++ [10; 9] ++ lit "[" ++ [10] ++ concat ls ++ [9] ++ lit "]")
    /\ length ls = length fs
    /\ forall i f, nth_error fs i = Some f ->
         nth_error ls i = Some
           (if (i <? 31)%nat then flag_line (2 ^ Z.of_nat i) f (Z.testbit d (Z.of_nat i))
            else if (i =? 31)%nat then flag_line (- 2 ^ 31) f false else flag_line 0 f false).
Proof. exact FgdProofs.flags_unchecked. Qed.
Print Assumptions C51_unchecked.

Example C51_example : flag_line (2 ^ Z.of_nat 2) (lit "baz") (Z.testbit 5 (Z.of_nat 2)) =
  [9; 9] ++ lit "4 : ""baz"" : 1" ++ [10].
Proof. reflexivity. Qed.

(** * C52 Choices default *)
Theorem C52_panics : forall p pr cs d, fp_data pr = FChoices cs d ->
  ((exists w, show_property p pr = Panic w) <-> ~ (0 <= d < Z.of_nat (length cs))%Z).
Proof. exact FgdProofs.choices_panic. Qed.
Print Assumptions C52_panics.

Theorem C52_default : forall p pr cs d, fp_data pr = FChoices cs d -> (0 <= d)%Z ->
  forall c, nth_error cs (Z.to_nat d) = Some c ->
  exists body, show_property p pr =
    Ok (fp_name pr ++ lit "(choices) : " ++ [34] ++ fp_short pr ++ [34] ++ lit " : " ++
        [34] ++ literal_text (literal_of p (ch_value c)) ++ [34] ++ lit " =" ++ [10; 9] ++ lit "[" ++ [10]
        ++ body ++ [9] ++ lit "]")
  /\ body = flat_map (fun c => [9; 9] ++ (match literal_of p (ch_value c) with
                                          | Bare s => s | Quoted s => [34] ++ s ++ [34] end)
                               ++ lit " : " ++ [34] ++ ch_name c ++ [34] ++ [10]) cs.
Proof. exact FgdProofs.choices_ok. Qed.
Print Assumptions C52_default.

(** The writer has no other way to fail. *)
Theorem C52_no_other_panic : forall p pr,
  (forall cs d, fp_data pr = FChoices cs d -> (0 <= d < Z.of_nat (length cs))%Z) ->
  (forall fs d, fp_data pr = FFlags fs d -> (length fs <= 31)%nat \/ p_overflow_checks p = false) ->
  exists t, show_property p pr = Ok t.
Proof. exact FgdProofs.show_property_total. Qed.
Print Assumptions C52_no_other_panic.

Example C52_example : exists cs d c, fp_data sample_property = FChoices cs d /\ (0 <= d < Z.of_nat (length cs))%Z
  /\ nth_error cs (Z.to_nat d) = Some c.
Proof. repeat eexists; simpl; auto; lia. Qed.

(** * C55 Colours print in range *)
Theorem C55_unit : forall c, f32_valid (c_r c) = true -> f32_valid (c_g c) = true -> f32_valid (c_b c) = true ->
  (forall x, x = c_r c \/ x = c_g c \/ x = c_b c -> le32 f32_zero x = true /\ le32 x f32_one = true) ->
  exists r g b, show_color c = show_Z r ++ [32] ++ show_Z g ++ [32] ++ show_Z b
    /\ (0 <= r <= 255)%Z /\ (0 <= g <= 255)%Z /\ (0 <= b <= 255)%Z.
Proof. exact ColorProofs.show_color_unit. Qed.
Print Assumptions C55_unit.

Theorem C55_any : forall c, exists r g b, show_color c = show_Z r ++ [32] ++ show_Z g ++ [32] ++ show_Z b
  /\ i32_range r /\ i32_range g /\ i32_range b.
Proof. exact ColorProofs.show_color_any. Qed.
Print Assumptions C55_any.

(** Order is preserved: a brighter component never prints a smaller number. *)
Theorem C55_monotone : forall x y, f32_valid x = true -> f32_valid y = true ->
  le32 f32_zero x = true -> le32 x y = true -> le32 y f32_one = true -> (byte_of x <= byte_of y)%Z.
Proof. exact ColorProofs.byte_mono. Qed.
Print Assumptions C55_monotone.

Example C55_example : le32 f32_zero (f (lit "0.5")) = true /\ le32 (f (lit "0.5")) f32_one = true /\
  show_color (Color (f (lit "0.25")) (f (lit "0.5")) (f (lit "0.75"))) = lit "63 127 191" /\
  show_color (Color S754_nan (S754_infinity true) (S754_infinity false)) = lit "0 -2147483648 2147483647".
Proof. vm_compute. repeat split; reflexivity. Qed.

(** * C56 Base class lists *)
Theorem C56_base : forall p cs, (forall c, In c cs -> c <> []) ->
  show_metadata p (MBase cs) = lit "base(" ++ comma_separated cs ++ lit ")".
Proof. exact GameDataProofs.base_text. Qed.
Print Assumptions C56_base.

(** With an empty first name the separator is lost. *)
Example C56_empty : forall p, show_metadata p (MBase [[]; lit "a"]) = lit "base(a)".
Proof. reflexivity. Qed.
Example C56_example : forall p, show_metadata p (MBase [lit "foo"; lit "bar"; lit "baz"]) = lit "base(foo, bar, baz)".
Proof. reflexivity. Qed.

(** * C57 Enumeration codes *)
Theorem C57_collision : codes_ok collision_code collision_of_code.
Proof. exact CodeProofs.collision_codes. Qed.
Print Assumptions C57_collision.
Theorem C57_visual : codes_ok visual_code visual_of_code.
Proof. exact CodeProofs.visual_codes. Qed.
Print Assumptions C57_visual.
Theorem C57_class : codes_ok class_code class_of_code.
Proof. exact CodeProofs.class_codes. Qed.
Print Assumptions C57_class.
Theorem C57_variants :
  (forall a b, entity_type_code a = entity_type_code b <->
     match a, b with EPlaceholder, EPlaceholder | EClass _, EClass _ | EPrefab _, EPrefab _ => True | _, _ => False end) /\
  (forall a b, component_code a = component_code b <->
     match a, b with CompNone, CompNone | CompScript _, CompScript _ => True | _, _ => False end) /\
  (forall a b : metadata f32, metadata_code a = metadata_code b <->
     match a, b with MBase _, MBase _ | MColor _, MColor _ | MSize _ _, MSize _ _ => True | _, _ => False end).
Proof. exact CodeProofs.variant_codes. Qed.
Print Assumptions C57_variants.
Example C57_example : collision_of_code 2 = Ok CConcave /\ is_panic (collision_of_code 3) = true
  /\ is_panic (class_of_code (-1)) = true.
Proof. repeat split. Qed.

(** * C61 Eight-bit colours survive *)
Theorem C61_bytes : forall k, k < 256 -> byte_of (f32_div (f32_of_N k) (f32_of_N 255)) = Z.of_N k.
Proof. exact ColorProofs.byte_color_channel. Qed.
Print Assumptions C61_bytes.
Example C61_example : byte_of (f32_div (f32_of_N 254) (f32_of_N 255)) = 254%Z.
Proof. vm_compute. reflexivity. Qed.
