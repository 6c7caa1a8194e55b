(** Single precision numbers and their texts, over the real numbers (C82 to C84), independently of [F32]. *)
From Coq Require Import Reals SpecFloat.
From Flocq Require Import Core BinarySingleNaN.
From Verif Require Import Prelude TextSpec.
Local Open Scope R_scope.

(** ** Data *)
(** The real number a datum stands for (0 for infinities and NaN). *)
Definition val (x : spec_float) : R := SF2R radix2 x.
(** The binary32 data. *)
Definition datum (x : spec_float) : Prop := valid_binary 24 128 x = true.
Definition finite (x : spec_float) : Prop := datum x /\ is_finite_SF x = true.
Definition negative (x : spec_float) : bool := sign_SF x.

(** The nearest multiple of a power of two with 24 binary digits, ties to even; not yet limited above. *)
Definition nearest (r : R) : R := round radix2 (FLT_exp (-149) 24) ZnearestE r.
(** [x] is [r] rounded: sign of [r] ([zero_sign] if [r = 0]), infinite from 2^128 on. *)
Definition rounded (r : R) (zero_sign : bool) (x : spec_float) : Prop :=
  let neg := match Rcompare r 0 with Lt => true | Gt => false | Eq => zero_sign end in
  (Rabs (nearest r) < bpow radix2 128 -> finite x /\ val x = nearest r /\ negative x = neg) /\
  (bpow radix2 128 <= Rabs (nearest r) -> x = S754_infinity neg).

(** ** Texts *)
Definition radix10 : radix := Build_radix 10 eq_refl.
Definition signed_text (sign : str) (neg : bool) : Prop := (sign = lit "-" /\ neg = true) \/ ((sign = [] \/ sign = lit "+") /\ neg = false).

(** Digits with an optional point and an optional exponent stand for [m * 10^e]. *)
Definition exponent_text (s : str) (x : Z) : Prop :=
  (s = [] /\ x = 0%Z) \/
  exists mark sign neg ds, s = mark ++ sign ++ ds /\ (mark = lit "e" \/ mark = lit "E") /\ signed_text sign neg /\ ds <> [] /\ all_digits ds /\
    x = cond_Zopp neg (place_value ds).
Definition decimal_text (s : str) (m e : Z) : Prop :=
  exists ip point fp ex x, s = ip ++ point ++ fp ++ ex /\ all_digits ip /\ all_digits fp /\ ip ++ fp <> [] /\
    (point = lit "." \/ (point = [] /\ fp = [])) /\ exponent_text ex x /\
    m = place_value (ip ++ fp) /\ e = (x - Z.of_nat (length fp))%Z.

(** A word in any mixture of capital and small letters. *)
Definition any_case (word s : str) : Prop := Forall2 (fun k c => c = k \/ c = k - 32)%N word s.
Definition infinite_text (modern : bool) (s : str) : Prop :=
  if modern then any_case (lit "inf") s \/ any_case (lit "infinity") s else s = lit "inf".
Definition nan_text (modern : bool) (s : str) : Prop := if modern then any_case (lit "nan") s else s = lit "NaN".

(** A number as Rust reads it: the decimal correctly rounded, or a spelling of infinity or NaN
    ([modern]: since Rust 1.55). *)
Definition float_text (modern : bool) (s : str) (x : spec_float) : Prop :=
  exists sign neg body, s = sign ++ body /\ signed_text sign neg /\
    ((exists m e, decimal_text body m e /\ rounded (IZR (cond_Zopp neg m) * bpow radix10 e) neg x)
     \/ (infinite_text modern body /\ x = S754_infinity neg) \/ (nan_text modern body /\ x = S754_nan)).

(** ** Printed numbers *)
(** Digits without exponent and superfluous zeros. *)
Definition plain_text (s : str) (m e : Z) : Prop :=
  exists ip fp, all_digits ip /\ all_digits fp /\ (ip = lit "0" \/ exists c t, ip = c :: t /\ c <> 48%N) /\
    ((fp = [] /\ s = ip) \/ (exists t c, fp = t ++ [c] /\ c <> 48%N /\ s = ip ++ lit "." ++ fp)) /\
    m = place_value (ip ++ fp) /\ e = (- Z.of_nat (length fp))%Z.

(** A positive decimal of at most [n] significant digits. *)
Definition short (n : Z) (r : R) : Prop := exists k j, (0 < k < 10 ^ n)%Z /\ r = IZR k * bpow radix10 j.
