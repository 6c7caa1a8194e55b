(** Numbers: how they are read (C82), calculated with (C83) and printed (C84).
    Statements use the vocabulary of [TextSpec] and [NumberSpec]: values are real numbers. *)
From Coq Require Import Reals SpecFloat.
From Flocq Require Import Core.
From Verif Require Import Prelude F32 Text TextSpec NumberSpec TextProofs NumberProofs ArithProofs ShortProofs.
Local Open Scope R_scope.

(** C82: the numbers of planes and properties are the decimals written, correctly rounded. *)
Theorem C82_numbers : forall modern s x, parse_f32 modern s = Some x <-> float_text modern s x.
Proof. exact parse_f32_iff. Qed.
Print Assumptions C82_numbers.

(** A text stands for one number. *)
Theorem C82_unique : forall r zero_sign x y, rounded r zero_sign x -> rounded r zero_sign y -> x = y.
Proof. exact rounded_unique. Qed.
Print Assumptions C82_unique.

Theorem C82_integers : forall s v, parse_i32 s = Some v <-> integer_text s v.
Proof. exact parse_i32_iff. Qed.
Print Assumptions C82_integers.

Theorem C82_white_space : forall c, is_whitespace c = white c.
Proof. exact white_iff. Qed.
Print Assumptions C82_white_space.

Example C82_example : exists x, float_text true (lit "-12.50e1") x /\ parse_f32 true (lit "-12.50e1") = Some x /\ f32_to_i32 x = (-125)%Z.
Proof.
  assert (P : exists x, parse_f32 true (lit "-12.50e1") = Some x /\ f32_to_i32 x = (-125)%Z) by (eexists; split; vm_compute; reflexivity).
  destruct P as (x & P & Q). exists x. split; [now apply parse_f32_iff|now split].
Qed.

(** C83: arithmetic of geometry is that of real numbers, correctly rounded. *)
Theorem C83_operations : forall p x y, finite x -> finite y ->
  rounded (val x + val y) (negative x && negative y) (n_add (f32_num p) x y) /\
  rounded (val x - val y) (negative x && negb (negative y)) (n_sub (f32_num p) x y) /\
  rounded (val x * val y) (xorb (negative x) (negative y)) (n_mul (f32_num p) x y) /\
  (val y <> 0 -> rounded (val x / val y) (xorb (negative x) (negative y)) (n_div (f32_num p) x y)) /\
  (0 <= val x -> rounded (sqrt (val x)) (negative x) (n_sqrt (f32_num p) x)) /\
  n_cmp (f32_num p) x y = Some (Rcompare (val x) (val y)).
Proof. exact operations. Qed.
Print Assumptions C83_operations.

Theorem C83_signs : forall p x, finite x ->
  (finite (n_neg (f32_num p) x) /\ val (n_neg (f32_num p) x) = - val x /\ negative (n_neg (f32_num p) x) = negb (negative x)) /\
  (finite (n_abs (f32_num p) x) /\ val (n_abs (f32_num p) x) = Rabs (val x) /\ negative (n_abs (f32_num p) x) = false) /\
  (finite (n_signum (f32_num p) x) /\ val (n_signum (f32_num p) x) = if negative x then -1 else 1).
Proof. exact signs. Qed.
Print Assumptions C83_signs.

Theorem C83_conversions : forall p,
  (forall n, rounded (IZR (Z.of_N n)) false (n_of_N (f32_num p) n)) /\
  (forall x, finite x -> f32_to_i32 x = Z.max (-2147483648) (Z.min 2147483647 (Ztrunc (val x)))) /\
  f32_to_i32 S754_nan = 0%Z /\ f32_to_i32 (S754_infinity false) = 2147483647%Z /\ f32_to_i32 (S754_infinity true) = (-2147483648)%Z /\
  (forall s x, n_parse (f32_num p) s = Some x <-> float_text (p_modern_parse p) s x).
Proof. exact conversions. Qed.
Print Assumptions C83_conversions.

Theorem C83_constants : forall p, rounded (/ 1000) false (n_eps (f32_num p)) /\ rounded (174533 / 10000000) false (n_degree (f32_num p)) /\
  rounded (/ 100) false (n_centi (f32_num p)) /\ n_zero (f32_num p) = S754_zero false /\ rounded 1 false (n_one (f32_num p)).
Proof. exact constants. Qed.
Print Assumptions C83_constants.

(** Unit vectors: division by the length, or multiplication by its reciprocal. *)
Theorem C83_normalize : forall p v, let O := f32_num p in
  let len := n_sqrt O (n_add O (n_add O (n_mul O (vx v) (vx v)) (n_mul O (vy v) (vy v))) (n_mul O (vz v) (vz v))) in
  let part := if p_simd p then (fun c => n_div O c len) else (fun c => n_mul O c (n_div O (n_one O) len)) in
  n_normalize O v = V3 (part (vx v)) (part (vy v)) (part (vz v)).
Proof. exact normalizing. Qed.
Print Assumptions C83_normalize.

(** Infinities and NaN *)
Theorem C83_nan : forall p x,
  n_add (f32_num p) S754_nan x = S754_nan /\ n_add (f32_num p) x S754_nan = S754_nan /\
  n_sub (f32_num p) S754_nan x = S754_nan /\ n_sub (f32_num p) x S754_nan = S754_nan /\
  n_mul (f32_num p) S754_nan x = S754_nan /\ n_mul (f32_num p) x S754_nan = S754_nan /\
  n_div (f32_num p) S754_nan x = S754_nan /\ n_div (f32_num p) x S754_nan = S754_nan /\
  n_neg (f32_num p) S754_nan = S754_nan /\ n_abs (f32_num p) S754_nan = S754_nan /\
  n_sqrt (f32_num p) S754_nan = S754_nan /\ n_signum (f32_num p) S754_nan = S754_nan /\
  n_cmp (f32_num p) S754_nan x = None /\ n_cmp (f32_num p) x S754_nan = None.
Proof. exact nan_absorbs. Qed.
Print Assumptions C83_nan.

Theorem C83_infinite_pairs : forall p s t,
  n_add (f32_num p) (S754_infinity s) (S754_infinity t) = (if Bool.eqb s t then S754_infinity s else S754_nan) /\
  n_sub (f32_num p) (S754_infinity s) (S754_infinity t) = (if Bool.eqb s t then S754_nan else S754_infinity s) /\
  n_mul (f32_num p) (S754_infinity s) (S754_infinity t) = S754_infinity (xorb s t) /\
  n_div (f32_num p) (S754_infinity s) (S754_infinity t) = S754_nan /\
  n_neg (f32_num p) (S754_infinity s) = S754_infinity (negb s) /\ n_abs (f32_num p) (S754_infinity s) = S754_infinity false /\
  n_sqrt (f32_num p) (S754_infinity s) = (if s then S754_nan else S754_infinity false) /\
  n_cmp (f32_num p) (S754_infinity s) (S754_infinity t) = Some (if s then (if t then Eq else Lt) else (if t then Gt else Eq)).
Proof. exact infinite_pairs. Qed.
Print Assumptions C83_infinite_pairs.

Theorem C83_infinite : forall p s x, finite x ->
  n_add (f32_num p) (S754_infinity s) x = S754_infinity s /\ n_add (f32_num p) x (S754_infinity s) = S754_infinity s /\
  n_sub (f32_num p) (S754_infinity s) x = S754_infinity s /\ n_sub (f32_num p) x (S754_infinity s) = S754_infinity (negb s) /\
  (val x <> 0 -> n_mul (f32_num p) (S754_infinity s) x = S754_infinity (xorb s (negative x)) /\
                 n_mul (f32_num p) x (S754_infinity s) = S754_infinity (xorb s (negative x))) /\
  (val x = 0 -> n_mul (f32_num p) (S754_infinity s) x = S754_nan /\ n_mul (f32_num p) x (S754_infinity s) = S754_nan) /\
  n_div (f32_num p) (S754_infinity s) x = S754_infinity (xorb s (negative x)) /\
  n_div (f32_num p) x (S754_infinity s) = S754_zero (xorb s (negative x)) /\
  n_cmp (f32_num p) (S754_infinity s) x = Some (if s then Lt else Gt) /\ n_cmp (f32_num p) x (S754_infinity s) = Some (if s then Gt else Lt).
Proof. exact infinite_finite. Qed.
Print Assumptions C83_infinite.

Theorem C83_exceptions : forall p,
  (forall x z, finite x -> finite z -> val z = 0 ->
     n_div (f32_num p) x z = if Req_EM_T (val x) 0 then S754_nan else S754_infinity (xorb (negative x) (negative z))) /\
  (forall x, datum x -> val x < 0 -> n_sqrt (f32_num p) x = S754_nan).
Proof. exact exceptions. Qed.
Print Assumptions C83_exceptions.

(** One third, doubled: finite operands, and a rounded result. *)
Example C83_example : exists x y, finite x /\ finite y /\ val y <> 0 /\ 0 <= val x /\ datum x /\ x <> S754_nan /\
  f32_to_i32 (f32_add (f32_div x y) (f32_div x y)) = 0%Z /\ f32_same (f32_mul (f32_div x y) y) x = true.
Proof. exact third. Qed.

(** C84: a number is printed without exponent, with as few digits as read back to it, and of these the closest. *)
Theorem C84_shortest : forall neg_zero x, finite x -> val x <> 0 -> exists body m e n,
  show_f32 neg_zero x = (if negative x then lit "-" else []) ++ body /\ plain_text body m e /\
  let r := IZR m * bpow radix10 e in
  let back r := rounded (cond_Ropp (negative x) r) (negative x) x in
  short n r /\ back r /\ forall n' r', short n' r' -> back r' -> (n <= n')%Z /\ (n' = n -> Rabs (r - Rabs (val x)) <= Rabs (r' - Rabs (val x))).
Proof. exact show_finite. Qed.
Print Assumptions C84_shortest.

Theorem C84_special : forall neg_zero,
  show_f32 neg_zero S754_nan = lit "NaN" /\ show_f32 neg_zero (S754_infinity false) = lit "inf" /\ show_f32 neg_zero (S754_infinity true) = lit "-inf" /\
  show_f32 neg_zero (S754_zero false) = lit "0" /\ show_f32 neg_zero (S754_zero true) = if neg_zero then lit "-0" else lit "0".
Proof. exact show_special. Qed.
Print Assumptions C84_special.

Theorem C84_integers : forall z, exists ds, show_Z z = (if (z <? 0)%Z then lit "-" else []) ++ ds /\ all_digits ds /\
  (ds = lit "0" \/ exists c t, ds = c :: t /\ c <> 48%N) /\ place_value ds = Z.abs z.
Proof. exact show_integer. Qed.
Print Assumptions C84_integers.

(** One tenth and a big number. *)
Example C84_example : exists x y, finite x /\ val x <> 0 /\ finite y /\ val y <> 0 /\
  show_f32 true x = lit "-0.1" /\ show_f32 true y = lit "16777216000000".
Proof. exact tenth. Qed.
