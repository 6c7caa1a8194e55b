(** Single-precision floats, vectors and decimal conversion. *)
From Coq Require Import SpecFloat.
From Verif Require Import Prelude.
Local Open Scope Z_scope.

(** ** IEEE 754 binary32, from the standard library's executable specification
    ([prec = 24], [emax = 128], round to nearest even).  NaN payloads are not represented. *)
Definition f32 := spec_float.
Definition f32_add : f32 -> f32 -> f32 := SFadd 24 128.
Definition f32_sub : f32 -> f32 -> f32 := SFsub 24 128.
Definition f32_mul : f32 -> f32 -> f32 := SFmul 24 128.
Definition f32_div : f32 -> f32 -> f32 := SFdiv 24 128.
Definition f32_sqrt : f32 -> f32 := SFsqrt 24 128.
Definition f32_neg : f32 -> f32 := SFopp.
Definition f32_abs : f32 -> f32 := SFabs.
Definition f32_cmp : f32 -> f32 -> option comparison := SFcompare.

(** A value is a real binary32 datum iff its mantissa and exponent are canonical. *)
Definition f32_valid (x : f32) : bool := valid_binary 24 128 x.
Definition f32_finite (x : f32) : bool :=
  match x with S754_zero _ | S754_finite _ _ _ => true | _ => false end.

(** [f32::signum]: 1.0 for positive numbers and +0.0, -1.0 for negative numbers and -0.0, NaN for NaN *)
Definition f32_one : f32 := binary_round 24 128 false 1 0.
Definition f32_zero : f32 := S754_zero false.
Definition f32_signum (x : f32) : f32 :=
  match x with
  | S754_nan => S754_nan
  | S754_zero s | S754_infinity s | S754_finite s _ _ => if s then f32_neg f32_one else f32_one
  end.

(** [n as f32] for [n : usize] or [u32] *)
Definition f32_of_N (n : N) : f32 := binary_normalize 24 128 (Z.of_N n) 0 false.

(** [x as i32]: truncation, saturating, NaN to 0 (Rust 1.45 and later) *)
Definition i32_min : Z := - 2 ^ 31.
Definition i32_max : Z := 2 ^ 31 - 1.
Definition clamp_i32 (z : Z) : Z := Z.max i32_min (Z.min i32_max z).
Definition f32_to_i32 (x : f32) : Z :=
  match x with
  | S754_nan => 0
  | S754_zero _ => 0
  | S754_infinity s => if s then i32_min else i32_max
  | S754_finite s m e =>
    let a := if 0 <=? e then Z.pos m * 2 ^ e else Z.pos m / 2 ^ (- e) in
    clamp_i32 (if s then - a else a)
  end.

(** ** Decimal to binary: the correctly rounded value of [m * 10^e]. *)
Definition dec_to_f32 (s : bool) (m : N) (e : Z) : f32 :=
  match m with
  | N0 => S754_zero s
  | Npos p =>
    if 0 <=? e then binary_round 24 128 s (Z.to_pos (Z.pos p * 10 ^ e)) 0
    else
      let '(mz, ez, lz) := SFdiv_core_binary 24 128 (Z.pos p) 0 (10 ^ (- e)) 0 in
      binary_round_aux 24 128 s mz ez lz
  end.

Definition is_digit (c : N) : bool := (48 <=? c)%N && (c <=? 57)%N.

(** Reads decimal digits: value so far, number of digits read, rest. *)
Fixpoint read_digits (s : str) (acc : N) (n : nat) : N * nat * str :=
  match s with
  | c :: t => if is_digit c then read_digits t (10 * acc + (c - 48))%N (S n) else (acc, n, s)
  | [] => (acc, n, [])
  end.

(** [core::num::dec2flt]: digits, optional point and digits (at least one digit in all), optional
    exponent with at least one digit; nothing may follow. *)
Definition parse_decimal (s : str) : option (N * Z) :=
  let '(ip, ni, r) := read_digits s 0 0 in
  let '(m, nf, r2) :=
    match r with
    | 46%N :: r' => read_digits r' ip 0
    | _ => (ip, 0%nat, r)
    end in
  if (ni + nf =? 0)%nat then None
  else
    match r2 with
    | [] => Some (m, - Z.of_nat nf)
    | c :: r3 =>
      if (c =? 101)%N || (c =? 69)%N then
        let '(neg, r4) := match r3 with
                          | 45%N :: t => (true, t)
                          | 43%N :: t => (false, t)
                          | _ => (false, r3)
                          end in
        let '(x, nx, r5) := read_digits r4 0 0 in
        match nx, r5 with
        | S _, [] => Some (m, (if neg then - Z.of_N x else Z.of_N x) - Z.of_nat nf)
        | _, _ => None
        end
      else None
    end.

Definition ascii_lower (c : N) : N := if (65 <=? c)%N && (c <=? 90)%N then (c + 32)%N else c.

(** Spellings of the non-finite values, after the sign.  Since Rust 1.55 ([modern]) "inf",
    "infinity" and "nan" in any letter case, before that exactly "inf" and "NaN". *)
Definition parse_nonfinite (modern : bool) (neg : bool) (s : str) : option f32 :=
  if modern then
    let l := map ascii_lower s in
    if str_eqb l (lit "inf") || str_eqb l (lit "infinity") then Some (S754_infinity neg)
    else if str_eqb l (lit "nan") then Some S754_nan else None
  else
    if str_eqb s (lit "inf") then Some (S754_infinity neg)
    else if str_eqb s (lit "NaN") then Some S754_nan else None.

(** [str::parse::<f32>()] *)
Definition parse_f32 (modern : bool) (s : str) : option f32 :=
  let '(neg, r) := match s with
                   | 45%N :: t => (true, t)
                   | 43%N :: t => (false, t)
                   | _ => (false, s)
                   end in
  match parse_decimal r with
  | Some (m, e) => Some (dec_to_f32 neg m e)
  | None => parse_nonfinite modern neg r
  end.

(** ** Printing. *)

(** Decimal digits of [n], most significant first, at least one. *)
Fixpoint digits_fuel (fuel : nat) (n : N) (acc : str) : str :=
  match fuel with
  | O => (n mod 10 + 48)%N :: acc
  | S fuel' =>
    if (n <? 10)%N then (n + 48)%N :: acc
    else digits_fuel fuel' (n / 10)%N ((n mod 10 + 48)%N :: acc)
  end.
Definition show_N (n : N) : str := digits_fuel (N.size_nat n) n [].

(** [{}] for i32, usize, ... *)
Definition show_Z (z : Z) : str :=
  if z <? 0 then 45%N :: show_N (Z.to_N (- z)) else show_N (Z.to_N z).

(** Drop one trailing zero (enough: see [shortest]). *)
Definition strip0 (d : N * Z) : N * Z :=
  let '(m, e) := d in if (m mod 10 =? 0)%N then ((m / 10)%N, e + 1) else (m, e).

Definition f32_same (a b : f32) : bool :=
  match a, b with
  | S754_zero s, S754_zero s' | S754_infinity s, S754_infinity s' => Bool.eqb s s'
  | S754_nan, S754_nan => true
  | S754_finite s m e, S754_finite s' m' e' => Bool.eqb s s' && Pos.eqb m m' && Z.eqb e e'
  | _, _ => false
  end.

(** The decimal exponent [k] with 10^(k-1) <= num/den < 10^k: first [k] at or above the start. *)
Fixpoint dec_exponent (fuel : nat) (k : Z) (num den : Z) : Z :=
  match fuel with
  | O => k
  | S f =>
    let below := if 0 <=? k then num <? den * 10 ^ k else num * 10 ^ (- k) <? den in
    if below then k else dec_exponent f (k + 1) num den
  end.

(** Shortest decimal that reads back as [x] (the positive value with mantissa [m], exponent [e]):
    for n = 1, 2, ... significant digits, try the n-digit decimals just below and just above the
    value, prefer the closer one (the upper on a tie).  [core::num::flt2dec] computes the same with
    Grisu/Dragon.  Nine digits always suffice for binary32; the exact expansion is the (unreachable)
    default. *)
Fixpoint shortest_search (fuel : nat) (n : Z) (k num den : Z) (x : f32) (dflt : N * Z) : N * Z :=
  match fuel with
  | O => dflt
  | S f =>
    let sc := k - n in
    let '(a, b) := if 0 <=? sc then (num, den * 10 ^ sc) else (num * 10 ^ (- sc), den) in
    let lo := a / b in
    let clo := strip0 (Z.to_N lo, sc) in
    let chi := strip0 (Z.to_N (lo + 1), sc) in
    let oklo := negb (lo =? 0) && f32_same (dec_to_f32 false (fst clo) (snd clo)) x in
    let okhi := f32_same (dec_to_f32 false (fst chi) (snd chi)) x in
    if oklo && okhi then (if 2 * (a - lo * b) <? b then clo else chi)
    else if oklo then clo
    else if okhi then chi
    else shortest_search f (n + 1) k num den x dflt
  end.

Definition shortest (m : positive) (e : Z) : N * Z :=
  let num := Z.pos m * 2 ^ (Z.max e 0) in
  let den := 2 ^ (Z.max (- e) 0) in
  let k := dec_exponent 90 (-45) num den in
  let exact := if 0 <=? e then (Z.to_N (Z.pos m * 2 ^ e), 0) else (Z.to_N (Z.pos m * 5 ^ (- e)), e) in
  shortest_search 9 1 k num den (S754_finite false m e) exact.

(** Positional text of [m * 10^e] without exponent. *)
Definition show_decimal (d : N * Z) : str :=
  let '(m, e) := d in
  if 0 <=? e then show_N (m * 10 ^ Z.to_N e)%N
  else
    let ds := show_N m in
    let f := Z.to_nat (- e) in
    let ds := repeat 48%N (f + 1 - length ds) ++ ds in
    firstn (length ds - f) ds ++ 46%N :: skipn (length ds - f) ds.

(** [{}] for f32.  [neg_zero] tells whether the sign of -0.0 is printed (Rust 1.53 and later). *)
Definition show_f32 (neg_zero : bool) (x : f32) : str :=
  match x with
  | S754_nan => lit "NaN"
  | S754_infinity s => if s then lit "-inf" else lit "inf"
  | S754_zero s => if s && neg_zero then lit "-0" else lit "0"
  | S754_finite s m e =>
    let t := show_decimal (shortest m e) in if s then 45%N :: t else t
  end.

(** ** Vectors (glam [Vec3], [Vec2]), generic in the number type. *)
Record vec3 (T : Type) := V3 { vx : T; vy : T; vz : T }.
Arguments V3 {T}. Arguments vx {T}. Arguments vy {T}. Arguments vz {T}.
Record vec2 (T : Type) := V2 { ux : T; uy : T }.
Arguments V2 {T}. Arguments ux {T}. Arguments uy {T}.

(** ** Numeric interface: what the geometry code uses of f32, core and glam. *)
Record num (T : Type) := Num {
  n_zero : T;
  n_one : T;
  n_add : T -> T -> T;
  n_sub : T -> T -> T;
  n_mul : T -> T -> T;
  n_div : T -> T -> T;
  n_neg : T -> T;
  n_vneg : T -> T;                              (* a component of a negated glam Vec3 *)
  n_abs : T -> T;
  n_sqrt : T -> T;
  n_signum : T -> T;
  n_cmp : T -> T -> option comparison;          (* partial_cmp *)
  n_of_N : N -> T;                              (* integer as float *)
  n_eps : T;                                    (* CMP_EPSILON, geo_builder/brush_plane/vertices.rs:4 *)
  n_degree : T;                                 (* ONE_DEGREE, geo_builder/brush_plane/normals.rs:5 *)
  n_centi : T;                                  (* the literal 0.01, normals.rs:23 *)
  n_parse : str -> option T;                    (* str::parse *)
  n_cos : T -> T;
  n_atan2 : T -> T -> T;
  n_to_radians : T -> T;
  n_normalize : vec3 T -> vec3 T;               (* glam Vec3::normalize *)
  n_quat_rotate : vec3 T -> T -> vec3 T -> vec3 T; (* Quat::from_axis_angle(axis, angle) * v *)
  n_mat2_rotate : T -> vec2 T -> vec2 T         (* Mat2::from_angle(angle) * v *)
}.
Arguments n_zero {T}. Arguments n_one {T}. Arguments n_add {T}. Arguments n_sub {T}.
Arguments n_mul {T}. Arguments n_div {T}. Arguments n_neg {T}. Arguments n_vneg {T}. Arguments n_abs {T}.
Arguments n_sqrt {T}. Arguments n_signum {T}. Arguments n_cmp {T}. Arguments n_of_N {T}.
Arguments n_eps {T}. Arguments n_degree {T}. Arguments n_centi {T}. Arguments n_parse {T}.
Arguments n_cos {T}. Arguments n_atan2 {T}. Arguments n_to_radians {T}. Arguments n_normalize {T}.
Arguments n_quat_rotate {T}. Arguments n_mat2_rotate {T}.

Section Ops.
  Context {T : Type} (O : num T).
  Definition n_eqb (a b : T) : bool := match n_cmp O a b with Some Eq => true | _ => false end.
  Definition n_ltb (a b : T) : bool := match n_cmp O a b with Some Lt => true | _ => false end.
  Definition n_gtb (a b : T) : bool := match n_cmp O a b with Some Gt => true | _ => false end.
  Definition n_geb (a b : T) : bool := match n_cmp O a b with Some Gt | Some Eq => true | _ => false end.

  (** glam operators: componentwise, [dot] associating to the left, [cross] as usual. *)
  Definition v3_zero : vec3 T := V3 (n_zero O) (n_zero O) (n_zero O).
  Definition v3_add (a b : vec3 T) : vec3 T :=
    V3 (n_add O (vx a) (vx b)) (n_add O (vy a) (vy b)) (n_add O (vz a) (vz b)).
  Definition v3_sub (a b : vec3 T) : vec3 T :=
    V3 (n_sub O (vx a) (vx b)) (n_sub O (vy a) (vy b)) (n_sub O (vz a) (vz b)).
  Definition v3_neg (a : vec3 T) : vec3 T := V3 (n_vneg O (vx a)) (n_vneg O (vy a)) (n_vneg O (vz a)).
  Definition v3_scale (a : vec3 T) (k : T) : vec3 T :=
    V3 (n_mul O (vx a) k) (n_mul O (vy a) k) (n_mul O (vz a) k).
  Definition v3_divs (a : vec3 T) (k : T) : vec3 T :=
    V3 (n_div O (vx a) k) (n_div O (vy a) k) (n_div O (vz a) k).
  Definition v3_dot (a b : vec3 T) : T :=
    n_add O (n_add O (n_mul O (vx a) (vx b)) (n_mul O (vy a) (vy b))) (n_mul O (vz a) (vz b)).
  Definition v3_cross (a b : vec3 T) : vec3 T :=
    V3 (n_sub O (n_mul O (vy a) (vz b)) (n_mul O (vz a) (vy b)))
       (n_sub O (n_mul O (vz a) (vx b)) (n_mul O (vx a) (vz b)))
       (n_sub O (n_mul O (vx a) (vy b)) (n_mul O (vy a) (vx b))).
  Definition v3_eqb (a b : vec3 T) : bool :=
    n_eqb (vx a) (vx b) && n_eqb (vy a) (vy b) && n_eqb (vz a) (vz b).
  Definition v2_add (a b : vec2 T) : vec2 T := V2 (n_add O (ux a) (ux b)) (n_add O (uy a) (uy b)).
  Definition v2_div (a b : vec2 T) : vec2 T := V2 (n_div O (ux a) (ux b)) (n_div O (uy a) (uy b)).
  Definition v2_eqb (a b : vec2 T) : bool := n_eqb (ux a) (ux b) && n_eqb (uy a) (uy b).
End Ops.

(** ** Platform: everything the sources leave open.  All theorems quantify over it. *)
Record platform := Platform {
  p_simd : bool;                 (* glam 0.8 Vec3: SSE2 (normalize divides, negation subtracts from zero) or
                                    scalar (normalize multiplies by the reciprocal, negation flips the sign) *)
  p_modern_parse : bool;         (* parse::<f32> spellings of inf/NaN *)
  p_neg_zero : bool;             (* print the sign of -0.0 *)
  p_keep_bare_cr : bool;         (* str::lines keeps a final CR not followed by LF *)
  p_overflow_checks : bool;      (* debug profile *)
  p_cos : f32 -> f32;
  p_atan2 : f32 -> f32 -> f32;
  p_to_radians : f32 -> f32;
  p_quat_rotate : vec3 f32 -> f32 -> vec3 f32 -> vec3 f32;
  p_mat2_rotate : f32 -> vec2 f32 -> vec2 f32;
  p_lower : str -> str           (* to_lowercase on strings with characters above U+00FF *)
}.

(** glam 0.8 [Vec3::normalize]: [self / sqrt(dot(self,self))] (SSE2, the x86-64 default) or
    [self * (1.0 / length)] (scalar build). *)
Definition normalize_with {T} (add mul div : T -> T -> T) (sqrt : T -> T) (one : T) (simd : bool)
  (v : vec3 T) : vec3 T :=
  let len := sqrt (add (add (mul (vx v) (vx v)) (mul (vy v) (vy v))) (mul (vz v) (vz v))) in
  if simd then V3 (div (vx v) len) (div (vy v) len) (div (vz v) len)
  else let r := div one len in V3 (mul (vx v) r) (mul (vy v) r) (mul (vz v) r).

Definition f32_num (p : platform) : num f32 := {|
  n_zero := f32_zero;
  n_one := f32_one;
  n_add := f32_add;
  n_sub := f32_sub;
  n_mul := f32_mul;
  n_div := f32_div;
  n_neg := f32_neg;
  n_vneg := fun x => if p_simd p then f32_sub f32_zero x else f32_neg x;
  n_abs := f32_abs;
  n_sqrt := f32_sqrt;
  n_signum := f32_signum;
  n_cmp := f32_cmp;
  n_of_N := f32_of_N;
  n_eps := dec_to_f32 false 1 (-3);
  n_degree := dec_to_f32 false 174533 (-7);
  n_centi := dec_to_f32 false 1 (-2);
  n_parse := parse_f32 (p_modern_parse p);
  n_cos := p_cos p;
  n_atan2 := p_atan2 p;
  n_to_radians := p_to_radians p;
  n_normalize := normalize_with f32_add f32_mul f32_div f32_sqrt f32_one (p_simd p);
  n_quat_rotate := p_quat_rotate p;
  n_mat2_rotate := p_mat2_rotate p
|}.
