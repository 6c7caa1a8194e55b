(** The parts of Rust's string library that quarchitect uses. *)
From Verif Require Import Prelude F32.
Local Open Scope N_scope.

(** ** UTF-8 ([fs::read_to_string], src/lib.rs:60,89,90): [None] for invalid UTF-8. *)
Definition is_cont (b : N) : bool := (128 <=? b) && (b <? 192).

(** Unicode scalar values: no surrogates, at most U+10FFFF. *)
Definition is_scalar (c : N) : bool := (c <? 55296) || ((57344 <=? c) && (c <? 1114112)).

Fixpoint utf8_decode (bs : list N) : option str :=
  match bs with
  | [] => Some []
  | b0 :: t =>
    if b0 <? 128 then option_map (cons b0) (utf8_decode t)
    else if (192 <=? b0) && (b0 <? 224) then
      match t with
      | b1 :: t1 =>
        let c := (b0 - 192) * 64 + (b1 - 128) in
        if is_cont b1 && (128 <=? c) then option_map (cons c) (utf8_decode t1) else None
      | _ => None
      end
    else if (224 <=? b0) && (b0 <? 240) then
      match t with
      | b1 :: b2 :: t2 =>
        let c := (b0 - 224) * 4096 + (b1 - 128) * 64 + (b2 - 128) in
        if is_cont b1 && is_cont b2 && (2048 <=? c) && is_scalar c
        then option_map (cons c) (utf8_decode t2) else None
      | _ => None
      end
    else if (240 <=? b0) && (b0 <? 248) then
      match t with
      | b1 :: b2 :: b3 :: t3 =>
        let c := (b0 - 240) * 262144 + (b1 - 128) * 4096 + (b2 - 128) * 64 + (b3 - 128) in
        if is_cont b1 && is_cont b2 && is_cont b3 && (65536 <=? c) && is_scalar c
        then option_map (cons c) (utf8_decode t3) else None
      | _ => None
      end
    else None
  end.

(** ** [str::split(c)] for a single character: always at least one piece. *)
Fixpoint split_char (c : N) (s : str) : list str :=
  match s with
  | [] => [[]]
  | x :: t =>
    if x =? c then [] :: split_char c t
    else match split_char c t with
         | p :: ps => (x :: p) :: ps
         | [] => [[x]]                       (* not reached *)
         end
  end.

(** ** [str::lines()]: pieces between line feeds, no empty last piece, a carriage return before
    the line feed removed; whether a bare final carriage return is removed depends on the
    library version. *)
Fixpoint strip_cr (l : str) : str :=
  match l with
  | [] => []
  | [13] => []
  | x :: t => x :: strip_cr t
  end.

Fixpoint lines_of (keep_bare_cr : bool) (pieces : list str) : list str :=
  match pieces with
  | [] => []
  | [p] => match p with
           | [] => []
           | _ => [if keep_bare_cr then p else strip_cr p]
           end
  | p :: ps => strip_cr p :: lines_of keep_bare_cr ps
  end.
Definition str_lines (keep_bare_cr : bool) (s : str) : list str :=
  lines_of keep_bare_cr (split_char 10 s).

(** ** [str::split_whitespace()]: Unicode White_Space. *)
Definition is_whitespace (c : N) : bool :=
  ((9 <=? c) && (c <=? 13)) || (c =? 32) || (c =? 133) || (c =? 160) || (c =? 5760)
  || ((8192 <=? c) && (c <=? 8202)) || (c =? 8232) || (c =? 8233) || (c =? 8239)
  || (c =? 8287) || (c =? 12288).

(** [word] is the word being read, in reverse. *)
Fixpoint words_from (word : str) (s : str) : list str :=
  match s with
  | [] => match word with [] => [] | _ => [rev word] end
  | c :: t =>
    if is_whitespace c then
      match word with
      | [] => words_from [] t
      | _ => rev word :: words_from [] t
      end
    else words_from (c :: word) t
  end.
Definition split_whitespace (s : str) : list str := words_from [] s.

(** ** [to_lowercase]: exact on Latin-1 text (all a WAD name can contain); text with other
    characters goes through the platform's table. *)
Definition lower_latin1 (c : N) : N :=
  if (65 <=? c) && (c <=? 90) then c + 32
  else if (192 <=? c) && (c <=? 222) && negb (c =? 215) then c + 32
  else c.
Definition to_lowercase (p : platform) (s : str) : str :=
  if forallb (fun c => c <? 256) s then map lower_latin1 s else p_lower p s.

(** ** [str::parse::<i32>()]: optional sign, at least one digit, in range. *)
Definition parse_i32 (s : str) : option Z :=
  let '(neg, r) := match s with
                   | 45 :: t => (true, t)
                   | 43 :: t => (false, t)
                   | _ => (false, s)
                   end in
  let '(v, n, rest) := read_digits r 0 0 in
  match n, rest with
  | S _, [] =>
    let z := if neg then (- Z.of_N v)%Z else Z.of_N v in
    if ((i32_min <=? z) && (z <=? i32_max))%Z then Some z else None
  | _, _ => None
  end.
