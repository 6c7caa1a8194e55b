(** Text forms, from their public descriptions (Unicode, Rust reference), independently of [Text] and [F32]. *)
From Verif Require Import Prelude.

(** The characters with the Unicode property White_Space. *)
Definition white_space : list N :=
  [0x9; 0xA; 0xB; 0xC; 0xD; 0x20; 0x85; 0xA0; 0x1680;
   0x2000; 0x2001; 0x2002; 0x2003; 0x2004; 0x2005; 0x2006; 0x2007; 0x2008; 0x2009; 0x200A;
   0x2028; 0x2029; 0x202F; 0x205F; 0x3000]%N.
Definition white (c : N) : bool := existsb (N.eqb c) white_space.

(** Decimal digits and their value by place. *)
Definition all_digits (ds : str) : Prop := forall c, In c ds -> (48 <= c <= 57)%N.
Fixpoint place_value (ds : str) : Z :=
  match ds with [] => 0 | c :: t => (Z.of_N c - 48) * 10 ^ Z.of_nat (length t) + place_value t end%Z.

Definition i32_range (z : Z) : Prop := (-2147483648 <= z <= 2147483647)%Z.
(** An i32 literal: optional sign, at least one digit, in range. *)
Definition integer_text (s : str) (z : Z) : Prop :=
  exists sign ds, s = sign ++ ds /\ ds <> [] /\ all_digits ds
    /\ ((sign = lit "-" /\ z = - place_value ds)%Z \/ ((sign = [] \/ sign = lit "+") /\ z = place_value ds))
    /\ i32_range z.

(** Capital letters of Latin-1 (Unicode up to 255) with their small letters. *)
Definition letters : list (N * N) :=
  combine (lit "ABCDEFGHIJKLMNOPQRSTUVWXYZ") (lit "abcdefghijklmnopqrstuvwxyz") ++
  [(0xC0, 0xE0); (0xC1, 0xE1); (0xC2, 0xE2); (0xC3, 0xE3); (0xC4, 0xE4); (0xC5, 0xE5); (0xC6, 0xE6); (0xC7, 0xE7);
   (0xC8, 0xE8); (0xC9, 0xE9); (0xCA, 0xEA); (0xCB, 0xEB); (0xCC, 0xEC); (0xCD, 0xED); (0xCE, 0xEE); (0xCF, 0xEF);
   (0xD0, 0xF0); (0xD1, 0xF1); (0xD2, 0xF2); (0xD3, 0xF3); (0xD4, 0xF4); (0xD5, 0xF5); (0xD6, 0xF6);
   (0xD8, 0xF8); (0xD9, 0xF9); (0xDA, 0xFA); (0xDB, 0xFB); (0xDC, 0xFC); (0xDD, 0xFD); (0xDE, 0xFE)]%N.
Definition small (c : N) : N := match find (fun l => fst l =? c)%N letters with Some l => snd l | None => c end.
(** The same letter in either case. *)
Definition same_letter (a b : N) : Prop := a = b \/ In (a, b) letters \/ In (b, a) letters.
Definition latin1 (s : str) : Prop := forall c, In c s -> (c < 256)%N.
