(** UTF-8, from the bit layout of the Unicode standard, independently of the decoder in [Text]. *)
From Verif Require Import Prelude.
Local Open Scope N_scope.

(** Unicode scalar values: up to 10FFFF without the surrogates D800 to DFFF. *)
Definition scalar (c : N) : Prop := c < 0x110000 /\ ~ (0xD800 <= c < 0xE000).

(** The bytes of a scalar value. *)
Definition encode (c : N) : list N :=
  if c <? 0x80 then [c]
  else if c <? 0x800 then [0xC0 + c / 64; 0x80 + c mod 64]
  else if c <? 0x10000 then [0xE0 + c / 4096; 0x80 + c / 64 mod 64; 0x80 + c mod 64]
  else [0xF0 + c / 262144; 0x80 + c / 4096 mod 64; 0x80 + c / 64 mod 64; 0x80 + c mod 64].

(** The file contents that encode a text. *)
Definition encodes (bs : list N) (text : str) : Prop := Forall scalar text /\ bs = flat_map encode text.
