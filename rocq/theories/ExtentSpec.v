(** Which bytes of an archive matter: specification of C139. *)
From Verif Require Import Prelude F32 TextSpec WadModel DiffSpec WadSpec.
Local Open Scope N_scope.

(** Byte [k] belongs to the header, to an entry of the directory, or to the header, the first mip level or the palette
    of a texture asked for. *)
Inductive needed (checks : bool) (file : bytes) (whitelist : option (list str)) (k : N) : Prop :=
| needed_header : k < 12 -> needed checks file whitelist k
| needed_entry : forall ty n d i a, has_header file ty n d -> i < n -> address checks (d + 32 * i) a -> a <= k < a + 32 ->
    needed checks file whitelist k
| needed_info : forall ty es e, directory checks file ty es -> In e es -> selected_entry whitelist e ->
    en_offset e <= k < en_offset e + 40 -> needed checks file whitelist k
| needed_pixels : forall ty es e m a size, directory checks file ty es -> In e es -> selected_entry whitelist e -> has_miptex file e m ->
    address checks (en_offset e + mt_offset1 m) a -> address checks (mt_width m * mt_height m) size ->
    a <= k < a + size -> needed checks file whitelist k
| needed_colors : forall es e m a size, directory checks file WAD3 es -> In e es -> selected_entry whitelist e -> has_miptex file e m ->
    address checks (mt_width m * mt_height m) size -> address checks (en_offset e + mt_offset8 m + size / 64 + 2) a ->
    a <= k < a + 768 -> needed checks file whitelist k.

(** The byte at a position, if the file is that long. *)
Definition byte_at (file : bytes) (k : N) : option N := nth_error file (N.to_nat k).
