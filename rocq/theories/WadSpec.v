(** Independent statements about WAD files: what a well-formed file looks like, as bytes. *)
From Verif Require Import Prelude F32 TextSpec WadModel.
Local Open Scope N_scope.

Definition byte (b : N) : Prop := b < 256.
Definition u32 (n : N) : Prop := n < 2 ^ 32.

(** Little-endian encoding in [k] bytes. *)
Fixpoint le (k : nat) (n : N) : bytes :=
  match k with
  | O => []
  | S k' => n mod 256 :: le k' (n / 256)
  end.

(** [field] holds [name], cut at the first NUL. *)
Definition cut_at_nul (name field : bytes) : Prop :=
  ~ In 0 name /\ (field = name \/ exists junk, field = name ++ 0 :: junk).

(** ** Records *)
Definition header_bytes (h : header) (bs : bytes) : Prop :=
  length (h_magic h) = 4%nat /\ u32 (h_num_entries h) /\ u32 (h_dir_offset h) /\
  bs = h_magic h ++ le 4 (h_num_entries h) ++ le 4 (h_dir_offset h).

Definition entry_bytes (e : entry) (bs : bytes) : Prop :=
  u32 (en_offset e) /\ u32 (en_dsize e) /\ u32 (en_size e) /\
  exists pad field, length pad = 2%nat /\ length field = 16%nat /\ cut_at_nul (en_name e) field /\
    bs = le 4 (en_offset e) ++ le 4 (en_dsize e) ++ le 4 (en_size e) ++ [en_type e] ++ [en_cmprs e] ++ pad ++ field.

Definition miptex_bytes (m : mip_texture) (bs : bytes) : Prop :=
  u32 (mt_width m) /\ u32 (mt_height m) /\
  u32 (mt_offset1 m) /\ u32 (mt_offset2 m) /\ u32 (mt_offset4 m) /\ u32 (mt_offset8 m) /\
  exists name field, length field = 16%nat /\ cut_at_nul name field /\ mt_name m = map small name /\
    bs = field ++ le 4 (mt_width m) ++ le 4 (mt_height m) ++
         le 4 (mt_offset1 m) ++ le 4 (mt_offset2 m) ++ le 4 (mt_offset4 m) ++ le 4 (mt_offset8 m).

Definition palette_bytes (p : palette) (bs : bytes) : Prop :=
  length p = 256%nat /\ bs = flat_map (fun c => [r_r c; r_g c; r_b c]) p.

(** ** Layout *)

(** The bytes [chunk] are in the file at offset [off] (no bytes are everywhere). *)
Definition stored (file : bytes) (off : N) (chunk : bytes) : Prop :=
  chunk = [] \/ exists pre post, file = pre ++ chunk ++ post /\ N.of_nat (length pre) = off.

(** How a sum or product is turned into 32 bits: builds with overflow checks only accept values that
    fit, others wrap. *)
Definition address (checks : bool) (x a : N) : Prop :=
  if checks then x < 2 ^ 32 /\ a = x else a = x mod 2 ^ 32.

Definition magic_of (ty : wad_type) : bytes := match ty with WAD2 => lit "WAD2" | WAD3 => lit "WAD3" end.

(** The file has the given type and directory. *)
Definition directory (checks : bool) (file : bytes) (ty : wad_type) (es : list entry) : Prop :=
  exists hb d, header_bytes (Header (magic_of ty) (N.of_nat (length es)) d) hb /\ stored file 0 hb /\
    forall i e, nth_error es i = Some e ->
      exists a bs, address checks (d + 32 * N.of_nat i) a /\ entry_bytes e bs /\ stored file a bs.

(** Entries that are textures (types 'C' and 'D') and whitelisted. *)
Definition selected_entry (whitelist : option (list str)) (e : entry) : Prop :=
  (en_type e = 67 \/ en_type e = 68) /\ forall l, whitelist = Some l -> In (en_name e) l.

(** [t] is the texture stored in the file for directory entry [e], first mip level only. *)
Definition texture_at (checks : bool) (file : bytes) (ty : wad_type) (e : entry) (t : texture) : Prop :=
  let m := tx_info t in
  exists hb a size,
    miptex_bytes m hb /\ stored file (en_offset e) hb /\
    address checks (en_offset e + mt_offset1 m) a /\
    address checks (mt_width m * mt_height m) size /\
    N.of_nat (length (mip0 (tx_data t))) = size /\ stored file a (mip0 (tx_data t)) /\
    mip1 (tx_data t) = None /\ mip2 (tx_data t) = None /\ mip3 (tx_data t) = None /\
    match ty with
    | WAD2 => tx_palette t = None
    | WAD3 => exists p pa pb, tx_palette t = Some p /\ palette_bytes p pb /\
                address checks (en_offset e + mt_offset8 m + size / 64 + 2) pa /\ stored file pa pb
    end.

(** ** Outcomes of a list of independent tasks *)
Definition all_ok {A} (rs : list (res A)) (xs : list A) : Prop := rs = map Ok xs.
Definition first_error {A} (rs : list (res A)) (e : str) : Prop :=
  exists xs post, rs = map Ok xs ++ Err e :: post.

(** [n] bytes at [off] lie inside the file. *)
Definition inside (file : bytes) (off n : N) : Prop := n = 0 \/ off + n <= N.of_nat (length file).

Definition has_header (file : bytes) (ty : wad_type) (n d : N) : Prop :=
  exists hb, header_bytes (Header (magic_of ty) n d) hb /\ stored file 0 hb.
Definition has_miptex (file : bytes) (e : entry) (m : mip_texture) : Prop :=
  exists hb, miptex_bytes m hb /\ stored file (en_offset e) hb.

(** Some needed record or block is not inside the file. *)
Definition block_outside (checks : bool) (file : bytes) (ty : wad_type) (e : entry) (m : mip_texture) (size : N) : Prop :=
  (exists a, address checks (en_offset e + mt_offset1 m) a /\ ~ inside file a size) \/
  (ty = WAD3 /\ exists a, address checks (en_offset e + mt_offset8 m + size / 64 + 2) a /\ ~ inside file a 768).
Definition unreadable (checks : bool) (file : bytes) (whitelist : option (list str)) : Prop :=
  N.of_nat (length file) < 12 \/
  exists ty n d, has_header file ty n d /\
    ((exists i a, i < n /\ address checks (d + 32 * i) a /\ ~ inside file a 32) \/
     (exists es e, directory checks file ty es /\ In e es /\ selected_entry whitelist e /\
        (~ inside file (en_offset e) 40 \/
         exists m size, has_miptex file e m /\ address checks (mt_width m * mt_height m) size /\
           block_outside checks file ty e m size))).

(** 32-bit arithmetic overflows while reading. *)
Definition overflows (file : bytes) (whitelist : option (list str)) : Prop :=
  exists ty n d, has_header file ty n d /\
    ((exists i, i < n /\ 2 ^ 32 <= d + 32 * i) \/
     (exists es e m, directory true file ty es /\
        (forall e', In e' es -> selected_entry whitelist e' -> exists m', has_miptex file e' m') /\
        In e es /\ selected_entry whitelist e /\ has_miptex file e m /\
        (2 ^ 32 <= en_offset e + mt_offset1 m \/ 2 ^ 32 <= mt_width m * mt_height m \/
         (ty = WAD3 /\ inside file (en_offset e + mt_offset1 m) (mt_width m * mt_height m) /\
          2 ^ 32 <= en_offset e + mt_offset8 m + mt_width m * mt_height m / 64 + 2)))).

(** Sizes of the first [levels] mip levels together. *)
Definition levels_size (size levels : N) : N :=
  size + (if 1 <? levels then size / 4 else 0) + (if 2 <? levels then size / 16 else 0) +
  (if 3 <? levels then size / 64 else 0).

(** ** Colours *)
(** [img] shows the pixels [px] in the colours of [pal]. *)
Definition colored (pal : palette) (px : bytes) (img : list rgb) : Prop :=
  Forall2 (fun i c => nth_error pal (N.to_nat i) = Some c) px img.
Definition colored_opt (pal : palette) (px : option bytes) (img : option (list rgb)) : Prop :=
  match px, img with
  | None, None => True
  | Some p, Some i => colored pal p i
  | _, _ => False
  end.
Definition opt_bytes (px : option bytes) : Prop := match px with Some p => Forall byte p | None => True end.
Definition valid_texture (t : texture) : Prop :=
  Forall byte (mip0 (tx_data t)) /\ opt_bytes (mip1 (tx_data t)) /\ opt_bytes (mip2 (tx_data t)) /\ opt_bytes (mip3 (tx_data t)) /\
  (forall p, tx_palette t = Some p -> length p = 256%nat).

(** Panic message of checked arithmetic in the model. *)
Definition overflow : str := lit "arithmetic overflow".

(** The decoder takes exactly [n] bytes, and fails only when there are fewer. *)
Definition consumes {A} (p : parser A) (n : nat) : Prop :=
  forall i, ((n <= length i)%nat -> exists x, p i = Some (skipn n i, x)) /\ ((length i < n)%nat -> p i = None).
