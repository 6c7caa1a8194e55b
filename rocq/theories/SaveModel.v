(** Writing game data to disk, and equality of entity definitions.  Models GameData::save and the trait
    implementations of src/game_data/forge. *)
From Verif Require Import Prelude F32 Text MapModel GameDataModel RunModel.
Local Open Scope N_scope.

(** core::char::methods::encode_utf8_raw, which lays out the bytes of a String *)
Definition utf8_char (c : N) : list N :=
  if c <? 0x80 then [c]
  else if c <? 0x800 then [N.lor (N.land (N.shiftr c 6) 0x1F) 0xC0; N.lor (N.land c 0x3F) 0x80]
  else if c <? 0x10000 then
    [N.lor (N.land (N.shiftr c 12) 0x0F) 0xE0; N.lor (N.land (N.shiftr c 6) 0x3F) 0x80; N.lor (N.land c 0x3F) 0x80]
  else
    [N.lor (N.land (N.shiftr c 18) 0x07) 0xF0; N.lor (N.land (N.shiftr c 12) 0x3F) 0x80;
     N.lor (N.land (N.shiftr c 6) 0x3F) 0x80; N.lor (N.land c 0x3F) 0x80].
Definition utf8_bytes (s : str) : list N := flat_map utf8_char s.

(** The files of the system by path; a path without readable file holds [Unreadable]. *)
Definition disk := str -> file.
Definition put (d : disk) (path : str) (bs : list N) : disk :=
  fun other => if str_eqb other path then Contents bs else d other.

(** What the system does with a write request: carry it out, refuse to open the file, or give up after
    some bytes. *)
Inductive fate := Written | Refused | Interrupted (n : nat).

(** [std::fs::write]: create or truncate the file, then write all bytes *)
Definition fs_write (f : fate) (d : disk) (path : str) (bs : list N) : res unit * disk :=
  match f with
  | Written => (Ok tt, put d path bs)
  | Refused => (Err (lit "io"), d)
  | Interrupted n => (Err (lit "io"), put d path (firstn n bs))
  end.

(** GameData::save, forge/game_data.rs:20-23; the text is built before the file is opened *)
Definition save (p : platform) (f : fate) (d : disk) (g : forge_data f32) (path : str) : res unit * disk :=
  match show_forge_data p g with
  | Ok text => fs_write f d path (utf8_bytes text)
  | Err e => (Err e, d)
  | Panic w => (Panic w, d)
  | OutOfFuel => (OutOfFuel, d)
  end.

(** PartialEq for Entity, forge/entity.rs:46-50 *)
Definition entity_eqb {T} (a b : forge_entity T) : bool := str_eqb (fe_name a) (fe_name b).

(** Hash for Entity, forge/entity.rs:40-44: the bytes given to the hasher ([Hash for str] writes the
    bytes and then 0xff) *)
Definition entity_hashed {T} (e : forge_entity T) : list N := utf8_bytes (fe_name e) ++ [0xFF].

(** Default for Entity, forge/entity.rs:74-90 *)
Definition default_entity {T} : forge_entity T := ForgeEntity BaseClass [] [] [] [].
(** Default for GameData, forge/game_data.rs:26-38 *)
Definition default_forge {T} : forge_data T := ForgeData [] [] [].
