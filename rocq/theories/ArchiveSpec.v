(** What a program that writes WAD archives puts into the file: the lumps one after the other, then the
    directory.  Independent of the reader. *)
From Verif Require Import Prelude F32 TextSpec WadModel WadSpec.
Local Open Scope N_scope.

(** A picture with four mip levels. *)
Record image := Image {
  im_kind : N; im_name : bytes; im_width : N; im_height : N;
  im_full : bytes; im_half : bytes; im_quarter : bytes; im_eighth : bytes;
  im_palette : palette }.

(** A lump: a picture, or anything else under some other type. *)
Inductive lump := Picture (im : image) | Other (kind : N) (name content : bytes).

Definition size (bs : bytes) : N := N.of_nat (length bs).

Definition good_name (name : bytes) : Prop := Forall byte name /\ ~ In 0 name /\ (length name <= 16)%nat.
Definition good_image (im : image) : Prop :=
  (im_kind im = 67 \/ im_kind im = 68) /\ good_name (im_name im) /\ u32 (im_width im) /\ u32 (im_height im) /\
  Forall byte (im_full im) /\ Forall byte (im_half im) /\ Forall byte (im_quarter im) /\ Forall byte (im_eighth im) /\
  size (im_full im) = im_width im * im_height im /\ size (im_eighth im) = im_width im * im_height im / 64 /\
  length (im_palette im) = 256%nat /\ Forall (fun c => byte (r_r c) /\ byte (r_g c) /\ byte (r_b c)) (im_palette im).
Definition good_lump (l : lump) : Prop :=
  match l with
  | Picture im => good_image im
  | Other kind name content => byte kind /\ kind <> 67 /\ kind <> 68 /\ good_name name /\ Forall byte content
  end.

(** The offsets of the four levels inside the lump. *)
Definition level_offsets (im : image) : N * N * N * N :=
  let a := 40 in
  let b := a + size (im_full im) in
  let c := b + size (im_half im) in
  (a, b, c, c + size (im_quarter im)).

Definition field16 (name : bytes) : bytes := name ++ repeat 0 (16 - length name).

Definition image_bytes (ty : wad_type) (im : image) : bytes :=
  let '(a, b, c, d) := level_offsets im in
  field16 (im_name im) ++ le 4 (im_width im) ++ le 4 (im_height im) ++ le 4 a ++ le 4 b ++ le 4 c ++ le 4 d ++
  im_full im ++ im_half im ++ im_quarter im ++ im_eighth im ++
  match ty with
  | WAD2 => []
  | WAD3 => le 2 256 ++ flat_map (fun c => [r_r c; r_g c; r_b c]) (im_palette im)
  end.
Definition lump_bytes (ty : wad_type) (l : lump) : bytes :=
  match l with Picture im => image_bytes ty im | Other _ _ content => content end.
Definition lump_kind (l : lump) : N := match l with Picture im => im_kind im | Other kind _ _ => kind end.
Definition lump_name (l : lump) : bytes := match l with Picture im => im_name im | Other _ name _ => name end.

(** The directory of lumps written from offset [off] on. *)
Fixpoint directory_bytes (ty : wad_type) (off : N) (ls : list lump) : bytes :=
  match ls with
  | [] => []
  | l :: rest =>
    let n := size (lump_bytes ty l) in
    le 4 off ++ le 4 n ++ le 4 n ++ [lump_kind l] ++ [0] ++ [0; 0] ++ field16 (lump_name l) ++
    directory_bytes ty (off + n) rest
  end.

Definition archive (ty : wad_type) (ls : list lump) : bytes :=
  let body := flat_map (lump_bytes ty) ls in
  magic_of ty ++ le 4 (N.of_nat (length ls)) ++ le 4 (12 + size body) ++ body ++ directory_bytes ty 12 ls.

(** The pictures of an archive, and the texture each is read as. *)
Definition images (ls : list lump) : list image :=
  flat_map (fun l => match l with Picture im => [im] | _ => [] end) ls.
Definition asked (whitelist : option (list str)) (im : image) : Prop :=
  forall names, whitelist = Some names -> In (im_name im) names.
Definition texture_of (ty : wad_type) (im : image) : texture :=
  let '(a, b, c, d) := level_offsets im in
  Texture (MipTexture (map small (im_name im)) (im_width im) (im_height im) a b c d)
    (MipData (im_full im) None None None)
    (match ty with WAD2 => None | WAD3 => Some (im_palette im) end).
