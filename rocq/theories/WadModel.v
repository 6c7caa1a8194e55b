(** WAD archives.  Models src/wad/.  Bytes are [N] below 256; a file is its list of bytes. *)
From Verif Require Import Prelude F32 Text.
Local Open Scope N_scope.

Definition bytes := list N.

(** ** nom parsers: remaining input and value, [None] for [Err::Error] at end of input *)
Definition parser (A : Type) := bytes -> option (bytes * A).

(** nom::number::complete::le_u8, and character::complete::anychar on bytes (the byte as a
    Latin-1 character) *)
Definition le_u8 : parser N := fun i => match i with b :: t => Some (t, b) | [] => None end.
Definition anychar : parser N := le_u8.

(** nom::number::complete::le_u16, le_u32 *)
Definition le_u16 : parser N := fun i =>
  match i with
  | a :: b :: t => Some (t, a + b * 256)
  | _ => None
  end.
Definition le_u32 : parser N := fun i =>
  match i with
  | a :: b :: c :: d :: t => Some (t, a + b * 256 + c * 65536 + d * 16777216)
  | _ => None
  end.

(** nom::multi::count *)
Fixpoint count {A} (p : parser A) (n : nat) : parser (list A) := fun i =>
  match n with
  | O => Some (i, [])
  | S n' =>
    match p i with
    | Some (i, x) =>
      match count p n' i with
      | Some (i, xs) => Some (i, x :: xs)
      | None => None
      end
    | None => None
    end
  end.

Definition pbind {A B} (p : parser A) (f : A -> parser B) : parser B := fun i =>
  match p i with Some (i, x) => f x i | None => None end.
Definition pret {A} (x : A) : parser A := fun i => Some (i, x).
Notation "'let*' x ':=' p 'in' k" := (pbind p (fun x => k)) (at level 200, x pattern).

(** [take_while(|c| *c != char::from(0))] *)
Fixpoint until_nul (cs : str) : str :=
  match cs with
  | [] => []
  | c :: t => if c =? 0 then [] else c :: until_nul t
  end.

(** src/wad/header.rs *)
Record header := Header { h_magic : str; h_num_entries : N; h_dir_offset : N }.
Definition header_parser : parser header :=
  let* magic := count anychar 4 in
  let* n := le_u32 in
  let* off := le_u32 in
  pret (Header magic n off).

(** src/wad/entry.rs *)
Record entry := Entry {
  en_offset : N; en_dsize : N; en_size : N; en_type : N; en_cmprs : N; en_name : str }.
Definition entry_parser : parser entry :=
  let* offset := le_u32 in
  let* dsize := le_u32 in
  let* size := le_u32 in
  let* ty := anychar in
  let* cmprs := le_u8 in
  let* _ := le_u16 in
  let* name := count anychar 16 in
  pret (Entry offset dsize size ty cmprs (until_nul name)).

(** src/wad/mip_texture.rs.  The name is lowercased; it is Latin-1, so no table is needed. *)
Record mip_texture := MipTexture {
  mt_name : str; mt_width : N; mt_height : N;
  mt_offset1 : N; mt_offset2 : N; mt_offset4 : N; mt_offset8 : N }.
Definition mip_texture_parser : parser mip_texture :=
  let* name := count anychar 16 in
  let* width := le_u32 in
  let* height := le_u32 in
  let* o1 := le_u32 in
  let* o2 := le_u32 in
  let* o4 := le_u32 in
  let* o8 := le_u32 in
  pret (MipTexture (map lower_latin1 (until_nul name)) width height o1 o2 o4 o8).

(** src/wad/color.rs, palette.rs:5-13 *)
Record rgb := RGB { r_r : N; r_g : N; r_b : N }.
Definition color_parser : parser rgb :=
  let* r := le_u8 in
  let* g := le_u8 in
  let* b := le_u8 in
  pret (RGB r g b).
Definition palette := list rgb.
Definition palette_parser : parser palette := count color_parser 256.

(** palette::read_palette, palette.rs:15-27.  [None]: the file cannot be read. *)
Definition read_palette (file : option bytes) : res palette :=
  match file with
  | None => Err (lit "Failed to load palette")
  | Some b =>
    match palette_parser b with
    | Some (_, p) => Ok p
    | None => Err (lit "Failed to parse palette")
    end
  end.

(** mip_level::parser, src/wad/mip_level.rs:12-17 *)
Definition mip_level_parser (size : N) : parser bytes := count le_u8 (N.to_nat size).

(** ** Reading the file *)

(** [seek(Start(offset))] then [read_exact] of [n] bytes; seeking past the end succeeds, reading
    zero bytes always succeeds. *)
Definition read_at (file : bytes) (offset n : N) : option bytes :=
  if n =? 0 then Some []
  else if offset + n <=? N.of_nat (length file)
       then Some (firstn (N.to_nat n) (skipn (N.to_nat offset) file))
       else None.

(** u32 arithmetic: panics on overflow with overflow checks, wraps without *)
Definition u32_modulus : N := 4294967296.
Definition u32_fit (checks : bool) (x : N) : res N :=
  if x <? u32_modulus then Ok x
  else if checks then Panic (lit "arithmetic overflow") else Ok (x mod u32_modulus).
Definition u32_add (checks : bool) (a b : N) : res N := u32_fit checks (a + b).
Definition u32_mul (checks : bool) (a b : N) : res N := u32_fit checks (a * b).

(** A vector of [Result]s computed by a mapped closure, then [find_map] for the first error:
    wad/mod.rs:152-201, 205-241, 253-381.  A panic in any closure call wins over every [Err],
    because the vector is collected completely first. *)
Definition task_panic {A} (l : list (res A)) : option (res (list A)) :=
  fold_right (fun r acc => match r with Panic w => Some (Panic w) | _ => acc end) None l.
Definition collect_results {A} (l : list (res A)) : res (list A) :=
  match task_panic l with
  | Some p => p
  | None => mapM (fun r => r) l
  end.

(** read_header, wad/mod.rs:135-145 *)
Definition read_header (file : bytes) : res header :=
  match read_at file 0 12 with
  | None => Err (lit "Error reading WAD header")
  | Some b =>
    match header_parser b with
    | Some (_, h) => Ok h
    | None => Err (lit "Error parsing WAD header")
    end
  end.

Inductive wad_type := WAD2 | WAD3.

(** wad/mod.rs:105-109 *)
Definition wad_type_of (magic : str) : res wad_type :=
  if str_eqb magic (lit "WAD2") then Ok WAD2
  else if str_eqb magic (lit "WAD3") then Ok WAD3
  else Panic (lit "Unexpected WAD magic").

(** Closure of read_directory, wad/mod.rs:153-183: ['C'] is 67, ['D'] is 68 *)
Definition wanted (whitelist : option (list str)) (e : entry) : bool :=
  ((en_type e =? 67) || (en_type e =? 68))
  && match whitelist with None => true | Some l => existsb (fun t => str_eqb t (en_name e)) l end.
Definition read_entry (checks : bool) (file : bytes) (dir_offset : N) (whitelist : option (list str)) (i : N)
  : res (option entry) :=
  step <- u32_mul checks i 32 ;;
  offset <- u32_add checks dir_offset step ;;
  match read_at file offset 32 with
  | None => Err (lit "Error reading entry")
  | Some b =>
    match entry_parser b with
    | None => Err (lit "Error parsing entry")
    | Some (_, e) => Ok (if wanted whitelist e then Some e else None)
    end
  end.

(** [0, 1, ..., n-1] *)
Definition range (n : N) : list N := map N.of_nat (seq 0 (N.to_nat n)).

(** read_directory, wad/mod.rs:147-202 *)
Definition read_directory (checks : bool) (file : bytes) (h : header) (whitelist : option (list str))
  : res (list entry) :=
  es <- collect_results (map (read_entry checks file (h_dir_offset h) whitelist) (range (h_num_entries h))) ;;
  Ok (filter_map (fun o => o) es).

(** Closure of read_mip_textures, wad/mod.rs:207-223 *)
Definition read_mip_texture (file : bytes) (e : entry) : res mip_texture :=
  match read_at file (en_offset e) 40 with
  | None => Err (lit "Error reading miptex")
  | Some b =>
    match mip_texture_parser b with
    | Some (_, m) => Ok m
    | None => Err (lit "Error parsing miptex")
    end
  end.
(** read_mip_textures, wad/mod.rs:204-242 *)
Definition read_mip_textures (file : bytes) (dir : list entry) : res (list mip_texture) :=
  collect_results (map (read_mip_texture file) dir).

(** src/wad/mip_data.rs:6-12 *)
Record mip_data := MipData {
  mip0 : bytes; mip1 : option bytes; mip2 : option bytes; mip3 : option bytes }.

(** [&buf\[a..b\]]: panics if [a > b] or [b] is past the end *)
Definition slice (buf : bytes) (a b : N) : res bytes :=
  if (a <=? b) && (b <=? N.of_nat (length buf))
  then Ok (firstn (N.to_nat (b - a)) (skipn (N.to_nat a) buf))
  else Panic (lit "slice index").

(** One extra level, wad/mod.rs:295-326 *)
Definition extra_level (wanted : bool) (buf : bytes) (a b size : N) : res (option bytes) :=
  if wanted then
    s <- slice buf a b ;;
    match mip_level_parser size s with
    | Some (_, m) => Ok (Some m)
    | None => Err (lit "Error parsing mip level")
    end
  else Ok None.

(** Closure of read_mip_data, wad/mod.rs:256-363 *)
Definition read_mip (checks : bool) (file : bytes) (ty : wad_type) (levels : N) (em : entry * mip_texture)
  : res (mip_data * option palette) :=
  let '(e, m) := em in
  offset <- u32_add checks (en_offset e) (mt_offset1 m) ;;
  size0 <- u32_mul checks (mt_width m) (mt_height m) ;;
  let size1 := size0 / 4 in
  let size2 := size1 / 4 in
  let size3 := size2 / 4 in
  let total := fold_right N.add 0 (firstn (N.to_nat levels) [size0; size1; size2; size3]) in
  match read_at file offset total with
  | None => Err (lit "Error reading mipdata")
  | Some buf =>
    b0 <- slice buf 0 size0 ;;
    match mip_level_parser size0 b0 with
    | None => Err (lit "Error parsing mip level")
    | Some (_, m0) =>
      m1 <- extra_level (1 <? levels) buf size0 size1 size1 ;;
      m2 <- extra_level (2 <? levels) buf (size0 + size1) size2 size2 ;;
      m3 <- extra_level (3 <? levels) buf (size0 + size1 + size2) size3 size3 ;;
      pal <- match ty with
             | WAD2 => Ok None
             | WAD3 =>
               o <- u32_add checks (en_offset e) (mt_offset8 m) ;;
               o <- u32_add checks o (size3 mod u32_modulus) ;;
               o <- u32_add checks o 2 ;;
               match read_at file o 768 with
               | None => Err (lit "Error reading texture palette")
               | Some b =>
                 match palette_parser b with
                 | Some (_, p) => Ok (Some p)
                 | None => Err (lit "Error parsing texture palette")
                 end
               end
             end ;;
      Ok (MipData m0 m1 m2 m3, pal)
    end
  end.

(** src/wad/mod.rs:35-39 *)
Record texture := Texture { tx_info : mip_texture; tx_data : mip_data; tx_palette : option palette }.

(** read_mip_data, wad/mod.rs:244-382: the tasks run in parallel, every one on its own file handle,
    and the results are collected in index order.  This is the index-order instance; [par_collect]
    below takes any schedule, and C45 shows that the schedule does not matter. *)
Definition read_mip_data (checks : bool) (file : bytes) (ty : wad_type) (dir : list entry)
  (mts : list mip_texture) (levels : N) : res (list (mip_data * option palette)) :=
  if (1 <=? levels) && (levels <=? 4) then
    collect_results (map (read_mip checks file ty levels) (combine dir mts))
  else Panic (lit "assertion failed").

(** read_textures, wad/mod.rs:89-133.  [file] is [None] when the file cannot be opened. *)
Definition read_textures (checks : bool) (file : option bytes) (whitelist : option (list str)) (levels : N)
  : res (list texture) :=
  if (1 <=? levels) && (levels <=? 4) then
    match file with
    | None => Err (lit "Error opening WAD file")
    | Some file =>
      h <- read_header file ;;
      ty <- wad_type_of (h_magic h) ;;
      dir <- read_directory checks file h whitelist ;;
      mts <- read_mip_textures file dir ;;
      data <- read_mip_data checks file ty dir mts levels ;;
      Ok (map (fun x => Texture (fst x) (fst (snd x)) (snd (snd x))) (combine mts data))
    end
  else Panic (lit "assertion failed").

(** ** Scheduling of the parallel tasks: [par_iter().zip(..).map(..).collect()], wad/mod.rs:253-364.
    A schedule is the order in which the indices are executed; each execution stores its result in its own
    slot.  A panicking task makes the whole call panic with the payload of one of the panicking tasks:
    here the first one executed. *)
Fixpoint run_schedule {A B} (f : A -> res B) (tasks : list A) (schedule : list nat)
  (slots : list (option (res B))) : res (list (option (res B))) :=
  match schedule with
  | [] => Ok slots
  | i :: rest =>
    t <- unwrap (lit "task") (nth_error tasks i) ;;
    match f t with
    | Panic w => Panic w
    | r =>
      slots <- unwrap (lit "slot") (set_nth i (Some r) slots) ;;
      run_schedule f tasks rest slots
    end
  end.
Definition par_collect {A B} (f : A -> res B) (tasks : list A) (schedule : list nat) : res (list B) :=
  slots <- run_schedule f tasks schedule (repeat None (length tasks)) ;;
  rs <- mapM (unwrap (lit "slot")) slots ;;
  mapM (fun r => r) rs.

(** read_textures with the mip data tasks executed in the order [schedule n] ([n] tasks). *)
Definition read_textures_par (checks : bool) (file : option bytes) (whitelist : option (list str)) (levels : N)
  (schedule : nat -> list nat) : res (list texture) :=
  if (1 <=? levels) && (levels <=? 4) then
    match file with
    | None => Err (lit "Error opening WAD file")
    | Some file =>
      h <- read_header file ;;
      ty <- wad_type_of (h_magic h) ;;
      dir <- read_directory checks file h whitelist ;;
      mts <- read_mip_textures file dir ;;
      data <- (let tasks := combine dir mts in
               par_collect (read_mip checks file ty levels) tasks (schedule (length tasks))) ;;
      Ok (map (fun x => Texture (fst x) (fst (snd x)) (snd (snd x))) (combine mts data))
    end
  else Panic (lit "assertion failed").

(** ** RGB conversion *)

(** MipDataRGB::from_indexed, src/wad/mip_data.rs:28-44: [palette\[idx\]] *)
Definition to_colors (pal : palette) (m : bytes) : res (list rgb) :=
  mapM (fun i => unwrap (lit "index out of bounds") (nth_error pal (N.to_nat i))) m.
Definition to_colors_opt (pal : palette) (m : option bytes) : res (option (list rgb)) :=
  match m with Some m => c <- to_colors pal m ;; Ok (Some c) | None => Ok None end.
Record mip_rgb := MipRGB {
  rgb0 : list rgb; rgb1 : option (list rgb); rgb2 : option (list rgb); rgb3 : option (list rgb) }.
Definition from_indexed (pal : palette) (d : mip_data) : res mip_rgb :=
  c0 <- to_colors pal (mip0 d) ;;
  c1 <- to_colors_opt pal (mip1 d) ;;
  c2 <- to_colors_opt pal (mip2 d) ;;
  c3 <- to_colors_opt pal (mip3 d) ;;
  Ok (MipRGB c0 c1 c2 c3).

(** TextureIndexed::into_rgb, wad/mod.rs:54-70 *)
Record texture_rgb := TextureRGB { tr_info : mip_texture; tr_data : mip_rgb }.
Definition into_rgb (t : texture) (supplied : option palette) : res texture_rgb :=
  pal <- match tx_palette t with
         | Some own => Ok own
         | None => match supplied with
                   | Some p => Ok p
                   | None => Err (lit "WAD2 RGB conversion requires a palette")
                   end
         end ;;
  d <- from_indexed pal (tx_data t) ;;
  Ok (TextureRGB (tx_info t) d).
