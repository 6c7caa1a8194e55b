(** C41 to C49: WAD archives. *)
From Coq Require Import Permutation.
From Verif Require Import Prelude F32 Text TextSpec WadModel DiffSpec WadSpec WadProofs WadWitness.
Local Open Scope N_scope.

(** * C41 WAD records decode what an encoder writes *)
Theorem C41_header : forall i rest h, Forall byte i ->
  (header_parser i = Some (rest, h) <-> exists bs, i = bs ++ rest /\ header_bytes h bs).
Proof. exact WadProofs.decode_header. Qed.
Print Assumptions C41_header.

Theorem C41_entry : forall i rest e, Forall byte i ->
  (entry_parser i = Some (rest, e) <-> exists bs, i = bs ++ rest /\ entry_bytes e bs).
Proof. exact WadProofs.decode_entry. Qed.
Print Assumptions C41_entry.

Theorem C41_texture_header : forall i rest m, Forall byte i ->
  (mip_texture_parser i = Some (rest, m) <-> exists bs, i = bs ++ rest /\ miptex_bytes m bs).
Proof. exact WadProofs.decode_miptex. Qed.
Print Assumptions C41_texture_header.

Theorem C41_palette : forall i rest p, Forall byte i ->
  (palette_parser i = Some (rest, p) <-> exists bs, i = bs ++ rest /\ palette_bytes p bs).
Proof. exact WadProofs.decode_palette. Qed.
Print Assumptions C41_palette.

(** Decoding succeeds exactly when there are enough bytes. *)
Theorem C41_sizes : consumes header_parser 12 /\ consumes entry_parser 32 /\ consumes mip_texture_parser 40 /\
  consumes palette_parser 768.
Proof. exact (conj header_consumes (conj entry_consumes (conj miptex_consumes palette_consumes))). Qed.
Print Assumptions C41_sizes.

Theorem C41_palette_file : forall file p, Forall byte file ->
  (read_palette (Some file) = Ok p <-> exists bs rest, file = bs ++ rest /\ palette_bytes p bs).
Proof. exact WadProofs.read_palette_ok. Qed.
Print Assumptions C41_palette_file.

Theorem C41_palette_file_error : forall file,
  (forall b, file = Some b -> (length b < 768)%nat) -> exists e, read_palette file = Err e.
Proof. exact WadProofs.read_palette_err. Qed.
Print Assumptions C41_palette_file_error.

Example C41_example :
  header_parser (lit "WAD3" ++ le 4 4000000000 ++ le 4 70000 ++ [1; 2]) = Some ([1; 2], Header (lit "WAD3") 4000000000 70000).
Proof. vm_compute. reflexivity. Qed.
Example C41_example2 : header_bytes (Header (lit "WAD3") 4000000000 70000) (lit "WAD3" ++ le 4 4000000000 ++ le 4 70000).
Proof. repeat split. Qed.

(** * C42 Reading a WAD returns the selected textures in directory order *)
Theorem C42_read : forall checks file wl ts, Forall byte file ->
  (read_textures checks (Some file) wl 1 = Ok ts <->
   exists ty es sel, directory checks file ty es /\ selected (selected_entry wl) es sel /\
     Forall2 (texture_at checks file ty) sel ts).
Proof. exact WadProofs.read_ok. Qed.
Print Assumptions C42_read.

(** The directory a file holds, and the header at an entry, are determined by the file. *)
Theorem C42_directory_unique : forall checks file ty es ty' es', Forall byte file ->
  directory checks file ty es -> directory checks file ty' es' -> ty = ty' /\ es = es'.
Proof. exact WadProofs.directory_unique. Qed.
Print Assumptions C42_directory_unique.

Example C42_example :
  read_textures true (Some (demo_wad WAD2 (lit "Wall") 8 8)) (Some [lit "x"; lit "Wall"]) 1 =
    Ok [Texture (demo_info (lit "wall")) (MipData demo_pixels None None None) None].
Proof. vm_compute. reflexivity. Qed.
Example C42_bytes : Forall byte (demo_wad WAD2 (lit "Wall") 8 8).
Proof. exact demo_bytes. Qed.

(** * C43 Any unreadable selected texture fails the whole read *)
Theorem C43_unreadable : forall checks file wl, Forall byte file -> unreadable checks file wl ->
  (exists e, read_textures checks (Some file) wl 1 = Err e) \/
  (checks = true /\ read_textures checks (Some file) wl 1 = Panic overflow).
Proof. exact WadProofs.unreadable_err. Qed.
Print Assumptions C43_unreadable.

(** With a WAD2 or WAD3 header, a read never panics except on checked overflow. *)
Theorem C43_no_panic : forall checks file wl, Forall byte file ->
  (forall h, read_header file = Ok h -> exists ty, h_magic h = magic_of ty) ->
  (exists ts, read_textures checks (Some file) wl 1 = Ok ts) \/
  (exists e, read_textures checks (Some file) wl 1 = Err e) \/
  (checks = true /\ read_textures checks (Some file) wl 1 = Panic overflow).
Proof. exact WadProofs.tame_read. Qed.
Print Assumptions C43_no_panic.

Theorem C43_bad_magic : forall checks file wl h, Forall byte file -> read_header file = Ok h ->
  (forall ty, h_magic h <> magic_of ty) -> exists w, read_textures checks (Some file) wl 1 = Panic w.
Proof. exact WadProofs.bad_magic_panics. Qed.
Print Assumptions C43_bad_magic.

Example C43_example :
  read_textures true (Some (removelast (demo_wad WAD2 (lit "Wall") 8 8))) None 1 = Err (lit "Error reading entry").
Proof. vm_compute. reflexivity. Qed.
Example C43_example2 : unreadable true (removelast (demo_wad WAD2 (lit "Wall") 8 8)) None.
Proof.
  right. exists WAD2, 2, 907. split.
  - exists (lit "WAD2" ++ le 4 2 ++ le 4 907). split; [repeat split|]. right. exists [].
    exists (skipn 12 (removelast (demo_wad WAD2 (lit "Wall") 8 8))). split; [|reflexivity]. vm_compute. reflexivity.
  - left. exists 1, 939. split; [reflexivity|]. split; [split; reflexivity|]. intros [H|H]; [discriminate|].
    vm_compute in H. apply H. reflexivity.
Qed.

(** * C44 Mip levels beyond the first.  Full statement: for 2 to 4 levels, whenever every selected texture's
    levels lie inside the file, the read succeeds and returns them.  False: it panics. *)
Theorem C44_levels_panic : forall checks file wl levels ty es, Forall byte file -> 2 <= levels <= 4 ->
  directory checks file ty es ->
  (forall e, In e es -> selected_entry wl e -> exists m, has_miptex file e m) ->
  forall e m a size, In e es -> selected_entry wl e -> has_miptex file e m ->
    address checks (en_offset e + mt_offset1 m) a -> address checks (mt_width m * mt_height m) size ->
    0 < size -> inside file a (levels_size size levels) ->
  exists w, read_textures checks (Some file) wl levels = Panic w.
Proof. exact WadProofs.levels_read_panic. Qed.
Print Assumptions C44_levels_panic.

(** So a successful read returns empty textures only. *)
Theorem C44_levels_partial : forall checks file wl levels ts, 2 <= levels <= 4 ->
  read_textures checks (Some file) wl levels = Ok ts ->
  forall t, In t ts -> address checks (mt_width (tx_info t) * mt_height (tx_info t)) 0 /\ mip0 (tx_data t) = [].
Proof. exact WadProofs.levels_read_ok. Qed.
Print Assumptions C44_levels_partial.

Theorem C44_levels_refuted : exists file t, Forall byte file /\ read_textures true (Some file) None 1 = Ok [t] /\
  mt_width (tx_info t) = 8 /\ mt_height (tx_info t) = 8 /\
  stored file 52 (mip0 (tx_data t) ++ repeat 2 16 ++ repeat 3 4 ++ [4]) /\
  forall levels, 2 <= levels <= 4 -> exists w, read_textures true (Some file) None levels = Panic w.
Proof. exact levels_refuted. Qed.
Print Assumptions C44_levels_refuted.

(** * C45 Parallel reading is deterministic *)
Theorem C45_schedule : forall checks file wl levels sched, (forall n, Permutation (sched n) (seq 0 n)) ->
  read_textures_par checks file wl levels sched = read_textures checks file wl levels \/
  exists w w', read_textures_par checks file wl levels sched = Panic w /\ read_textures checks file wl levels = Panic w'.
Proof. exact WadProofs.schedule_read. Qed.
Print Assumptions C45_schedule.

Theorem C45_tasks : forall A B (f : A -> res B) (tasks : list A) sched, Permutation sched (seq 0 (length tasks)) ->
  (forall xs, all_ok (map f tasks) xs -> par_collect f tasks sched = Ok xs) /\
  (forall e, first_error (map f tasks) e -> (forall w, ~ In (Panic w) (map f tasks)) -> par_collect f tasks sched = Err e) /\
  (forall w, In (Panic w) (map f tasks) -> exists w', par_collect f tasks sched = Panic w' /\ In (Panic w') (map f tasks)).
Proof. exact @WadProofs.schedule_result. Qed.
Print Assumptions C45_tasks.

Example C45_example :
  par_collect (fun n => if n =? 2 then Err (lit "two") else if n =? 3 then Err (lit "three") else Ok (n * 10)) [1; 2; 3] [2; 0; 1]%nat
    = Err (lit "two") /\
  par_collect (fun n => Ok (n * 10)) [1; 2; 3] [2; 0; 1]%nat = Ok [10; 20; 30].
Proof. split; vm_compute; reflexivity. Qed.
Example C45_example2 : Permutation [2; 0; 1]%nat (seq 0 3).
Proof. apply (Permutation_middle [0; 1]%nat [] 2%nat). Qed.

(** * C46 WAD2 has no palette, WAD3 palette follows the pixel data *)
Theorem C46_palettes : forall checks file wl ts, Forall byte file -> read_textures checks (Some file) wl 1 = Ok ts ->
  exists ty n d es sel, has_header file ty n d /\ directory checks file ty es /\ selected (selected_entry wl) es sel /\
    (ty = WAD2 -> Forall (fun t => tx_palette t = None) ts) /\
    (ty = WAD3 -> Forall2 (fun e t => exists m size pal a pb, tx_info t = m /\ has_miptex file e m /\
        address checks (mt_width m * mt_height m) size /\ tx_palette t = Some pal /\ palette_bytes pal pb /\
        address checks (en_offset e + mt_offset8 m + size / 64 + 2) a /\ stored file a pb) sel ts).
Proof. exact WadProofs.read_palettes. Qed.
Print Assumptions C46_palettes.

Example C46_example :
  read_textures true (Some (demo_wad WAD3 (lit "Wall") 8 8)) None 1 =
    Ok [Texture (demo_info (lit "wall")) (MipData demo_pixels None None None) (Some demo_palette)].
Proof. vm_compute. reflexivity. Qed.

(** * C47 Arithmetic overflow in offsets *)
Theorem C47_checked : forall file wl, Forall byte file -> overflows file wl ->
  read_textures true (Some file) wl 1 = Panic overflow.
Proof. exact WadProofs.overflow_panics. Qed.
Print Assumptions C47_checked.

(** Without overflow checks every address is taken modulo 2^32 ([address false]). *)
Theorem C47_release : forall file wl ts, Forall byte file ->
  (read_textures false (Some file) wl 1 = Ok ts <->
   exists ty es sel, directory false file ty es /\ selected (selected_entry wl) es sel /\
     Forall2 (texture_at false file ty) sel ts).
Proof. exact (WadProofs.read_ok false). Qed.
Print Assumptions C47_release.

(** 65536 x 65537 pixels: 2^32 + 65536 wraps to 65536, 65536 x 65536 to no pixels at all. *)
Example C47_example :
  read_textures true (Some (demo_wad WAD2 (lit "big") 65536 65536)) None 1 = Panic overflow /\
  read_textures false (Some (demo_wad WAD2 (lit "big") 65536 65536)) None 1 =
    Ok [Texture (MipTexture (lit "big") 65536 65536 40 104 120 124) (MipData [] None None None) None].
Proof. split; vm_compute; reflexivity. Qed.

Example C47_example2 : overflows (demo_wad WAD2 (lit "big") 65536 65536) None.
Proof. exact demo_overflows. Qed.

(** * C48 RGB conversion *)
Theorem C48_convert : forall t supplied pal, valid_texture t -> length pal = 256%nat ->
  (tx_palette t = Some pal \/ (tx_palette t = None /\ supplied = Some pal)) ->
  exists r, into_rgb t supplied = Ok r /\ tr_info r = tx_info t /\
    colored pal (mip0 (tx_data t)) (rgb0 (tr_data r)) /\ colored_opt pal (mip1 (tx_data t)) (rgb1 (tr_data r)) /\
    colored_opt pal (mip2 (tx_data t)) (rgb2 (tr_data r)) /\ colored_opt pal (mip3 (tx_data t)) (rgb3 (tr_data r)).
Proof. exact WadProofs.rgb_with. Qed.
Print Assumptions C48_convert.

Theorem C48_no_palette : forall t, tx_palette t = None -> exists e, into_rgb t None = Err e.
Proof. exact WadProofs.rgb_without. Qed.
Print Assumptions C48_no_palette.

(** What a read returns is valid, so converting it never panics. *)
Theorem C48_read_valid : forall checks file wl ts, Forall byte file ->
  read_textures checks (Some file) wl 1 = Ok ts -> Forall valid_texture ts.
Proof. exact WadProofs.read_valid. Qed.
Print Assumptions C48_read_valid.

Example C48_example : exists r,
  into_rgb (Texture (demo_info (lit "wall")) (MipData [3; 0; 255] None (Some [1]) None) None) (Some demo_palette) = Ok r /\
  rgb0 (tr_data r) = [RGB 3 7 252; RGB 0 7 255; RGB 255 7 0] /\ rgb2 (tr_data r) = Some [RGB 1 7 254].
Proof. eexists. split; [vm_compute; reflexivity|]. split; reflexivity. Qed.

(** * C49 Whitelisting by map texture name.  Full statement: for every entry whose lowercased name is on the
    whitelist the texture is returned.  False for entries with upper case letters. *)
Theorem C49_whitelist_refuted : exists file wl e es,
  Forall byte file /\ directory true file WAD2 es /\ In e es /\ en_type e = 68 /\
  In (map small (en_name e)) wl /\ read_textures true (Some file) (Some wl) 1 = Ok [].
Proof. exact whitelist_refuted. Qed.
Print Assumptions C49_whitelist_refuted.

(** What does hold: matching is by the exact entry name, hence complete for lower-case WADs. *)
Theorem C49_whitelist_exact : forall checks file wl ts, Forall byte file ->
  read_textures checks (Some file) (Some wl) 1 = Ok ts ->
  exists ty es, directory checks file ty es /\
    forall name e, In name wl -> In e es -> (en_type e = 67 \/ en_type e = 68) -> en_name e = name ->
      exists t, In t ts /\ texture_at checks file ty e t.
Proof. exact WadProofs.whitelist_exact. Qed.
Print Assumptions C49_whitelist_exact.

Theorem C49_whitelist_partial : forall checks file wl ts, Forall byte file ->
  read_textures checks (Some file) (Some wl) 1 = Ok ts ->
  exists ty es, directory checks file ty es /\
    ((forall e, In e es -> map small (en_name e) = en_name e) ->
     forall name e, In name wl -> In e es -> (en_type e = 67 \/ en_type e = 68) -> map small (en_name e) = name ->
       exists t, In t ts /\ texture_at checks file ty e t).
Proof. exact WadProofs.whitelist_lower. Qed.
Print Assumptions C49_whitelist_partial.
