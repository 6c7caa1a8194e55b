(** C100: archives as written are read back. *)
From Verif Require Import Prelude F32 Text TextSpec WadModel DiffSpec WadSpec ArchiveSpec ArchiveProofs.
Local Open Scope N_scope.

(** Whatever lumps an archive is written from, reading it gives the pictures asked for, in order, with their names
    in lower case, sizes, pixels and palettes, in both kinds of build. *)
Theorem C100_written : forall checks ty ls wl sel, Forall good_lump ls -> size (archive ty ls) < 2 ^ 32 ->
  selected (asked wl) (images ls) sel ->
  read_textures checks (Some (archive ty ls)) wl 1 = Ok (map (texture_of ty) sel).
Proof. exact ArchiveProofs.written_read. Qed.
Print Assumptions C100_written.

(** Converted to colours, every picture shows its pixels in its own palette, or for WAD2 in the one supplied. *)
Theorem C100_colors : forall checks ty ls wl sel supplied, Forall good_lump ls -> size (archive ty ls) < 2 ^ 32 ->
  selected (asked wl) (images ls) sel -> length supplied = 256%nat ->
  exists ts rs, read_textures checks (Some (archive ty ls)) wl 1 = Ok ts /\
    mapM (fun t => into_rgb t (Some supplied)) ts = Ok rs /\
    Forall2 (fun im r => mt_name (tr_info r) = map small (im_name im) /\ mt_width (tr_info r) = im_width im /\
      mt_height (tr_info r) = im_height im /\
      colored (match ty with WAD2 => supplied | WAD3 => im_palette im end) (im_full im) (rgb0 (tr_data r)) /\
      rgb1 (tr_data r) = None /\ rgb2 (tr_data r) = None /\ rgb3 (tr_data r) = None) sel rs.
Proof. exact ArchiveProofs.written_colors. Qed.
Print Assumptions C100_colors.

(** Two pictures with a lump of another type between them; the name of the second fills its field. *)
Definition gray : palette := map (fun n => RGB (N.of_nat n) (N.of_nat n) (N.of_nat n)) (seq 0 256).
Definition warm : palette := map (fun n => RGB (N.of_nat n) 9 0) (seq 0 256).
Definition brick : image := Image 67 (lit "Brick") 16 8 (map N.of_nat (seq 100 128)) (repeat 1 32) (repeat 2 8) (repeat 3 2) gray.
Definition lamp : image := Image 68 (lit "+0lamp_long_name") 8 8 (map N.of_nat (seq 0 64)) (repeat 4 16) (repeat 5 4) [6] warm.
Definition lumps : list lump := [Picture brick; Other 66 (lit "notes") [0; 255; 7]; Picture lamp].

Example C100_hypotheses : Forall good_lump lumps /\ size (archive WAD3 lumps) < 2 ^ 32 /\
  selected (asked (Some [lit "+0lamp_long_name"; lit "moss"])) (images lumps) [lamp].
Proof.
  assert (bytes_of : forall bs, forallb (fun b => b <? 256) bs = true -> Forall byte bs).
  { intros bs H. apply Forall_forall. intros b Hb. rewrite forallb_forall in H. apply N.ltb_lt. exact (H b Hb). }
  assert (name_of : forall n, forallb (fun b => (b <? 256) && negb (b =? 0)) n = true -> (length n <= 16)%nat -> good_name n).
  { intros n H Hl. rewrite forallb_forall in H. split; [|split; [|exact Hl]].
    - apply Forall_forall. intros b Hb. apply H in Hb. apply andb_prop in Hb. apply N.ltb_lt. apply Hb.
    - intros Hi. apply H in Hi. discriminate. }
  assert (pal_of : forall p, forallb (fun c => (r_r c <? 256) && (r_g c <? 256) && (r_b c <? 256)) p = true ->
    Forall (fun c => byte (r_r c) /\ byte (r_g c) /\ byte (r_b c)) p).
  { intros p H. apply Forall_forall. intros c Hc. rewrite forallb_forall in H. apply H in Hc.
    apply andb_prop in Hc. destruct Hc as (Hc & C). apply andb_prop in Hc. destruct Hc as (A & B).
    repeat split; apply N.ltb_lt; assumption. }
  split; [|split; [vm_compute; reflexivity|]].
  - constructor; [|constructor; [|constructor; [|constructor]]].
    + split; [left; reflexivity|]. split; [apply name_of; [reflexivity|simpl; lia]|].
      repeat split; try (apply bytes_of; reflexivity). apply pal_of. reflexivity.
    + split; [reflexivity|]. split; [discriminate|]. split; [discriminate|].
      split; [apply name_of; [reflexivity|simpl; lia]|apply bytes_of; reflexivity].
    + split; [right; reflexivity|]. split; [apply name_of; [reflexivity|simpl; lia]|].
      repeat split; try (apply bytes_of; reflexivity). apply pal_of. reflexivity.
  - apply SelDrop.
    + intros H. specialize (H _ eq_refl). destruct H as [H|[H|[]]]; discriminate.
    + apply SelTake; [|constructor]. intros names H. injection H as <-. left. reflexivity.
Qed.
Example C100_example :
  read_textures true (Some (archive WAD3 lumps)) (Some [lit "+0lamp_long_name"; lit "moss"]) 1 =
    Ok [Texture (MipTexture (lit "+0lamp_long_name") 8 8 40 104 120 124)
         (MipData (map N.of_nat (seq 0 64)) None None None) (Some warm)].
Proof. vm_compute. reflexivity. Qed.
