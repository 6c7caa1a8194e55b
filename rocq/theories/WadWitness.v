(** Concrete WAD files for the examples and refutations of PropsWad.v. *)
From Coq Require Import Permutation.
From Verif Require Import Prelude F32 Text TextSpec WadModel DiffSpec WadSpec WadProofs.
Local Open Scope N_scope.

(** A WAD with one 8x8 texture with all four mip levels and (used by WAD3 only) a palette. *)
Definition pad16 (name : bytes) : bytes := name ++ repeat 0 (16 - length name).
Definition entry_enc (off ty : N) (name : bytes) : bytes :=
  le 4 off ++ le 4 0 ++ le 4 0 ++ [ty] ++ [0] ++ [0; 0] ++ pad16 name.
Definition miptex_enc (name : bytes) (w h : N) : bytes :=
  pad16 name ++ le 4 w ++ le 4 h ++ le 4 40 ++ le 4 104 ++ le 4 120 ++ le 4 124.
Definition demo_pixels : bytes := map N.of_nat (seq 1 64).
Definition demo_palette : palette := map (fun n => RGB (N.of_nat n) 7 (N.of_nat (255 - n))) (seq 0 256).
Definition demo_wad (ty : wad_type) (name : bytes) (w h : N) : bytes :=
  magic_of ty ++ le 4 2 ++ le 4 907 ++
  miptex_enc name w h ++ demo_pixels ++ repeat 2 16 ++ repeat 3 4 ++ [4] ++ [0; 1] ++
  flat_map (fun c => [r_r c; r_g c; r_b c]) demo_palette ++
  entry_enc 5 66 (lit "other") ++ entry_enc 12 68 name.

Definition demo_info (name : str) : mip_texture := MipTexture name 8 8 40 104 120 124.
Lemma demo_bytes : Forall byte (demo_wad WAD2 (lit "Wall") 8 8).
Proof. apply Forall_forall. intros x H. apply N.ltb_lt. revert x H. apply forallb_forall. vm_compute. reflexivity. Qed.

Lemma no_nul : forall name, forallb (fun c => negb (c =? 0)) name = true -> (length name < 16)%nat ->
  cut_at_nul name (pad16 name).
Proof.
  intros name H Hl. split.
  - intros Hi. rewrite forallb_forall in H. apply H in Hi. discriminate.
  - right. exists (repeat 0 (15 - length name)). unfold pad16. f_equal.
    replace (16 - length name)%nat with (S (15 - length name)) by lia. reflexivity.
Qed.

(** The directory of the demo WAD, given the bytes in question. *)
Lemma demo_directory : forall checks file name,
  forallb (fun c => negb (c =? 0)) name = true -> (length name < 16)%nat ->
  stored file 0 (lit "WAD2" ++ le 4 2 ++ le 4 907) ->
  stored file 907 (entry_enc 5 66 (lit "other")) -> stored file 939 (entry_enc 12 68 name) ->
  directory checks file WAD2 [Entry 5 0 0 66 0 (lit "other"); Entry 12 0 0 68 0 name].
Proof.
  intros checks file name H0 H1 Hh He1 He2. exists (lit "WAD2" ++ le 4 2 ++ le 4 907), 907.
  split; [repeat split|]. split; [exact Hh|].
  intros [|[|i]] e H; simpl in H; try (destruct i; discriminate); injection H as <-.
  - exists 907, (entry_enc 5 66 (lit "other")). split; [destruct checks; [split|]; reflexivity|]. split; [|exact He1].
    repeat split. exists [0; 0], (pad16 (lit "other")). split; [reflexivity|]. split; [reflexivity|]. split; [|reflexivity].
    apply no_nul; [reflexivity|]. apply Nat.ltb_lt. reflexivity.
  - exists 939, (entry_enc 12 68 name). split; [destruct checks; [split|]; reflexivity|]. split; [|exact He2].
    repeat split. exists [0; 0], (pad16 name). split; [reflexivity|]. split.
    + unfold pad16. rewrite app_length, repeat_length. lia.
    + split; [apply no_nul; assumption|reflexivity].
Qed.

Ltac stored_here off len :=
  match goal with |- stored ?f _ ?b => right; exists (firstn off f), (skipn (off + len) f); split; vm_compute; reflexivity end.

Lemma demo_dir : directory true (demo_wad WAD2 (lit "Wall") 8 8) WAD2 [Entry 5 0 0 66 0 (lit "other"); Entry 12 0 0 68 0 (lit "Wall")].
Proof.
  apply demo_directory; [reflexivity|apply Nat.ltb_lt; reflexivity|stored_here 0%nat 12%nat|stored_here 907%nat 32%nat|stored_here 939%nat 32%nat].
Qed.

Lemma demo_overflows : overflows (demo_wad WAD2 (lit "big") 65536 65536) None.
Proof.
  exists WAD2, 2, 907. split.
  - exists (lit "WAD2" ++ le 4 2 ++ le 4 907). split; [repeat split|stored_here 0%nat 12%nat].
  - right. exists [Entry 5 0 0 66 0 (lit "other"); Entry 12 0 0 68 0 (lit "big")], (Entry 12 0 0 68 0 (lit "big")),
      (MipTexture (lit "big") 65536 65536 40 104 120 124).
    assert (Hm : has_miptex (demo_wad WAD2 (lit "big") 65536 65536) (Entry 12 0 0 68 0 (lit "big")) (MipTexture (lit "big") 65536 65536 40 104 120 124)).
    { exists (miptex_enc (lit "big") 65536 65536). split; [|stored_here 12%nat 40%nat].
      repeat split. exists (lit "big"), (pad16 (lit "big")). split; [reflexivity|]. split; [|split; reflexivity].
      apply no_nul; [reflexivity|]. apply Nat.ltb_lt. reflexivity. }
    split; [apply demo_directory; [reflexivity|apply Nat.ltb_lt; reflexivity|stored_here 0%nat 12%nat|stored_here 907%nat 32%nat|stored_here 939%nat 32%nat]|].
    split.
    + intros e [<-|[<-|[]]] [H _]; [destruct H; discriminate|eauto].
    + split; [right; left; reflexivity|]. split; [split; [right; reflexivity|discriminate]|]. split; [exact Hm|].
      right. left. vm_compute. discriminate.
Qed.

Lemma levels_refuted : exists file t, Forall byte file /\ read_textures true (Some file) None 1 = Ok [t] /\
  mt_width (tx_info t) = 8 /\ mt_height (tx_info t) = 8 /\
  stored file 52 (mip0 (tx_data t) ++ repeat 2 16 ++ repeat 3 4 ++ [4]) /\
  forall levels, 2 <= levels <= 4 -> exists w, read_textures true (Some file) None levels = Panic w.
Proof.
  exists (demo_wad WAD2 (lit "Wall") 8 8), (Texture (demo_info (lit "wall")) (MipData demo_pixels None None None) None).
  split; [exact demo_bytes|]. split; [vm_compute; reflexivity|]. split; [reflexivity|]. split; [reflexivity|]. split.
  - right. exists (firstn 52 (demo_wad WAD2 (lit "Wall") 8 8)), (skipn 137 (demo_wad WAD2 (lit "Wall") 8 8)).
    split; vm_compute; reflexivity.
  - intros levels H. assert (E : levels = 2 \/ levels = 3 \/ levels = 4) by lia.
    destruct E as [-> |[-> | ->]]; exists (lit "slice index"); vm_compute; reflexivity.
Qed.


Lemma whitelist_refuted : exists file wl e es,
  Forall byte file /\ directory true file WAD2 es /\ In e es /\ en_type e = 68 /\
  In (map small (en_name e)) wl /\ read_textures true (Some file) (Some wl) 1 = Ok [].
Proof.
  exists (demo_wad WAD2 (lit "Wall") 8 8), [lit "wall"], (Entry 12 0 0 68 0 (lit "Wall")),
    [Entry 5 0 0 66 0 (lit "other"); Entry 12 0 0 68 0 (lit "Wall")].
  split; [exact demo_bytes|]. split; [exact demo_dir|]. split; [right; left; reflexivity|]. split; [reflexivity|].
  split; [left; reflexivity|]. vm_compute. reflexivity.
Qed.
