(** C100: archives as written are read back. *)
From Verif Require Import Prelude F32 Text TextSpec WadModel DiffSpec WadSpec WadProofs ArchiveSpec.
From Coq Require Import ZifyN ZifyNat ZifyBool.
Local Open Scope N_scope.

Lemma le_byte : forall k n, Forall byte (le k n).
Proof.
  induction k; intros n; simpl; constructor; [|apply IHk].
  unfold byte. apply N.mod_lt. discriminate.
Qed.

Lemma field_length : forall name, (length name <= 16)%nat -> length (field16 name) = 16%nat.
Proof. intros name H. unfold field16. rewrite app_length, repeat_length. lia. Qed.
Lemma field_byte : forall name, Forall byte name -> Forall byte (field16 name).
Proof.
  intros name H. apply Forall_app. split; [exact H|]. apply Forall_forall. intros x Hx.
  apply repeat_spec in Hx. subst. reflexivity.
Qed.
Lemma field_cut : forall name, ~ In 0 name -> (length name <= 16)%nat -> cut_at_nul name (field16 name).
Proof.
  intros name H Hl. split; [exact H|]. unfold field16. destruct (16 - length name)%nat as [|k].
  - left. apply app_nil_r.
  - right. exists (repeat 0 k). reflexivity.
Qed.

Lemma good_kind : forall l, good_lump l -> byte (lump_kind l) /\ good_name (lump_name l).
Proof.
  intros [im|kind name content] H; simpl in *.
  - destruct H as (Hk & Hn & _). split; [|exact Hn]. unfold byte. lia.
  - destruct H as (Hk & _ & _ & Hn & _). tauto.
Qed.

Lemma palette_byte : forall p, Forall (fun c => byte (r_r c) /\ byte (r_g c) /\ byte (r_b c)) p ->
  Forall byte (flat_map (fun c => [r_r c; r_g c; r_b c]) p).
Proof. induction 1 as [|c p (A & B & C) _ IH]; simpl; [constructor|]. repeat constructor; assumption. Qed.

Lemma lump_byte : forall ty l, good_lump l -> Forall byte (lump_bytes ty l).
Proof.
  intros ty [im|kind name content] H; simpl in *; [|tauto].
  destruct H as (_ & (Hn & _) & _ & _ & H1 & H2 & H3 & H4 & _ & _ & _ & Hp).
  unfold image_bytes, level_offsets.
  repeat first [apply field_byte; exact Hn|apply le_byte|assumption|apply Forall_app; split].
  destruct ty; [constructor|]. apply Forall_app. split; [apply le_byte|apply palette_byte; exact Hp].
Qed.

Lemma directory_byte : forall ty ls off, Forall good_lump ls -> Forall byte (directory_bytes ty off ls).
Proof.
  intros ty ls. induction ls as [|l ls IH]; intros off H; [constructor|]. inversion H as [|? ? Hl Hr]; subst.
  destruct (good_kind _ Hl) as (Hk & Hn & _). cbn [directory_bytes].
  repeat first [apply field_byte; exact Hn|apply le_byte|apply IH; exact Hr|apply Forall_app; split];
    repeat constructor; assumption.
Qed.

Lemma archive_byte : forall ty ls, Forall good_lump ls -> Forall byte (archive ty ls).
Proof.
  intros ty ls H. unfold archive. repeat first [apply le_byte|apply directory_byte; exact H|apply Forall_app; split].
  - destruct ty; repeat constructor.
  - induction H as [|l ls Hl _ IH]; [constructor|]. simpl. apply Forall_app. split; [apply lump_byte; exact Hl|exact IH].
Qed.

(** Bytes in the middle of a file *)
Lemma stored_mid : forall pre mid post off, size pre = off -> stored (pre ++ mid ++ post) off mid.
Proof. intros pre mid post off H. right. exists pre, post. split; [reflexivity|exact H]. Qed.

Lemma size_app : forall a b, size (a ++ b) = size a + size b.
Proof. intros a b. unfold size. rewrite app_length. lia. Qed.
Lemma size_le : forall k n, size (le k n) = N.of_nat k.
Proof. intros k n. unfold size. rewrite le_length. reflexivity. Qed.

(** The entries of the directory *)
Fixpoint entries (ty : wad_type) (off : N) (ls : list lump) : list entry :=
  match ls with
  | [] => []
  | l :: rest =>
    let n := size (lump_bytes ty l) in
    Entry off n n (lump_kind l) 0 (lump_name l) :: entries ty (off + n) rest
  end.
Lemma entries_length : forall ty ls off, length (entries ty off ls) = length ls.
Proof. intros ty ls. induction ls; intros off; simpl; [reflexivity|]. rewrite IHls. reflexivity. Qed.

Lemma address_id : forall checks x, x < 2 ^ 32 -> address checks x x.
Proof. intros [|] x H; [split; [exact H|reflexivity]|]. symmetry. apply N.mod_small. exact H. Qed.

Lemma entries_stored : forall ty ls off pre post i e, Forall good_lump ls ->
  off + size (flat_map (lump_bytes ty) ls) < 2 ^ 32 ->
  nth_error (entries ty off ls) i = Some e ->
  exists bs, entry_bytes e bs /\
    stored (pre ++ directory_bytes ty off ls ++ post) (size pre + 32 * N.of_nat i) bs.
Proof.
  intros ty ls. induction ls as [|l ls IH]; intros off pre post i e Hg Hs He; [destruct i; discriminate|].
  inversion Hg as [|? ? Hl Hr]; subst. destruct (good_kind _ Hl) as (_ & _ & Hz & Hn).
  cbn [flat_map] in Hs. rewrite size_app in Hs.
  cbn [directory_bytes]. set (n := size (lump_bytes ty l)) in *.
  set (eb := le 4 off ++ le 4 n ++ le 4 n ++ [lump_kind l] ++ [0] ++ [0; 0] ++ field16 (lump_name l)).
  replace (le 4 off ++ le 4 n ++ le 4 n ++ [lump_kind l] ++ [0] ++ [0; 0] ++ field16 (lump_name l) ++ directory_bytes ty (off + n) ls)
    with (eb ++ directory_bytes ty (off + n) ls) by (unfold eb; rewrite <- !app_assoc; reflexivity).
  destruct i as [|i].
  - injection He as <-. exists eb. split.
    + fold n. repeat split; simpl; unfold u32; try lia. exists [0; 0], (field16 (lump_name l)).
      split; [reflexivity|]. split; [apply field_length; exact Hn|]. split; [apply field_cut; assumption|reflexivity].
    + rewrite <- app_assoc. apply stored_mid. lia.
  - change (nth_error (entries ty (off + n) ls) i = Some e) in He.
    destruct (IH (off + n) (pre ++ eb) post i e Hr ltac:(lia) He) as (bs & Hb & Hst). exists bs. split; [exact Hb|].
    assert (E : size eb = 32).
    { unfold eb. rewrite !size_app, !size_le. unfold size at 4. rewrite field_length by exact Hn. reflexivity. }
    replace (pre ++ (eb ++ directory_bytes ty (off + n) ls) ++ post)
      with ((pre ++ eb) ++ directory_bytes ty (off + n) ls ++ post) by (rewrite <- !app_assoc; reflexivity).
    rewrite size_app, E in Hst.
    replace (size pre + 32 * N.of_nat (S i)) with (size pre + 32 + 32 * N.of_nat i) by lia. exact Hst.
Qed.

(** What an archive holds for a picture *)
Lemma image_at : forall checks ty im pre post e, good_image im ->
  size pre + size (image_bytes ty im) < 2 ^ 32 -> en_offset e = size pre ->
  texture_at checks (pre ++ image_bytes ty im ++ post) ty e (texture_of ty im).
Proof.
  intros checks ty im pre post e (_ & (_ & Hz & Hn) & Hw & Hh & _ & _ & _ & _ & Hf & He8 & Hp & _) Hs Ho.
  unfold texture_at, texture_of. rewrite Ho. unfold image_bytes, level_offsets in *.
  set (pal := match ty with WAD2 => [] | WAD3 => le 2 256 ++ flat_map (fun c => [r_r c; r_g c; r_b c]) (im_palette im) end) in *.
  cbn [tx_info tx_data tx_palette mt_name mt_width mt_height mt_offset1 mt_offset2 mt_offset4 mt_offset8 mip0 mip1 mip2 mip3].
  set (b := 40 + size (im_full im)) in *. set (c := b + size (im_half im)) in *. set (d := c + size (im_quarter im)) in *.
  set (hb := field16 (im_name im) ++ le 4 (im_width im) ++ le 4 (im_height im) ++ le 4 40 ++ le 4 b ++ le 4 c ++ le 4 d).
  assert (E : size hb = 40).
  { unfold hb. rewrite !size_app, !size_le. unfold size. rewrite field_length by exact Hn. reflexivity. }
  assert (EQ : field16 (im_name im) ++ le 4 (im_width im) ++ le 4 (im_height im) ++ le 4 40 ++ le 4 b ++ le 4 c ++ le 4 d ++
      im_full im ++ im_half im ++ im_quarter im ++ im_eighth im ++ pal
    = hb ++ im_full im ++ im_half im ++ im_quarter im ++ im_eighth im ++ pal) by (unfold hb; rewrite <- !app_assoc; reflexivity).
  rewrite EQ in *. rewrite !size_app, E in Hs.
  exists hb, (size pre + 40), (im_width im * im_height im).
  split.
  { repeat split; simpl; unfold u32 in *; try assumption; try lia.
    exists (im_name im), (field16 (im_name im)). split; [apply field_length; exact Hn|]. split; [apply field_cut; assumption|].
    split; reflexivity. }
  split. { rewrite <- app_assoc. apply stored_mid. reflexivity. }
  split. { apply address_id. lia. }
  split. { apply address_id. lia. }
  split. { exact Hf. }
  split.
  { replace (pre ++ (hb ++ im_full im ++ im_half im ++ im_quarter im ++ im_eighth im ++ pal) ++ post)
      with ((pre ++ hb) ++ im_full im ++ ((im_half im ++ im_quarter im ++ im_eighth im ++ pal) ++ post))
      by (rewrite <- !app_assoc; reflexivity).
    apply stored_mid. rewrite size_app, E. reflexivity. }
  split; [reflexivity|]. split; [reflexivity|]. split; [reflexivity|].
  destruct ty; [reflexivity|]. unfold pal in Hs. rewrite size_app, size_le in Hs.
  exists (im_palette im), (size pre + d + im_width im * im_height im / 64 + 2).
  exists (flat_map (fun c => [r_r c; r_g c; r_b c]) (im_palette im)).
  split; [reflexivity|]. split; [split; [exact Hp|reflexivity]|].
  split. { apply address_id. unfold d, c, b in *. lia. }
  unfold pal.
  replace (pre ++ (hb ++ im_full im ++ im_half im ++ im_quarter im ++ im_eighth im ++ le 2 256 ++ flat_map (fun c => [r_r c; r_g c; r_b c]) (im_palette im)) ++ post)
    with ((pre ++ hb ++ im_full im ++ im_half im ++ im_quarter im ++ im_eighth im ++ le 2 256) ++
          flat_map (fun c => [r_r c; r_g c; r_b c]) (im_palette im) ++ post)
    by (rewrite <- !app_assoc; reflexivity).
  apply stored_mid. rewrite !size_app, E, size_le. unfold d, c, b. lia.
Qed.

(** Choosing the entries of the pictures asked for *)
Lemma chosen : forall checks ty wl ls off pre post sel, Forall good_lump ls ->
  size pre = off -> off + size (flat_map (lump_bytes ty) ls) < 2 ^ 32 ->
  selected (asked wl) (images ls) sel ->
  exists es, selected (selected_entry wl) (entries ty off ls) es /\
    Forall2 (texture_at checks (pre ++ flat_map (lump_bytes ty) ls ++ post) ty) es (map (texture_of ty) sel).
Proof.
  intros checks ty wl ls. induction ls as [|l ls IH]; intros off pre post sel Hg Ho Hs Hsel.
  { inversion Hsel; subst. exists []. split; constructor. }
  inversion Hg as [|? ? Hl Hr]; subst. cbn [flat_map] in Hs. rewrite size_app in Hs.
  assert (EQ : pre ++ flat_map (lump_bytes ty) (l :: ls) ++ post =
     (pre ++ lump_bytes ty l) ++ flat_map (lump_bytes ty) ls ++ post) by (cbn [flat_map]; rewrite <- !app_assoc; reflexivity).
  assert (NEXT : forall sel', selected (asked wl) (images ls) sel' ->
    exists es, selected (selected_entry wl) (entries ty (size pre + size (lump_bytes ty l)) ls) es /\
      Forall2 (texture_at checks (pre ++ flat_map (lump_bytes ty) (l :: ls) ++ post) ty) es (map (texture_of ty) sel')).
  { intros sel' H. rewrite EQ. apply IH; [exact Hr|apply size_app|lia|exact H]. }
  cbn [entries]. destruct l as [im|kind name content].
  - change (images (Picture im :: ls)) with (im :: images ls) in Hsel. inversion Hsel as [|x a r Hp Hq|x a r Hp Hq]; subst.
    + destruct (NEXT r Hq) as (es & He & Hf). eexists. split.
      * apply SelTake; [|exact He]. split; [exact (proj1 Hl)|exact Hp].
      * constructor; [|exact Hf]. cbn [flat_map lump_bytes]. rewrite <- app_assoc. apply image_at; [exact Hl| |reflexivity].
        cbn [lump_bytes] in Hs. lia.
    + destruct (NEXT sel Hq) as (es & He & Hf). exists es. split; [|exact Hf].
      apply SelDrop; [|exact He]. intros (_ & H). apply Hp. exact H.
  - destruct (NEXT sel Hsel) as (es & He & Hf). exists es. split; [|exact Hf].
    apply SelDrop; [|exact He]. intros ([H|H] & _); simpl in *; destruct Hl as (_ & A & B & _); contradiction.
Qed.

Lemma directory_size : forall ty ls off, Forall good_lump ls -> size (directory_bytes ty off ls) = 32 * N.of_nat (length ls).
Proof.
  intros ty ls. induction ls as [|l ls IH]; intros off H; [reflexivity|]. inversion H as [|? ? Hl Hr]; subst.
  destruct (good_kind _ Hl) as (_ & _ & _ & Hn). cbn [directory_bytes]. rewrite !size_app, !size_le, IH by exact Hr.
  unfold size at 4. rewrite field_length by exact Hn. unfold size. cbn [length]. lia.
Qed.

Lemma written_read : forall checks ty ls wl sel, Forall good_lump ls -> size (archive ty ls) < 2 ^ 32 ->
  selected (asked wl) (images ls) sel ->
  read_textures checks (Some (archive ty ls)) wl 1 = Ok (map (texture_of ty) sel).
Proof.
  intros checks ty ls wl sel Hg Hs Hsel. apply read_ok; [apply archive_byte; exact Hg|].
  set (body := flat_map (lump_bytes ty) ls) in *.
  set (hb := magic_of ty ++ le 4 (N.of_nat (length ls)) ++ le 4 (12 + size body)).
  assert (EQ : archive ty ls = hb ++ body ++ directory_bytes ty 12 ls)
    by (unfold archive, hb; fold body; rewrite <- !app_assoc; reflexivity).
  assert (E : size hb = 12) by (unfold hb; rewrite !size_app, !size_le; destruct ty; reflexivity).
  assert (B : 12 + size body + 32 * N.of_nat (length ls) < 2 ^ 32)
    by (rewrite EQ, !size_app, E, directory_size in Hs by exact Hg; lia).
  destruct (chosen checks ty wl ls 12 hb (directory_bytes ty 12 ls) sel Hg E ltac:(fold body; lia) Hsel) as (es & He & Hf).
  fold body in Hf. rewrite <- EQ in Hf. exists ty, (entries ty 12 ls), es. split; [|split; assumption].
  exists hb, (12 + size body). split.
  { rewrite entries_length. unfold header_bytes, u32. cbn [h_magic h_num_entries h_dir_offset].
    split; [destruct ty; reflexivity|]. split; [lia|]. split; [lia|reflexivity]. }
  split. { right. exists [], (body ++ directory_bytes ty 12 ls). split; [exact EQ|reflexivity]. }
  intros i e Hi.
  destruct (entries_stored ty ls 12 (hb ++ body) [] i e Hg ltac:(fold body; lia) Hi) as (bs & Hb & Hst).
  exists (12 + size body + 32 * N.of_nat i), bs. split.
  { apply address_id. assert (i < length ls)%nat by (rewrite <- (entries_length ty ls 12); apply nth_error_Some; congruence). lia. }
  split; [exact Hb|]. rewrite size_app, E, app_nil_r, <- app_assoc, <- EQ in Hst. exact Hst.
Qed.

(** The pictures in colour *)
Lemma written_colors : forall checks ty ls wl sel supplied, Forall good_lump ls -> size (archive ty ls) < 2 ^ 32 ->
  selected (asked wl) (images ls) sel -> length supplied = 256%nat ->
  exists ts rs, read_textures checks (Some (archive ty ls)) wl 1 = Ok ts /\
    mapM (fun t => into_rgb t (Some supplied)) ts = Ok rs /\
    Forall2 (fun im r => mt_name (tr_info r) = map small (im_name im) /\ mt_width (tr_info r) = im_width im /\
      mt_height (tr_info r) = im_height im /\
      colored (match ty with WAD2 => supplied | WAD3 => im_palette im end) (im_full im) (rgb0 (tr_data r)) /\
      rgb1 (tr_data r) = None /\ rgb2 (tr_data r) = None /\ rgb3 (tr_data r) = None) sel rs.
Proof.
  intros checks ty ls wl sel supplied Hg Hs Hsel Hl.
  pose proof (written_read checks ty ls wl sel Hg Hs Hsel) as HR. exists (map (texture_of ty) sel).
  pose proof (WadProofs.read_valid checks _ wl _ (archive_byte ty ls Hg) HR) as HV.
  assert (HG : Forall good_image sel).
  { apply Forall_forall. intros im Him.
    assert (H : In im (images ls)).
    { clear - Hsel Him. induction Hsel; [exact Him| |right; apply IHHsel; exact Him].
      destruct Him as [->|Him]; [left; reflexivity|right; apply IHHsel; exact Him]. }
    apply in_flat_map in H. destruct H as (l & Hin & H). rewrite Forall_forall in Hg. apply Hg in Hin.
    destruct l; [|destruct H]. destruct H as [<-|[]]. exact Hin. }
  clear Hsel. assert (X : exists rs, mapM (fun t => into_rgb t (Some supplied)) (map (texture_of ty) sel) = Ok rs /\
    Forall2 (fun im r => mt_name (tr_info r) = map small (im_name im) /\ mt_width (tr_info r) = im_width im /\
      mt_height (tr_info r) = im_height im /\
      colored (match ty with WAD2 => supplied | WAD3 => im_palette im end) (im_full im) (rgb0 (tr_data r)) /\
      rgb1 (tr_data r) = None /\ rgb2 (tr_data r) = None /\ rgb3 (tr_data r) = None) sel rs).
  { clear HR. induction HG as [|im sel Hi _ IH]; [exists []; split; [reflexivity|constructor]|].
    inversion HV as [|? ? V1 V2]; subst. destruct (IH V2) as (rs & Hm & Hf).
    destruct (WadProofs.rgb_with (texture_of ty im) (Some supplied) (match ty with WAD2 => supplied | WAD3 => im_palette im end) V1)
      as (r & Hr & Hinfo & C0 & C1 & C2 & C3).
    { destruct ty; [exact Hl|]. destruct Hi as (_ & _ & _ & _ & _ & _ & _ & _ & _ & _ & Hp & _). exact Hp. }
    { destruct ty; [right|left]; unfold texture_of, level_offsets; repeat split. }
    exists (r :: rs). split; [cbn [map mapM]; rewrite Hr; cbn [bind]; rewrite Hm; reflexivity|].
    constructor; [|exact Hf]. rewrite Hinfo. unfold texture_of, level_offsets in *.
    cbn [tx_info tx_data mt_name mt_width mt_height mip0 mip1 mip2 mip3] in *.
    repeat split; try assumption.
    - destruct (rgb1 (tr_data r)); [contradiction C1|reflexivity].
    - destruct (rgb2 (tr_data r)); [contradiction C2|reflexivity].
    - destruct (rgb3 (tr_data r)); [contradiction C3|reflexivity]. }
  destruct X as (rs & A & B). exists rs. auto.
Qed.
