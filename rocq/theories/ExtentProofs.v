(** Which bytes of an archive matter: proofs of C139. *)
From Verif Require Import Prelude F32 TextSpec WadModel DiffSpec WadSpec ExtentSpec BaseProofs DiffProofs WadProofs.
Local Open Scope N_scope.

Lemma in_the_middle : forall (l : bytes) off chunk, (forall i, (i < length chunk)%nat -> nth_error l (off + i) = nth_error chunk i) -> chunk <> [] ->
  exists pre post, l = pre ++ chunk ++ post /\ length pre = off.
Proof.
  intros l off. revert l. induction off as [|off IH]; intros l chunk H N.
  - exists []. revert l N H. induction chunk as [|c chunk IH]; intros l N H; [congruence|]. pose proof (H 0%nat ltac:(simpl; lia)) as H0. destruct l as [|x l]; [discriminate H0|]. injection H0 as ->.
    destruct chunk as [|c' chunk].
    + exists l. split; reflexivity.
    + destruct (IH l) as (post & -> & _); [discriminate|intros i Hi; apply (H (S i)); simpl in *; lia|]. exists post. split; reflexivity.
  - destruct l as [|x l].
    + exfalso. destruct chunk as [|c chunk]; [congruence|]. specialize (H 0%nat ltac:(simpl; lia)). discriminate H.
    + destruct (IH l chunk) as (pre & post & -> & L); [intros i Hi; apply (H i Hi)|exact N|]. exists (x :: pre), post. split; [reflexivity|]. simpl. now rewrite L.
Qed.
Lemma stored_bytes : forall file off chunk, stored file off chunk <-> forall i, (i < length chunk)%nat -> nth_error file (N.to_nat off + i) = nth_error chunk i.
Proof.
  intros file off chunk. split.
  - intros [->|(pre & post & -> & L)] i Hi; [simpl in Hi; lia|]. rewrite nth_error_app2 by lia. replace (N.to_nat off + i - length pre)%nat with i by lia. rewrite nth_error_app1 by exact Hi. reflexivity.
  - intros H. destruct chunk as [|c chunk]; [now left|]. right. destruct (in_the_middle file (N.to_nat off) (c :: chunk) H) as (pre & post & -> & L); [discriminate|].
    exists pre, post. split; [reflexivity|lia].
Qed.
Lemma stored_agree : forall file file' off chunk, (forall k, off <= k < off + N.of_nat (length chunk) -> byte_at file' k = byte_at file k) -> stored file off chunk <-> stored file' off chunk.
Proof.
  intros file file' off chunk H. rewrite !stored_bytes. unfold byte_at in H.
  assert (E : forall i, (i < length chunk)%nat -> nth_error file' (N.to_nat off + i) = nth_error file (N.to_nat off + i)).
  { intros i Hi. specialize (H (off + N.of_nat i) ltac:(lia)). replace (N.to_nat (off + N.of_nat i)) with (N.to_nat off + i)%nat in H by lia. exact H. }
  split; intros S i Hi; rewrite <- (S i Hi); [|symmetry]; auto.
Qed.

Lemma Forall2_forall_in : forall A B (P Q : A -> B -> Prop) l r, Forall2 P l r -> (forall x y, In x l -> P x y -> Q x y) -> Forall2 Q l r.
Proof. intros A B P Q l r F. induction F as [|x y l r H F IH]; intros K; constructor; [apply K; [now left|exact H]|]. apply IH. intros a b I. apply K. now right. Qed.

Section Elsewhere.
Context (checks : bool) (file file' : bytes) (wl : option (list str)).
Context (same : forall k, needed checks file wl k -> byte_at file' k = byte_at file k).

Lemma header_same : forall h hb, header_bytes h hb -> (stored file 0 hb <-> stored file' 0 hb).
Proof. intros h hb H. apply stored_agree. intros k K. apply same. apply needed_header. rewrite (header_size _ _ H) in K. cbn in K. lia. Qed.
Lemma directory_same : forall ty es, directory checks file ty es <-> directory checks file' ty es.
Proof.
  assert (E : forall ty n d i a e bs hb, header_bytes (Header (magic_of ty) n d) hb -> stored file 0 hb -> i < n -> address checks (d + 32 * i) a -> entry_bytes e bs -> (stored file a bs <-> stored file' a bs)).
  { intros ty n d i a e bs hb H S I A B. apply stored_agree. intros k K. rewrite (entry_size _ _ B) in K. apply same. apply (needed_entry _ _ _ _ ty n d i a); [exists hb; auto|exact I|exact A|cbn in K; lia]. }
  intros ty es. split; intros (hb & d & H & S & L); exists hb, d; (split; [exact H|]).
  - split; [now apply (header_same _ _ H)|]. intros i e I. destruct (L i e I) as (a & bs & A & B & C). exists a, bs. split; [exact A|]. split; [exact B|].
    apply (proj1 (E ty _ d (N.of_nat i) a e bs hb H S ltac:(assert (nth_error es i <> None) by congruence; assert (i < length es)%nat by (now apply nth_error_Some); lia) A B)). exact C.
  - apply (header_same _ _ H) in S. split; [exact S|]. intros i e I. destruct (L i e I) as (a & bs & A & B & C). exists a, bs. split; [exact A|]. split; [exact B|].
    apply (proj2 (E ty _ d (N.of_nat i) a e bs hb H S ltac:(assert (nth_error es i <> None) by congruence; assert (i < length es)%nat by (now apply nth_error_Some); lia) A B)). exact C.
Qed.
Lemma texture_same : forall ty es e t, directory checks file ty es -> In e es -> selected_entry wl e -> (texture_at checks file ty e t <-> texture_at checks file' ty e t).
Proof.
  intros ty es e t D I W.
  assert (H1 : forall m hb, miptex_bytes m hb -> (stored file (en_offset e) hb <-> stored file' (en_offset e) hb)).
  { intros m hb H. apply stored_agree. intros k K. rewrite (miptex_size _ _ H) in K. apply same. apply (needed_info _ _ _ _ ty es e D I W). cbn in K. lia. }
  assert (H2 : forall m a size px, has_miptex file e m -> address checks (en_offset e + mt_offset1 m) a -> address checks (mt_width m * mt_height m) size -> N.of_nat (length px) = size -> (stored file a px <-> stored file' a px)).
  { intros m a size px M A S L. apply stored_agree. intros k K. rewrite L in K. apply same. exact (needed_pixels _ _ _ _ ty es e m a size D I W M A S K). }
  assert (H3 : forall m a size p pb, ty = WAD3 -> has_miptex file e m -> address checks (mt_width m * mt_height m) size -> address checks (en_offset e + mt_offset8 m + size / 64 + 2) a -> palette_bytes p pb -> (stored file a pb <-> stored file' a pb)).
  { intros m a size p pb -> M S A P. apply stored_agree. intros k K. rewrite (palette_size _ _ P) in K. apply same. apply (needed_colors _ _ _ _ es e m a size D I W M S A). cbn in K. lia. }
  split; intros (hb & a & size & M & S & A & Z & L & Px & N1 & N2 & N3 & Pal); exists hb, a, size.
  - assert (HM : has_miptex file e (tx_info t)) by (exists hb; auto). split; [exact M|]. split; [now apply (H1 _ _ M)|]. split; [exact A|]. split; [exact Z|]. split; [exact L|]. split; [now apply (H2 _ _ _ _ HM A Z L)|].
    repeat (split; [assumption|]). destruct ty; [exact Pal|]. destruct Pal as (p & pa & pb & P1 & P2 & P3 & P4). exists p, pa, pb. repeat (split; [assumption|]). now apply (H3 _ _ _ _ _ eq_refl HM Z P3 P2).
  - apply (H1 _ _ M) in S. assert (HM : has_miptex file e (tx_info t)) by (exists hb; auto). split; [exact M|]. split; [exact S|]. split; [exact A|]. split; [exact Z|]. split; [exact L|]. split; [now apply (H2 _ _ _ _ HM A Z L)|].
    repeat (split; [assumption|]). destruct ty; [exact Pal|]. destruct Pal as (p & pa & pb & P1 & P2 & P3 & P4). exists p, pa, pb. repeat (split; [assumption|]). now apply (H3 _ _ _ _ _ eq_refl HM Z P3 P2).
Qed.

Lemma selected_both : forall A (P : A -> Prop) l sel x, selected P l sel -> In x sel -> In x l /\ P x.
Proof. intros A P l sel x S. induction S; intros I; [destruct I|destruct I as [<-|I]; [split; [now left|assumption]|]|]; destruct (IHS I); split; try assumption; now right. Qed.

Theorem elsewhere : Forall byte file -> Forall byte file' -> forall ts, read_textures checks (Some file) wl 1 = Ok ts <-> read_textures checks (Some file') wl 1 = Ok ts.
Proof.
  intros B B' ts. rewrite (read_ok checks file wl ts B), (read_ok checks file' wl ts B'). split; intros (ty & es & sel & D & S & F); exists ty, es, sel.
  - split; [now apply directory_same|]. split; [exact S|]. apply Forall2_forall_in with (1 := F). intros e t I. destruct (selected_both _ _ _ _ _ S I). now apply (texture_same ty es e t).
  - apply directory_same in D. split; [exact D|]. split; [exact S|]. apply Forall2_forall_in with (1 := F). intros e t I. destruct (selected_both _ _ _ _ _ S I). now apply (texture_same ty es e t).
Qed.
End Elsewhere.

(** ** Longer and shorter files *)
Lemma stored_more : forall file more off chunk, stored file off chunk -> stored (file ++ more) off chunk.
Proof.
  intros file more off chunk [->|(pre & post & -> & L)]; [now left|]. right. exists pre, (post ++ more). split; [now rewrite <- !app_assoc|exact L].
Qed.
Theorem appended : forall checks file more wl ts, Forall byte (file ++ more) -> read_textures checks (Some file) wl 1 = Ok ts -> read_textures checks (Some (file ++ more)) wl 1 = Ok ts.
Proof.
  intros checks file more wl ts B. rewrite read_ok by (now apply Forall_app in B). rewrite read_ok by exact B. intros (ty & es & sel & (hb & d & H & S & L) & Sel & F). exists ty, es, sel. split.
  - exists hb, d. split; [exact H|]. split; [now apply stored_more|]. intros i e I. destruct (L i e I) as (a & bs & A & E & C). exists a, bs. split; [exact A|]. split; [exact E|]. now apply stored_more.
  - split; [exact Sel|]. apply Forall2_forall_in with (1 := F). intros e t _ (hb' & a & size & M & S' & A & Z & Len & Px & N1 & N2 & N3 & Pal). exists hb', a, size.
    split; [exact M|]. split; [now apply stored_more|]. split; [exact A|]. split; [exact Z|]. split; [exact Len|]. split; [now apply stored_more|]. repeat (split; [assumption|]).
    destruct ty; [exact Pal|]. destruct Pal as (p & pa & pb & P1 & P2 & P3 & P4). exists p, pa, pb. repeat (split; [assumption|]). now apply stored_more.
Qed.
Theorem cut_short : forall checks file n wl ts, Forall byte file -> read_textures checks (Some (firstn n file)) wl 1 = Ok ts -> read_textures checks (Some file) wl 1 = Ok ts.
Proof. intros checks file n wl ts B H. rewrite <- (firstn_skipn n file) in *. rewrite firstn_skipn in H. now apply appended. Qed.

(** ** Asking for less *)
Lemma selected_again : forall A (P Q : A -> Prop) l sel r, (forall x, Q x -> P x) -> selected P l sel -> (selected Q l r <-> selected Q sel r).
Proof.
  intros A P Q l sel r PQ S. revert r. induction S as [|x l s H S IH|x l s H S IH]; intros r; [reflexivity| |].
  - split; intros T; inversion T as [|? ? r' K T'|? ? r' K T']; subst; [apply SelTake|apply SelDrop|apply SelTake|apply SelDrop]; try assumption; now apply IH.
  - split; intros T; [inversion T as [|? ? r' K T'|? ? r' K T']; subst; [exfalso; auto|]; now apply IH|]. apply SelDrop; [auto|]. now apply IH.
Qed.
Lemma selected_pairs : forall B (R : entry -> B -> Prop) l sel ts keep, Forall2 R sel ts -> (forall e, In e sel -> en_type e = 67 \/ en_type e = 68) ->
  selected (fun x => In (fst x) l) (combine (map en_name sel) ts) keep -> exists sel', selected (selected_entry (Some l)) sel sel' /\ Forall2 R sel' (map snd keep).
Proof.
  intros B R l sel ts keep F. revert keep. induction F as [|e t sel ts H F IH]; intros keep K S; cbn [map combine] in S; inversion S as [|? ? r' I S'|? ? r' I S']; subst.
  - exists []. split; constructor.
  - destruct (IH r') as (sel' & A & C); [intros e' J; apply K; now right|exact S'|]. exists (e :: sel'). split; [|now constructor]. apply SelTake; [|exact A].
    split; [apply K; now left|]. intros l' E. injection E as <-. exact I.
  - destruct (IH keep) as (sel' & A & C); [intros e' J; apply K; now right|exact S'|]. exists sel'. split; [|exact C]. apply SelDrop; [|exact A]. intros (_ & J). apply I, J. reflexivity.
Qed.
Theorem chosen : forall checks file wl ts, Forall byte file -> read_textures checks (Some file) wl 1 = Ok ts ->
  exists ty es sel, directory checks file ty es /\ selected (selected_entry wl) es sel /\ length sel = length ts
  /\ forall l keep, (forall l0, wl = Some l0 -> incl l l0) -> selected (fun x => In (fst x) l) (combine (map en_name sel) ts) keep -> read_textures checks (Some file) (Some l) 1 = Ok (map snd keep).
Proof.
  intros checks file wl ts B H. apply (read_ok _ _ _ _ B) in H. destruct H as (ty & es & sel & D & S & F). exists ty, es, sel. split; [exact D|]. split; [exact S|]. split; [now apply Forall2_length in F|].
  intros l keep I K. apply (read_ok _ _ _ _ B). destruct (selected_pairs _ _ l sel ts keep F) as (sel' & A & C); [intros e J; apply (selected_both _ _ _ _ _ S) in J; apply J|exact K|].
  exists ty, es, sel'. split; [exact D|]. split; [|exact C]. apply (selected_again _ (selected_entry wl) (selected_entry (Some l)) es sel sel'); [|exact S|exact A].
  intros e (T & J). split; [exact T|]. intros l0 E. apply (I l0 E). now apply J.
Qed.

(** ** The list asked for as a set *)
Theorem as_set : forall checks file l l' levels, (forall s, In s l <-> In s l') -> read_textures checks file (Some l) levels = read_textures checks file (Some l') levels.
Proof.
  intros checks file l l' levels H.
  assert (W : forall e, wanted (Some l) e = wanted (Some l') e).
  { intros e. pose proof (wanted_spec (Some l) e) as A. pose proof (wanted_spec (Some l') e) as C.
    assert (K : selected_entry (Some l) e <-> selected_entry (Some l') e) by (split; intros (T & J); (split; [exact T|]); intros l0 E; injection E as <-; apply H; now apply J).
    destruct (wanted (Some l) e), (wanted (Some l') e); try reflexivity; exfalso; intuition discriminate. }
  assert (D : forall f h, read_directory checks f h (Some l) = read_directory checks f h (Some l')).
  { intros f h. unfold read_directory. replace (map (read_entry checks f (h_dir_offset h) (Some l')) (range (h_num_entries h))) with (map (read_entry checks f (h_dir_offset h) (Some l)) (range (h_num_entries h))); [reflexivity|].
    apply map_ext. intros i. unfold read_entry. destruct (u32_mul checks i 32) as [s| | |]; try reflexivity. cbn [bind]. destruct (u32_add checks (h_dir_offset h) s) as [o| | |]; try reflexivity. cbn [bind].
    destruct (read_at f o 32) as [b|]; [|reflexivity]. destruct (entry_parser b) as [[? e]|]; [|reflexivity]. now rewrite W. }
  unfold read_textures. destruct ((1 <=? levels) && (levels <=? 4)); [|reflexivity]. destruct file as [f|]; [|reflexivity].
  destruct (read_header f) as [h| | |]; try reflexivity. cbn [bind]. destruct (wad_type_of (h_magic h)) as [ty| | |]; try reflexivity. cbn [bind]. now rewrite D.
Qed.
