(** An archive and another one that differs where it does not matter, to try C139 on. *)
From Verif Require Import Prelude F32 Text TextSpec WadModel DiffSpec WadSpec ArchiveSpec ExtentSpec BaseProofs WadProofs WadWitness.
Local Open Scope N_scope.

Definition plain_wad : bytes := demo_wad WAD2 (lit "Wall") 8 8.
(** Other mip levels and palette, and something after the directory. *)
Definition noisy_wad : bytes := firstn 116 plain_wad ++ map (fun b => 255 - b) (firstn 791 (skipn 116 plain_wad)) ++ skipn 907 plain_wad ++ [1; 2; 3].
Lemma noisy_bytes : Forall byte noisy_wad.
Proof. apply Forall_forall. intros x H. apply N.ltb_lt. revert x H. apply forallb_forall. vm_compute. reflexivity. Qed.

Lemma plain_needed : forall k, needed true plain_wad None k -> k < 116 \/ 907 <= k < 971.
Proof.
  assert (HH : has_header plain_wad WAD2 2 907) by (exists (lit "WAD2" ++ le 4 2 ++ le 4 907); split; [repeat split|stored_here 0%nat 12%nat]).
  assert (HM : has_miptex plain_wad (Entry 12 0 0 68 0 (lit "Wall")) (demo_info (lit "wall"))).
  { exists (miptex_enc (lit "Wall") 8 8). split; [|stored_here 12%nat 40%nat].
    repeat split. exists (lit "Wall"), (pad16 (lit "Wall")). split; [reflexivity|]. split; [|split; reflexivity].
    apply no_nul; [reflexivity|]. apply Nat.ltb_lt. reflexivity. }
  assert (E : forall ty es e, directory true plain_wad ty es -> In e es -> selected_entry None e -> ty = WAD2 /\ e = Entry 12 0 0 68 0 (lit "Wall")).
  { intros ty es e D I W. destruct (directory_unique _ _ _ _ _ _ demo_bytes D demo_dir) as (-> & ->). split; [reflexivity|]. destruct I as [<-|[<-|[]]]; [|reflexivity]. destruct W as ([H|H] & _); discriminate H. }
  intros k [H|ty n d i a H I A K|ty es e D I W K|ty es e m a size D I W M A S K|es e m a size D I W M S A K].
  - left. lia.
  - destruct (header_unique _ _ _ _ _ _ _ demo_bytes H HH) as (_ & -> & ->). destruct A as (_ & ->). right. lia.
  - destruct (E _ _ _ D I W) as (_ & ->). cbn [en_offset] in K. lia.
  - destruct (E _ _ _ D I W) as (_ & ->). rewrite (miptex_unique _ _ _ _ demo_bytes M HM) in *. cbn [demo_info en_offset mt_offset1 mt_width mt_height] in *. destruct A as (_ & ->), S as (_ & ->). lia.
  - destruct (E _ _ _ D I W) as (X & _). discriminate X.
Qed.
Lemma plain_noisy : forall k, needed true plain_wad None k -> byte_at noisy_wad k = byte_at plain_wad k.
Proof.
  intros k H. apply plain_needed in H.
  assert (C : forallb (fun i => match nth_error noisy_wad i, nth_error plain_wad i with Some a, Some b => a =? b | _, _ => false end) (seq 0 116 ++ seq 907 64) = true) by (vm_compute; reflexivity).
  rewrite forallb_forall in C. specialize (C (N.to_nat k)). unfold byte_at.
  assert (I : In (N.to_nat k) (seq 0 116 ++ seq 907 64)) by (apply in_app_iff; rewrite !in_seq; lia). apply C in I.
  destruct (nth_error noisy_wad (N.to_nat k)) as [a|], (nth_error plain_wad (N.to_nat k)) as [b|]; try discriminate I. apply N.eqb_eq in I. now subst.
Qed.
Theorem two_wads : Forall byte plain_wad /\ Forall byte noisy_wad /\ (forall k, needed true plain_wad None k -> byte_at noisy_wad k = byte_at plain_wad k)
  /\ byte_at noisy_wad 116 <> byte_at plain_wad 116 /\ length noisy_wad <> length plain_wad
  /\ read_textures true (Some noisy_wad) None 1 = Ok [Texture (demo_info (lit "wall")) (MipData demo_pixels None None None) None].
Proof.
  split; [exact demo_bytes|]. split; [exact noisy_bytes|]. split; [exact plain_noisy|]. split; [vm_compute; discriminate|]. split; [vm_compute; discriminate|]. vm_compute. reflexivity.
Qed.

(** An archive of two pictures, without one of them. *)
Definition dull : palette := map (fun n => RGB (N.of_nat n) 5 5) (seq 0 256).
Definition moss : image := Image 67 (lit "Moss") 8 8 (map N.of_nat (seq 100 64)) (repeat 1 16) (repeat 2 4) [3] dull.
Definition sand : image := Image 68 (lit "SAND") 8 8 (map N.of_nat (seq 10 64)) (repeat 4 16) (repeat 5 4) [6] dull.
Definition pair_wad : bytes := archive WAD3 [Picture moss; Other 66 (lit "notes") [0; 255; 7]; Picture sand].
Theorem pair_chosen : exists a b, Forall byte pair_wad /\ read_textures true (Some pair_wad) None 1 = Ok [a; b] /\ mt_name (tx_info a) = lit "moss" /\ mt_name (tx_info b) = lit "sand"
  /\ read_textures true (Some pair_wad) (Some [lit "SAND"]) 1 = Ok [b] /\ read_textures true (Some pair_wad) (Some [lit "SAND"; lit "x"; lit "SAND"]) 1 = Ok [b].
Proof.
  destruct (read_textures true (Some pair_wad) None 1) as [[|a [|b [|]]]| | |] eqn:E; try (vm_compute in E; discriminate E). exists a, b.
  split; [apply Forall_forall; intros x H; apply N.ltb_lt; revert x H; apply forallb_forall; vm_compute; reflexivity|]. split; [reflexivity|].
  vm_compute in E. injection E as <- <-. repeat split; vm_compute; reflexivity.
Qed.
