(** Capital and small letters (C85). *)
From Coq Require Import SpecFloat.
From Verif Require Import Prelude F32 Text TextSpec MapModel WadModel MapSpec WadSpec BaseProofs TextProofs PlaneProofs MapProofs WadProofs Witness.
Local Open Scope N_scope.

Lemma latin1_iff : forall s, forallb (fun c => c <? 256) s = true <-> latin1 s.
Proof. intros s. rewrite forallb_forall. unfold latin1. split; intros H c I; specialize (H c I); lia. Qed.
Theorem lower_latin : forall p s, latin1 s -> to_lowercase p s = map small s.
Proof. intros p s H. unfold to_lowercase. apply latin1_iff in H. rewrite H. apply small_map. Qed.

Lemma letters_small : forall a b, In (a, b) letters -> small a = b /\ small b = b.
Proof. intros a b I. unfold letters in I. simpl in I. repeat (destruct I as [E|I]; [injection E as <- <-; split; reflexivity|]). destruct I. Qed.
Lemma small_cases : forall c, small c = c \/ In (c, small c) letters.
Proof.
  intros c. unfold small. destruct (find _ letters) as [[a b]|] eqn:E; [right|now left]. apply find_some in E as (I & E).
  apply N.eqb_eq in E. cbn [fst] in E. now subst.
Qed.
(** No two capitals share a small letter. *)
Lemma letters_injective : forall a a' b, In (a, b) letters -> In (a', b) letters -> a = a'.
Proof.
  assert (H : forallb (fun l => forallb (fun l' => negb (snd l =? snd l') || (fst l =? fst l')) letters) letters = true) by (vm_compute; reflexivity).
  intros a a' b I I'. rewrite forallb_forall in H. specialize (H _ I). rewrite forallb_forall in H. specialize (H _ I'). cbn [fst snd] in H.
  rewrite N.eqb_refl in H. cbn [negb orb] in H. now apply N.eqb_eq.
Qed.
Lemma same_small : forall a b, same_letter a b <-> small a = small b.
Proof.
  intros a b. split.
  - intros [->|[I|I]]; [reflexivity| |]; apply letters_small in I as (-> & ->); reflexivity.
  - intros E. destruct (small_cases a) as [A|A], (small_cases b) as [B|B].
    + left. congruence.
    + right. right. now rewrite <- E, A in B.
    + right. left. now rewrite E, B in A.
    + left. rewrite <- E in B. exact (letters_injective _ _ _ A B).
Qed.
Lemma same_smalls : forall a b, Forall2 same_letter a b <-> map small a = map small b.
Proof.
  induction a as [|x a IH]; intros [|y b]; cbn [map]; split; intros H; try discriminate; try (now inversion H); try (now constructor).
  - inversion H as [|? ? ? ? H1 H2]; subst. apply same_small in H1. apply IH in H2. now rewrite H1, H2.
  - injection H as H1 H2. constructor; [now apply same_small|now apply IH].
Qed.
Theorem same_lower : forall p a b, latin1 a -> latin1 b -> (to_lowercase p a = to_lowercase p b <-> Forall2 same_letter a b).
Proof. intros p a b A B. rewrite !lower_latin by auto. symmetry. apply same_smalls. Qed.

(** A texture of an archive has the name of the texture of a plane. *)
Theorem texture_names : forall p line ws pl tex i rest m name field,
  written ws line -> parse_plane (f32_num p) (to_lowercase p) line = Ok pl -> nth_error ws 15 = Some tex -> latin1 tex ->
  Forall byte i -> mip_texture_parser i = Some (rest, m) -> field = firstn 16 i -> cut_at_nul name field ->
  (bp_texture pl = mt_name m <-> Forall2 same_letter tex name).
Proof.
  intros p line ws pl tex i rest m name field W P T L B M F C.
  apply (plane_read_iff _ _ _ _ _ _ W) in P. destruct P as [p0 p1 p2 tex' uvw wr wsx wsy ex v0 v1 v2 uv r sx sy extra [] [] [] _ _ _ _ _]. cbn in T. injection T as ->.
  cbn [bp_texture]. rewrite lower_latin by exact L. apply (decode_miptex i rest m B) in M. destruct M as (bs & -> & _ & _ & _ & _ & _ & _ & n & f & Lf & Cf & En & ->).
  rewrite En. assert (field = f) as ->. { rewrite F, <- app_assoc, firstn_app, firstn_all2 by lia. rewrite Lf. cbn [Nat.sub firstn]. apply app_nil_r. }
  apply until_nul_spec in C, Cf. assert (n = name) as -> by congruence. symmetry. apply same_smalls.
Qed.

Lemma wall : exists line ws pl tex i rest m name,
  written ws line /\ parse_plane (f32_num demo) (to_lowercase demo) line = Ok pl /\ nth_error ws 15 = Some tex /\ latin1 tex /\
  Forall byte i /\ mip_texture_parser i = Some (rest, m) /\ cut_at_nul name (firstn 16 i) /\ Forall2 same_letter tex name /\ tex <> name.
Proof.
  exists (lit "( 0 0 0 ) ( 0 0 1 ) ( 0 1 0 ) wALl1 0 0 0 1 1"), (split_whitespace (lit "( 0 0 0 ) ( 0 0 1 ) ( 0 1 0 ) wALl1 0 0 0 1 1")).
  destruct (parse_plane (f32_num demo) (to_lowercase demo) (lit "( 0 0 0 ) ( 0 0 1 ) ( 0 1 0 ) wALl1 0 0 0 1 1")) as [pl| | |] eqn:E;
    [|vm_compute in E; discriminate E..].
  exists pl, (lit "wALl1"), (lit "WaLL1" ++ repeat 0 35), [].
  destruct (mip_texture_parser (lit "WaLL1" ++ repeat 0 35)) as [[rest m]|] eqn:M; [|vm_compute in M; discriminate M].
  assert (rest = []) as -> by (vm_compute in M; congruence).
  exists m, (lit "WaLL1"). split; [now apply written_iff|]. split; [reflexivity|]. split; [vm_compute; reflexivity|].
  split; [apply latin1_iff; reflexivity|]. split; [apply Forall_forall; intros c I; apply (proj1 (latin1_iff _)) in I; [exact I|reflexivity]|].
  split; [reflexivity|]. split; [apply until_nul_spec; vm_compute; reflexivity|]. split; [apply same_smalls; vm_compute; reflexivity|].
  vm_compute. discriminate.
Qed.
