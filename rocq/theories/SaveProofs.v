(** Proofs about saved game data and equality of entity definitions. *)
From Coq Require Import ZifyBool ZifyNat ZifyN.
From Verif Require Import Prelude F32 Text MapModel GameDataModel RunModel SaveModel SaveSpec BaseProofs Utf8Proofs GameDataSpec GameDataProofs FgdProofs.
Local Open Scope N_scope.
Ltac Zify.zify_post_hook ::= Z.div_mod_to_equations.

(** ** The encoder *)
Lemma lor_high : forall a k m, a < 2 ^ k -> N.lor a (m * 2 ^ k) = m * 2 ^ k + a.
Proof.
  intros a k m H. rewrite N.add_comm. symmetry. rewrite <- N.lxor_lor, N.add_nocarry_lxor; try reflexivity.
  all: apply N.bits_inj; intros i; rewrite N.land_spec, N.bits_0; destruct (N.lt_ge_cases i k) as [L|L].
  all: try (rewrite (N.mul_pow2_bits_low m k i L); apply andb_false_r).
  all: rewrite <- (N.mod_small a (2 ^ k) H), N.mod_pow2_bits_high by assumption; reflexivity.
Qed.

Lemma tail_byte : forall c, N.lor (N.land c 0x3F) 0x80 = 0x80 + c mod 64.
Proof. intros c. change 0x3F with (N.ones 6). rewrite N.land_ones. change 0x80 with (2 * 2 ^ 6). apply lor_high. now apply N.mod_lt. Qed.

Lemma utf8_char_encode : forall c, scalar c -> utf8_char c = encode c.
Proof.
  intros c [M _]. unfold utf8_char, encode. rewrite !tail_byte, !N.shiftr_div_pow2.
  change (2 ^ 6) with 64. change (2 ^ 12) with 4096. change (2 ^ 18) with 262144.
  destruct (c <? 0x80) eqn:E1; [reflexivity|]. destruct (c <? 0x800) eqn:E2.
  { change 0x1F with (N.ones 5). rewrite N.land_ones. change (2 ^ 5) with 32. rewrite (N.mod_small (c / 64) 32) by lia.
    change 0xC0 with (6 * 2 ^ 5). rewrite lor_high by (change (2 ^ 5) with 32; lia). reflexivity. }
  destruct (c <? 0x10000) eqn:E3.
  { change 0x0F with (N.ones 4). rewrite N.land_ones. change (2 ^ 4) with 16. rewrite (N.mod_small (c / 4096) 16) by lia.
    change 0xE0 with (14 * 2 ^ 4). rewrite lor_high by (change (2 ^ 4) with 16; lia). reflexivity. }
  change 0x07 with (N.ones 3). rewrite N.land_ones. change (2 ^ 3) with 8. rewrite (N.mod_small (c / 262144) 8) by lia.
  change 0xF0 with (30 * 2 ^ 3). rewrite lor_high by (change (2 ^ 3) with 8; lia). reflexivity.
Qed.

Lemma utf8_bytes_encodes : forall s, unicode s -> encodes (utf8_bytes s) s.
Proof.
  intros s H. split; [exact H|]. induction H as [|c t C H IH]; [reflexivity|].
  unfold utf8_bytes in *. cbn [flat_map]. rewrite IH, utf8_char_encode by assumption. reflexivity.
Qed.

(** ** Everything printed is Unicode text *)
Lemma uni_app : forall a b, unicode a -> unicode b -> unicode (a ++ b).
Proof. intros. apply Forall_app; auto. Qed.
Lemma uni_ascii : forall s, forallb (fun c => c <? 0x80) s = true -> unicode s.
Proof.
  intros s H. apply Forall_forall. intros c I. rewrite forallb_forall in H. specialize (H c I). unfold scalar. lia.
Qed.
Lemma uni_chars : forall s, (forall c, In c s -> number_char c) -> unicode s.
Proof. intros s H. apply Forall_forall. intros c I. specialize (H c I). unfold number_char in H. unfold scalar. lia. Qed.
Lemma uni_Z : forall z, unicode (show_Z z).
Proof. intros. apply uni_chars, show_Z_chars. Qed.
Lemma uni_f32 : forall b x, unicode (show_f32 b x).
Proof. intros. apply uni_chars, show_f32_chars. Qed.
Lemma uni_flat : forall {A} (f : A -> str) l, (forall a, In a l -> unicode (f a)) -> unicode (flat_map f l).
Proof. intros A f l H. induction l; [constructor|]. simpl. apply uni_app; [|apply IHl]; intros; apply H; simpl; auto. Qed.

Lemma uni_cons : forall c s, c < 0x80 -> unicode s -> unicode (c :: s).
Proof. intros c s H U. constructor; [unfold scalar; lia|exact U]. Qed.

Create HintDb uni.
Global Hint Resolve uni_app uni_Z uni_f32 : uni.
Global Hint Extern 1 (unicode _) => (apply uni_ascii; reflexivity) : uni.
Global Hint Extern 2 (unicode (_ :: _)) => (apply uni_cons; [reflexivity|]) : uni.

Lemma uni_color : forall c, unicode (show_color c).
Proof. intros. unfold show_color. auto 12 with uni. Qed.
Lemma uni_vec : forall p v, unicode (show_vec p v).
Proof. intros. unfold show_vec, show_float. auto 12 with uni. Qed.
Global Hint Resolve uni_color uni_vec : uni.
Global Hint Unfold show_float q nl tab : uni.

Lemma uni_meta : forall p m, Forall unicode (meta_strings m) -> unicode (show_metadata p m).
Proof.
  intros p [cs|c|lo hi] H; simpl in H; unfold show_metadata; [|auto 12 with uni..].
  apply uni_app; [auto with uni|]. apply uni_app; [|auto with uni]. unfold join_base.
  assert (G : forall acc, unicode acc -> unicode (fold_left (fun acc next => (match acc with [] => [] | _ => acc ++ lit ", " end) ++ next) cs acc)).
  { induction H as [|c t C H IH]; intros acc A; [exact A|]. simpl. apply IH. apply uni_app; [|exact C]. destruct acc; auto with uni. }
  apply G. constructor.
Qed.

Lemma uni_choice : forall p c, Forall unicode (choice_strings c) -> unicode (show_choice p c) /\ unicode (show_choice_data p (ch_value c)).
Proof.
  intros p [n [i|x|s]] H; unfold choice_strings in H; simpl in H; inversion H as [|? ? N V]; subst.
  all: unfold show_choice, show_choice_data; cbn [ch_value ch_name]; unfold show_float, q.
  all: try (inversion V; subst).
  all: split; auto 12 with uni.
Qed.

Lemma in_enumerate_from : forall {A} (l : list A) k i x, In (i, x) (enumerate_from k l) -> In x l.
Proof. induction l as [|a l IH]; intros k i x H; [destruct H|]. simpl in H. destruct H as [E|H]; [injection E as _ <-; simpl; auto|simpl; right; eauto]. Qed.
Lemma in_enumerate : forall {A} (l : list A) i x, In (i, x) (enumerate l) -> In x l.
Proof. intros A l i x. apply in_enumerate_from. Qed.

Lemma mapM_all : forall {A B} (f : A -> res B) (P : B -> Prop) l r, mapM f l = Ok r ->
  (forall a b, In a l -> f a = Ok b -> P b) -> Forall P r.
Proof.
  induction l as [|a l IH]; intros r E H; simpl in E; [injection E as <-; constructor|].
  unfold bind in E. destruct (f a) as [b|?|?|] eqn:Ea; try discriminate. destruct (mapM f l) as [r'|?|?|] eqn:El; try discriminate.
  injection E as <-. constructor; [apply (H a); simpl; auto|]. apply IH; auto. intros. apply (H a0); simpl; auto.
Qed.

Lemma uni_property : forall p pr t, Forall unicode (property_strings pr) -> show_property p pr = Ok t -> unicode t.
Proof.
  intros p pr t H E. unfold property_strings in H. apply Forall_app in H. destruct H as [H D].
  inversion H as [|? ? N H1]; subst. inversion H1 as [|? ? S H2]; subst. inversion H2 as [|? ? L _]; subst. clear H H1 H2.
  unfold show_property in E. cbv zeta in E. destruct (fp_data pr) as [i|x|v|s|c|cs d|fs d| |].
  6: { unfold bind in E. destruct (nth_choice cs d) as [c|?|?|] eqn:Ec; try discriminate. injection E as <-.
    assert (C : forall c, In c cs -> Forall unicode (choice_strings c)).
    { intros a I. rewrite Forall_forall in D |- *. intros s Is. apply D, in_flat_map. eauto. }
    assert (I : In c cs).
    { unfold nth_choice in Ec. destruct (d <? 0)%Z; [discriminate|]. destruct (d <? Z.of_nat (length cs))%Z; [|discriminate].
      destruct (nth_error cs (Z.to_nat d)) eqn:Ne; [|discriminate]. injection Ec as ->. eapply nth_error_In; eauto. }
    destruct (uni_choice p c (C c I)) as [_ U].
    assert (B : unicode (flat_map (fun c => tab ++ tab ++ show_choice p c ++ nl) cs)).
    { apply uni_flat. intros a Ia. destruct (uni_choice p a (C a Ia)) as [V _]. unfold tab, nl. auto 12 with uni. }
    unfold q, nl, tab in *. auto 90 with uni. }
  6: { unfold bind in E. destruct (mapM (show_flag p d) (enumerate fs)) as [ls|?|?|] eqn:El; try discriminate. injection E as <-.
    assert (B : Forall unicode ls).
    { eapply mapM_all; [exact El|]. intros [i a] b I Eb. apply in_enumerate in I. rewrite Forall_forall in D. specialize (D a I).
      unfold show_flag in Eb. unfold bind in Eb. destruct (flag_bit p (fst (i, a))); try discriminate. injection Eb as <-. cbn [fst snd].
      unfold q, nl, tab. destruct (0 <? _)%Z; auto 90 with uni. }
    assert (B' : unicode (concat ls)) by (clear - B; induction B; simpl; [constructor|apply uni_app; assumption]).
    unfold q, nl, tab. auto 90 with uni. }
  all: try (injection E as <-); unfold show_float, q; try (inversion D; subst); auto 90 with uni.
Qed.

Lemma uni_entity : forall p e t, Forall unicode (entity_strings e) -> show_entity p e = Ok t -> unicode t.
Proof.
  intros p e t H E. unfold entity_strings in H. apply Forall_app in H. destruct H as [H D]. apply Forall_app in D. destruct D as [M P].
  inversion H as [|? ? N H1]; subst. inversion H1 as [|? ? De _]; subst. clear H H1.
  unfold show_entity in E. cbv zeta in E. unfold bind in E. destruct (mapM (show_property p) (fe_properties e)) as [ps|?|?|] eqn:Ep; try discriminate.
  injection E as <-. rewrite Forall_forall in M, P.
  assert (B : Forall unicode ps).
  { eapply mapM_all; [exact Ep|]. intros a b I Eb. apply (uni_property p a b); [|exact Eb]. apply Forall_forall. intros s Is. apply P, in_flat_map. eauto. }
  rewrite Forall_forall in B.
  assert (B1 : unicode (flat_map (fun m => show_metadata p m ++ lit " ") (fe_metadata e))).
  { apply uni_flat. intros m I. apply uni_app; [|auto with uni]. apply uni_meta, Forall_forall. intros s Is. apply M, in_flat_map. eauto. }
  assert (B2 : unicode (flat_map (fun s => tab ++ s ++ nl) ps)).
  { apply uni_flat. intros m I. unfold tab, nl. auto with uni. }
  assert (B3 : unicode (show_class (fe_class e))) by (destruct (fe_class e); auto with uni).
  unfold q, nl. auto 90 with uni.
Qed.

Lemma uni_forge : forall p g t, unicode_forge g -> show_forge_data p g = Ok t -> unicode t.
Proof.
  intros p g t H E. unfold unicode_forge, forge_strings in H. inversion H as [|? ? N D]; subst. apply Forall_app in D. destruct D as [I D].
  unfold show_forge_data in E. unfold bind in E. destruct (mapM (show_entity p) (fd_definitions g)) as [es|?|?|] eqn:Ee; try discriminate.
  injection E as <-. rewrite Forall_forall in I, D.
  assert (B : Forall unicode es).
  { eapply mapM_all; [exact Ee|]. intros a b Ia Eb. apply (uni_entity p a b); [|exact Eb]. apply Forall_forall. intros s Is. apply D, in_flat_map. eauto. }
  rewrite Forall_forall in B.
  assert (B1 : unicode (flat_map (fun s => s ++ nl ++ nl) es)).
  { apply uni_flat. intros m Im. unfold nl. auto with uni. }
  assert (B2 : unicode (flat_map (fun s => lit "@include " ++ q ++ s ++ q ++ nl) (fd_includes g))).
  { apply uni_flat. intros m Im. unfold q, nl. auto 12 with uni. }
  unfold nl in *. auto 90 with uni.
Qed.

(** ** Saving *)
Lemma put_same : forall d path bs, put d path bs path = Contents bs.
Proof. intros. unfold put. now rewrite str_eqb_refl. Qed.
Lemma put_other : forall d path bs other, other <> path -> put d path bs other = d other.
Proof. intros d path bs other H. unfold put. destruct (str_eqb other path) eqn:E; [|reflexivity]. apply str_eqb_eq in E. contradiction. Qed.

Theorem saved : forall p f d d' g path, unicode_forge g -> save p f d g path = (Ok tt, d') ->
  exists text, show_forge_data p g = Ok text /\ read_to_string (d' path) = Ok text
    /\ (exists bs, d' path = Contents bs /\ encodes bs text) /\ forall other, other <> path -> d' other = d other.
Proof.
  intros p f d d' g path U E. unfold save in E. destruct (show_forge_data p g) as [t|?|?|] eqn:S; try discriminate.
  exists t. split; [reflexivity|]. destruct f; try discriminate. injection E as <-. rewrite put_same.
  assert (En : encodes (utf8_bytes t) t) by (apply utf8_bytes_encodes, (uni_forge p g t U S)).
  split; [|split; [eauto|intros; now apply put_other]]. cbn [read_to_string]. apply decode_iff in En. now rewrite En.
Qed.

Theorem save_total : forall p d g path text, show_forge_data p g = Ok text ->
  exists d', save p Written d g path = (Ok tt, d').
Proof. intros p d g path text S. unfold save. rewrite S. eexists. reflexivity. Qed.

Theorem save_fails : forall p f d d' g path e, unicode_forge g -> save p f d g path = (Err e, d') ->
  (forall other, other <> path -> d' other = d other) /\
  (d' path = d path \/ exists text whole part rest, show_forge_data p g = Ok text /\ encodes whole text
     /\ d' path = Contents part /\ whole = part ++ rest).
Proof.
  intros p f d d' g path e U E. unfold save in E. destruct (show_forge_data p g) as [t|?|?|] eqn:S; try discriminate.
  - destruct f as [| |n]; try discriminate; injection E as <- <-; [auto|]. split; [intros; now apply put_other|]. right.
    exists t, (utf8_bytes t), (firstn n (utf8_bytes t)), (skipn n (utf8_bytes t)).
    rewrite put_same, firstn_skipn. repeat split; auto; apply utf8_bytes_encodes, (uni_forge p g t U S).
  - injection E as <- <-. auto.
Qed.

Theorem save_panics : forall p f d d' g path w, save p f d g path = (Panic w, d') ->
  show_forge_data p g = Panic w /\ forall other, d' other = d other.
Proof.
  intros p f d d' g path w E. unfold save in E. destruct (show_forge_data p g) as [t|?|?|] eqn:S; try discriminate.
  - destruct f; discriminate.
  - injection E as <- <-. auto.
Qed.

Theorem saved_read_back : forall p f d d' g path, wf_forge g -> unicode_forge g -> save p f d g path = (Ok tt, d') ->
  exists text, read_to_string (d' path) = Ok text /\ read_fgd text = Some (visible p g).
Proof.
  intros p f d d' g path W U E. destruct (saved p f d d' g path U E) as (t & S & R & _). exists t. split; [exact R|]. now apply read_show_forge.
Qed.

Theorem saved_same : forall p f1 f2 d1 d1' d2 d2' a b path, wf_forge a -> wf_forge b -> typed_forge a -> typed_forge b ->
  unicode_forge a -> unicode_forge b ->
  save p f1 d1 a path = (Ok tt, d1') -> save p f2 d2 b path = (Ok tt, d2') -> (d1' path = d2' path <-> agree p a b).
Proof.
  intros p f1 f2 d1 d1' d2 d2' a b path Wa Wb Ta Tb Ua Ub Ea Eb.
  destruct (saved p f1 d1 d1' a path Ua Ea) as (t & S & R & (bs & C & En) & _).
  destruct (saved p f2 d2 d2' b path Ub Eb) as (t' & S' & R' & (bs' & C' & En') & _). split.
  - intros E. rewrite E, R' in R. injection R as ->. eapply same_text_agree; eauto.
  - intros A. pose proof (agree_same_text p a b Wa Wb A) as Q. rewrite S, S' in Q. injection Q as ->.
    rewrite C, C'. destruct En as [_ ->], En' as [_ ->]. reflexivity.
Qed.

(** ** Equality and hashing *)
Lemma entity_eqb_iff : forall {T} (a b : forge_entity T), entity_eqb a b = true <-> fe_name a = fe_name b.
Proof. intros. apply str_eqb_eq. Qed.

Lemma encode_below : forall c b, scalar c -> In b (encode c) -> b < 0xFF.
Proof.
  intros c b [M _] I. unfold encode in I. destruct (c <? 0x80) eqn:E1; [|destruct (c <? 0x800) eqn:E2; [|destruct (c <? 0x10000) eqn:E3]]; cbn [In] in I; repeat (destruct I as [<-|I]; [lia|]); destruct I.
Qed.
Lemma utf8_below : forall s b, unicode s -> In b (utf8_bytes s) -> b < 0xFF.
Proof.
  intros s b U I. destruct (utf8_bytes_encodes s U) as [_ E]. rewrite E in I. apply in_flat_map in I. destruct I as (c & Ic & I).
  apply (encode_below c b); [|exact I]. unfold unicode in U. rewrite Forall_forall in U. auto.
Qed.
Lemma split_at_ff : forall a b x y, (forall c, In c a -> c < 0xFF) -> (forall c, In c b -> c < 0xFF) ->
  a ++ 0xFF :: x = b ++ 0xFF :: y -> a = b.
Proof.
  induction a as [|c a IH]; intros [|c' b] x y Ha Hb E; [reflexivity| | |].
  - simpl in E. injection E as <- _. specialize (Hb 0xFF (or_introl eq_refl)). lia.
  - simpl in E. injection E as -> _. specialize (Ha 0xFF (or_introl eq_refl)). lia.
  - simpl in E. injection E as <- E. f_equal. eapply IH; [| |exact E]; intros; [apply Ha|apply Hb]; simpl; auto.
Qed.

Theorem hashed_iff : forall {T} (a b : forge_entity T) x y, unicode (fe_name a) -> unicode (fe_name b) ->
  entity_hashed a ++ x = entity_hashed b ++ y -> entity_eqb a b = true.
Proof.
  intros T a b x y Ua Ub E. unfold entity_hashed in E. rewrite <- !app_assoc in E. cbn [app] in E.
  apply split_at_ff in E; [|intros; now apply (utf8_below (fe_name a))|intros; now apply (utf8_below (fe_name b))].
  apply entity_eqb_iff. pose proof (utf8_bytes_encodes _ Ua) as A. pose proof (utf8_bytes_encodes _ Ub) as B.
  apply decode_iff in A, B. rewrite E in A. congruence.
Qed.
Theorem hashed_same : forall {T} (a b : forge_entity T), entity_eqb a b = true -> entity_hashed a = entity_hashed b.
Proof. intros T a b E. apply entity_eqb_iff in E. unfold entity_hashed. now rewrite E. Qed.

Theorem eqb_equivalence : forall {T}, (forall a : forge_entity T, entity_eqb a a = true) /\
  (forall a b : forge_entity T, entity_eqb a b = entity_eqb b a) /\
  (forall a b c : forge_entity T, entity_eqb a b = true -> entity_eqb b c = true -> entity_eqb a c = true).
Proof.
  intros T. split; [|split].
  - intros. now apply entity_eqb_iff.
  - intros a b. destruct (entity_eqb a b) eqn:E, (entity_eqb b a) eqn:F; try reflexivity; exfalso.
    + apply entity_eqb_iff in E. symmetry in E. apply entity_eqb_iff in E. congruence.
    + apply entity_eqb_iff in F. symmetry in F. apply entity_eqb_iff in F. congruence.
  - intros a b c E F. apply entity_eqb_iff in E, F. apply entity_eqb_iff. congruence.
Qed.
