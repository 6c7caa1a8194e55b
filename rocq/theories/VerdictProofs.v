(** Which archives are read, rejected or crash the reader: proofs of C140. *)
From Verif Require Import Prelude F32 TextSpec WadModel DiffSpec WadSpec VerdictSpec BaseProofs WadProofs.
Local Open Scope N_scope.

Lemma bind_panics : forall A B (r : res A) (f : A -> res B) w, bind r f = Panic w -> r = Panic w \/ exists x, r = Ok x /\ f x = Panic w.
Proof. intros A B [x|e|w'|] f w H; cbn [bind] in H; [right; eauto|discriminate|left; congruence|discriminate]. Qed.
Lemma bind_errs : forall A B (r : res A) (f : A -> res B) e, bind r f = Err e -> r = Err e \/ exists x, r = Ok x /\ f x = Err e.
Proof. intros A B [x|e'|w'|] f w H; cbn [bind] in H; [right; eauto|left; congruence|discriminate|discriminate]. Qed.
Lemma collect_panics : forall A (l : list (res A)) w, collect_results l = Panic w -> exists w', In (Panic w') l.
Proof.
  intros A l w. unfold collect_results. destruct (task_panic l) as [r|] eqn:E; [intros _; apply task_panic_some in E; destruct E as (w' & _ & I); eauto|].
  intros H. exists w. clear E. induction l as [|r l IH]; cbn [mapM] in H; [discriminate|]. apply bind_panics in H. destruct H as [->|(x & _ & H)]; [now left|].
  apply bind_panics in H. destruct H as [H|(y & _ & H)]; [right; auto|discriminate].
Qed.
Lemma collect_errs : forall A (l : list (res A)) e, collect_results l = Err e -> In (Err e) l.
Proof.
  intros A l e. unfold collect_results. destruct (task_panic l) as [r|] eqn:E; [apply task_panic_some in E; destruct E as (w' & -> & _); discriminate|]. clear E.
  intros H. induction l as [|r l IH]; cbn [mapM] in H; [discriminate|]. apply bind_errs in H. destruct H as [->|(x & _ & H)]; [now left|].
  apply bind_errs in H. destruct H as [H|(y & _ & H)]; [right; auto|discriminate].
Qed.
Lemma fit_panics : forall checks x w, u32_fit checks x = Panic w -> checks = true /\ 2 ^ 32 <= x.
Proof. intros checks x w. unfold u32_fit, u32_modulus. change 4294967296 with (2 ^ 32). destruct (N.ltb_spec x (2 ^ 32)); [discriminate|]. destruct checks; [auto|discriminate]. Qed.
Lemma fit_errs : forall checks x e, u32_fit checks x <> Err e.
Proof. intros checks x e. unfold u32_fit. destruct (x <? u32_modulus); [discriminate|]. destruct checks; discriminate. Qed.
Lemma read_none : forall file off n, read_at file off n = None -> ~ inside file off n.
Proof.
  intros file off n. unfold read_at, inside. destruct (N.eqb_spec n 0) as [->|H]; [discriminate|]. destruct (N.leb_spec (off + n) (N.of_nat (length file))) as [K|K]; [discriminate|].
  intros _ [H'|H']; [congruence|lia].
Qed.
Lemma read_size : forall file off n b, read_at file off n = Some b -> length b = N.to_nat n.
Proof. intros file off n b H. apply read_at_spec in H. destruct H as (H & _). lia. Qed.
Lemma parses : forall A (p : parser A) n b, consumes p n -> length b = n -> p b <> None.
Proof. intros A p n b C L E. destruct (proj1 (C b)) as (x & H); [lia|]. congruence. Qed.

(** ** Entries *)
Lemma entry_panics : forall checks file d wl i w, read_entry checks file d wl i = Panic w -> checks = true /\ 2 ^ 32 <= d + 32 * i.
Proof.
  intros checks file d wl i w H. unfold read_entry, u32_mul, u32_add in H. apply bind_panics in H. destruct H as [H|(s & S & H)]; [apply fit_panics in H; destruct H; split; [assumption|lia]|].
  apply bind_panics in H. destruct H as [H|(a & A & H)].
  - apply fit_panics in H. destruct H as (-> & H). apply u32_fit_spec in S. destruct S as (_ & ->). split; [reflexivity|lia].
  - destruct (read_at file a 32) as [b|]; [|discriminate]. destruct (entry_parser b) as [[? ?]|]; discriminate.
Qed.
Lemma entry_errs : forall checks file d wl i e, read_entry checks file d wl i = Err e -> exists a, address checks (d + 32 * i) a /\ ~ inside file a 32.
Proof.
  intros checks file d wl i e H. unfold read_entry, u32_mul, u32_add in H. apply bind_errs in H. destruct H as [H|(s & S & H)]; [now apply fit_errs in H|].
  apply bind_errs in H. destruct H as [H|(a & A & H)]; [now apply fit_errs in H|]. apply u32_fit_spec in S, A. exists a. split; [apply address_entry; eauto|].
  destruct (read_at file a 32) as [b|] eqn:E; [|now apply read_none]. exfalso. destruct (entry_parser b) as [[? ?]|] eqn:P; [discriminate|]. exact (parses _ _ _ _ entry_consumes (read_size _ _ _ _ E) P).
Qed.

(** ** Pictures *)
Lemma texture_panics : forall file e w, read_mip_texture file e <> Panic w.
Proof. intros file e w. unfold read_mip_texture. destruct (read_at _ _ _) as [b|]; [|discriminate]. destruct (mip_texture_parser b) as [[? ?]|]; discriminate. Qed.
Lemma texture_errs : forall file e x, read_mip_texture file e = Err x -> ~ inside file (en_offset e) 40.
Proof.
  intros file e x. unfold read_mip_texture. destruct (read_at _ _ _) as [b|] eqn:E; [|intros _; now apply read_none]. destruct (mip_texture_parser b) as [[? ?]|] eqn:P; [discriminate|].
  exfalso. exact (parses _ _ _ _ miptex_consumes (read_size _ _ _ _ E) P).
Qed.
Lemma pal_panics : forall checks file ty e m size w, size < 2 ^ 32 -> read_pal checks file ty e m (size / 4 / 4 / 4) = Panic w ->
  checks = true /\ ty = WAD3 /\ 2 ^ 32 <= en_offset e + mt_offset8 m + size / 64 + 2.
Proof.
  intros checks file ty e m size w L H. unfold read_pal, u32_add in H. destruct ty; [discriminate|]. rewrite quarters in H. unfold u32_modulus in H.
  rewrite (N.mod_small (size / 64)) in H by (change 4294967296 with (2 ^ 32); lia).
  apply bind_panics in H. destruct H as [H|(o1 & O1 & H)]; [apply fit_panics in H; destruct H; repeat split; [assumption|lia]|].
  apply bind_panics in H. destruct H as [H|(o2 & O2 & H)].
  { apply fit_panics in H. destruct H as (-> & H). apply u32_fit_spec in O1. destruct O1 as (_ & ->). repeat split. lia. }
  apply bind_panics in H. destruct H as [H|(o3 & O3 & H)].
  { apply fit_panics in H. destruct H as (-> & H). apply u32_fit_spec in O1, O2. destruct O1 as (_ & ->), O2 as (_ & ->). repeat split. lia. }
  destruct (read_at _ _ _) as [b|]; [|discriminate]. destruct (palette_parser b) as [[? ?]|]; discriminate.
Qed.
Lemma pal_errs : forall checks file ty e m size x, size < 2 ^ 32 -> read_pal checks file ty e m (size / 4 / 4 / 4) = Err x ->
  ty = WAD3 /\ exists a, address checks (en_offset e + mt_offset8 m + size / 64 + 2) a /\ ~ inside file a 768.
Proof.
  intros checks file ty e m size x L H. unfold read_pal, u32_add in H. destruct ty; [discriminate|]. split; [reflexivity|]. rewrite quarters in H. unfold u32_modulus in H.
  rewrite (N.mod_small (size / 64)) in H by (change 4294967296 with (2 ^ 32); lia).
  apply bind_errs in H. destruct H as [H|(o1 & O1 & H)]; [now apply fit_errs in H|]. apply bind_errs in H. destruct H as [H|(o2 & O2 & H)]; [now apply fit_errs in H|].
  apply bind_errs in H. destruct H as [H|(o3 & O3 & H)]; [now apply fit_errs in H|]. apply u32_fit_spec in O1, O2, O3. exists o3.
  split; [apply address_add; exists o2; split; [apply address_add; eauto|exact O3]|].
  destruct (read_at file o3 768) as [b|] eqn:E; [|now apply read_none]. exfalso. destruct (palette_parser b) as [[? ?]|] eqn:P; [discriminate|]. exact (parses _ _ _ _ palette_consumes (read_size _ _ _ _ E) P).
Qed.
Lemma mip_body : forall checks file ty e m a size, u32_add checks (en_offset e) (mt_offset1 m) = Ok a -> u32_mul checks (mt_width m) (mt_height m) = Ok size ->
  (read_at file a size = None /\ exists x, read_mip checks file ty 1 (e, m) = Err x)
  \/ exists buf, read_at file a size = Some buf /\ read_mip checks file ty 1 (e, m) = (pal <- read_pal checks file ty e m (size / 4 / 4 / 4) ;; Ok (MipData buf None None None, pal)).
Proof.
  intros checks file ty e m a size A S. rewrite read_mip_eq, A. cbn [bind]. rewrite S. cbn [bind]. rewrite fold_first. destruct (read_at file a size) as [buf|] eqn:E; [|left; split; [reflexivity|eauto]].
  right. exists buf. split; [reflexivity|]. apply read_at_spec in E. destruct E as (L & _). rewrite (slice_all _ _ L). cbn [bind]. rewrite (mip_level_all _ _ L).
  change (1 <? 1) with false. change (2 <? 1) with false. change (3 <? 1) with false. cbn [bind extra_level]. reflexivity.
Qed.
Lemma read_some_inside : forall file off n b, read_at file off n = Some b -> inside file off n.
Proof. intros file off n b H. apply read_at_spec in H. destruct H as (<- & S). now apply stored_inside. Qed.
Lemma mip_panics : forall checks file ty e m w, read_mip checks file ty 1 (e, m) = Panic w ->
  checks = true /\ (2 ^ 32 <= en_offset e + mt_offset1 m \/ 2 ^ 32 <= mt_width m * mt_height m \/
    (ty = WAD3 /\ inside file (en_offset e + mt_offset1 m) (mt_width m * mt_height m) /\ 2 ^ 32 <= en_offset e + mt_offset8 m + mt_width m * mt_height m / 64 + 2)).
Proof.
  intros checks file ty e m w H. destruct (u32_add checks (en_offset e) (mt_offset1 m)) as [a|x|x|] eqn:A.
  2: now apply fit_errs in A. 3: unfold u32_add, u32_fit in A; destruct (_ <? _); [discriminate|destruct checks; discriminate].
  2: apply fit_panics in A; destruct A; split; [assumption|now left].
  destruct (u32_mul checks (mt_width m) (mt_height m)) as [size|x|x|] eqn:S.
  2: now apply fit_errs in S. 3: unfold u32_mul, u32_fit in S; destruct (_ <? _); [discriminate|destruct checks; discriminate].
  2: apply fit_panics in S; destruct S; split; [assumption|right; now left].
  destruct (mip_body checks file ty e m a size A S) as [(_ & x & E)|(buf & R & E)]; rewrite E in H; [discriminate|].
  apply u32_fit_spec in A, S. apply bind_panics in H. destruct H as [H|(pal & _ & H)]; [|discriminate]. apply pal_panics in H; [|now apply address_idem in S]. destruct H as (-> & T & H).
  destruct A as (_ & ->), S as (_ & ->). split; [reflexivity|]. right. right. split; [exact T|]. split; [now apply read_some_inside in R|exact H].
Qed.
Lemma mip_errs : forall checks file ty e m x, read_mip checks file ty 1 (e, m) = Err x ->
  exists size, address checks (mt_width m * mt_height m) size /\ block_outside checks file ty e m size.
Proof.
  intros checks file ty e m x H. destruct (u32_add checks (en_offset e) (mt_offset1 m)) as [a|y|y|] eqn:A.
  2: now apply fit_errs in A. 2, 3: rewrite read_mip_eq, A in H; discriminate H.
  destruct (u32_mul checks (mt_width m) (mt_height m)) as [size|y|y|] eqn:S.
  2: now apply fit_errs in S. 2, 3: rewrite read_mip_eq, A in H; cbn [bind] in H; rewrite S in H; discriminate H.
  exists size. assert (S' := S). assert (A' := A). apply u32_fit_spec in A', S'. split; [exact S'|].
  destruct (mip_body checks file ty e m a size A S) as [(R & _)|(buf & R & E)].
  - left. exists a. split; [exact A'|]. now apply read_none.
  - rewrite E in H. right. apply bind_errs in H. destruct H as [H|(pal & _ & H)]; [|discriminate]. apply pal_errs in H; [exact H|]. now apply address_idem in S'.
Qed.

(** ** Whole archives *)
Lemma in_range : forall n i, In i (range n) -> i < n.
Proof. intros n i H. unfold range in H. apply in_map_iff in H. destruct H as (k & <- & H). apply in_seq in H. lia. Qed.
Lemma header_errs : forall file e, read_header file = Err e -> N.of_nat (length file) < 12.
Proof.
  intros file e. unfold read_header. destruct (read_at file 0 12) as [b|] eqn:E.
  - destruct (header_parser b) as [[? ?]|] eqn:P; [discriminate|]. exfalso. exact (parses _ _ _ _ header_consumes (read_size _ _ _ _ E) P).
  - intros _. apply read_none in E. destruct (N.lt_ge_cases (N.of_nat (length file)) 12) as [H|H]; [exact H|]. exfalso. apply E. right. lia.
Qed.
Lemma header_panics : forall file w, read_header file <> Panic w.
Proof. intros file w. unfold read_header. destruct (read_at _ _ _) as [b|]; [|discriminate]. destruct (header_parser b) as [[? ?]|]; discriminate. Qed.
Lemma type_panics : forall m w, wad_type_of m = Panic w -> forall ty, m <> magic_of ty.
Proof. intros m w H ty ->. rewrite (proj2 (wad_type_ok _ ty) eq_refl) in H. discriminate. Qed.
Lemma type_errs : forall m e, wad_type_of m <> Err e.
Proof. intros m e. unfold wad_type_of. repeat destruct (str_eqb _ _); discriminate. Qed.

Lemma cause_header : forall file h ty, Forall byte file -> read_header file = Ok h -> wad_type_of (h_magic h) = Ok ty -> has_header file ty (h_num_entries h) (h_dir_offset h).
Proof. intros file h ty B H T. apply read_header_ok in H; [|exact B]. destruct H as (hb & H & S). apply wad_type_ok in T. exists hb. split; [|exact S]. rewrite <- T. now destruct h. Qed.
Lemma cause_miptexs : forall file dir mts, Forall byte file -> read_mip_textures file dir = Ok mts -> Forall2 (has_miptex file) dir mts.
Proof. intros file dir mts B H. apply collect_map_ok in H. eapply Forall2_impl; [|exact H]. intros e m E. now apply read_mip_texture_ok in E. Qed.

Lemma panic_cause : forall checks file wl w, Forall byte file -> read_textures checks (Some file) wl 1 = Panic w -> odd_magic file \/ (checks = true /\ overflows file wl).
Proof.
  intros checks file wl w B H. unfold read_textures, read_mip_data in H. change ((1 <=? 1) && (1 <=? 4))%bool with true in H. cbv iota in H.
  apply bind_panics in H. destruct H as [H|(h & Hh & H)]; [now apply header_panics in H|].
  apply bind_panics in H. destruct H as [H|(ty & T & H)].
  { left. pose proof (type_panics _ _ H) as M. apply read_header_ok in Hh; [|exact B]. destruct Hh as (hb & X & S). exists h, hb. auto. }
  right. pose proof (cause_header _ _ _ B Hh T) as HH.
  apply bind_panics in H. destruct H as [H|(dir & D & H)].
  { unfold read_directory in H. apply bind_panics in H. destruct H as [H|(es & _ & H)]; [|discriminate]. apply collect_panics in H. destruct H as (w' & I). apply in_map_iff in I. destruct I as (i & E & I).
    apply entry_panics in E. destruct E as (-> & O). split; [reflexivity|]. exists ty, (h_num_entries h), (h_dir_offset h). split; [exact HH|]. left. exists i. split; [now apply in_range|exact O]. }
  destruct (proj1 (directory_stage checks file ty wl dir B)) as (es & De & ->); [eauto|].
  apply bind_panics in H. destruct H as [H|(mts & M & H)].
  { exfalso. apply collect_panics in H. destruct H as (w' & I). apply in_map_iff in I. destruct I as (e & E & _). now apply texture_panics in E. }
  apply cause_miptexs in M; [|exact B]. apply bind_panics in H. destruct H as [H|(data & _ & H)]; [|discriminate].
  apply collect_panics in H. destruct H as (w' & I). apply in_map_iff in I. destruct I as ((e & m) & E & I). apply mip_panics in E. destruct E as (-> & O). split; [reflexivity|].
  assert (HM : has_miptex file e m) by (clear - I M; induction M as [|x y l r K M IH]; [destruct I|]; destruct I as [I|I]; [injection I as <- <-; exact K|auto]).
  apply in_combine_l in I. apply filter_In in I. destruct I as (I & W). apply wanted_spec in W.
  exists ty, (h_num_entries h), (h_dir_offset h). split; [exact HH|]. right. exists es, e, m. split; [exact De|]. split.
  - intros e' I' W'. destruct (Forall2_in_l _ _ _ _ _ e' M) as (m' & _ & K); [apply filter_In; split; [exact I'|now apply wanted_spec]|]. eauto.
  - auto 6.
Qed.
Lemma error_cause : forall checks file wl x, Forall byte file -> read_textures checks (Some file) wl 1 = Err x -> unreadable checks file wl.
Proof.
  intros checks file wl x B H. unfold read_textures, read_mip_data in H. change ((1 <=? 1) && (1 <=? 4))%bool with true in H. cbv iota in H.
  apply bind_errs in H. destruct H as [H|(h & Hh & H)]; [left; now apply header_errs in H|].
  apply bind_errs in H. destruct H as [H|(ty & T & H)]; [now apply type_errs in H|].
  right. pose proof (cause_header _ _ _ B Hh T) as HH. exists ty, (h_num_entries h), (h_dir_offset h). split; [exact HH|].
  apply bind_errs in H. destruct H as [H|(dir & D & H)].
  { unfold read_directory in H. apply bind_errs in H. destruct H as [H|(es & _ & H)]; [|discriminate]. apply collect_errs in H. apply in_map_iff in H. destruct H as (i & E & I).
    apply entry_errs in E. destruct E as (a & A & O). left. exists i, a. split; [now apply in_range|]. auto. }
  destruct (proj1 (directory_stage checks file ty wl dir B)) as (es & De & ->); [eauto|]. right.
  apply bind_errs in H. destruct H as [H|(mts & M & H)].
  { apply collect_errs in H. apply in_map_iff in H. destruct H as (e & E & I). apply texture_errs in E. apply filter_In in I. destruct I as (I & W). apply wanted_spec in W.
    exists es, e. auto. }
  apply cause_miptexs in M; [|exact B]. apply bind_errs in H. destruct H as [H|(data & _ & H)]; [|discriminate].
  apply collect_errs in H. apply in_map_iff in H. destruct H as ((e & m) & E & I). apply mip_errs in E. destruct E as (size & S & O).
  assert (HM : has_miptex file e m) by (clear - I M; induction M as [|? y l r K M IH]; [destruct I|]; destruct I as [I|I]; [injection I as <- <-; exact K|auto]).
  apply in_combine_l in I. apply filter_In in I. destruct I as (I & W). apply wanted_spec in W. exists es, e. split; [exact De|]. split; [exact I|]. split; [exact W|]. right. exists m, size. auto.
Qed.

Theorem panics_iff : forall checks file wl, Forall byte file -> ((exists w, read_textures checks (Some file) wl 1 = Panic w) <-> odd_magic file \/ (checks = true /\ overflows file wl)).
Proof.
  intros checks file wl B. split; [intros (w & H); now apply panic_cause in H|]. intros [(h & hb & H & S & M)|(-> & O)].
  - apply (bad_magic_panics checks file wl h B); [apply read_header_ok; [exact B|eauto]|exact M].
  - exists overflow. now apply overflow_panics.
Qed.
Theorem errors_iff : forall checks file wl, Forall byte file -> ((exists e, read_textures checks (Some file) wl 1 = Err e) <-> unreadable checks file wl /\ ~ (checks = true /\ overflows file wl)).
Proof.
  intros checks file wl B. split.
  - intros (e & H). split; [now apply error_cause in H|]. intros (-> & O). apply (overflow_panics file wl B) in O. congruence.
  - intros (U & N). destruct (unreadable_err checks file wl B U) as [H|(-> & H)]; [exact H|]. exfalso. destruct (panic_cause _ _ _ _ B H) as [(h & hb & Hb & S & M)|K]; [|auto].
    destruct U as [L|(ty & n & d & HH & _)].
    + apply stored_inside in S. rewrite (header_size _ _ Hb) in S. destruct S as [S|S]; [discriminate S|]. cbn in S. lia.
    + apply (header_magic _ _ _ _ B) in HH. assert (E : read_header file = Ok h) by (apply read_header_ok; [exact B|eauto]). rewrite E in HH. injection HH as ->. now apply (M ty).
Qed.
Theorem reads_iff : forall checks file wl, Forall byte file ->
  ((exists ts, read_textures checks (Some file) wl 1 = Ok ts) <-> ~ odd_magic file /\ ~ (checks = true /\ overflows file wl) /\ ~ unreadable checks file wl).
Proof.
  intros checks file wl B. split.
  - intros (ts & H). split; [|split].
    + intros K. destruct (proj2 (panics_iff checks file wl B) (or_introl K)) as (w & E). congruence.
    + intros K. destruct (proj2 (panics_iff checks file wl B) (or_intror K)) as (w & E). congruence.
    + intros U. exact (unreadable_not_ok _ _ _ _ B U H).
  - intros (M & O & U).
    assert (T : tame checks (read_textures checks (Some file) wl 1)).
    { apply tame_read; [exact B|]. intros h H. apply read_header_ok in H; [|exact B]. destruct H as (hb & H & S). destruct (wad_type_of (h_magic h)) as [ty|e|w|] eqn:E.
      - apply wad_type_ok in E. eauto.
      - now apply type_errs in E.
      - exfalso. apply M. exists h, hb. split; [exact H|]. split; [exact S|]. exact (type_panics _ _ E).
      - exfalso. unfold wad_type_of in E. repeat destruct (str_eqb _ _); discriminate. }
    destruct T as [T|[(e & T)|(_ & T)]]; [exact T| |]; exfalso.
    + apply U. exact (error_cause _ _ _ _ B T).
    + destruct (panic_cause _ _ _ _ B T); auto.
Qed.
