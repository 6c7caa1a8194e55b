(** Axis-aligned integer boxes are built exactly (C18): faces and brushes. *)
From Coq Require Import SpecFloat Reals Lra Lia Permutation.
From Flocq Require Import Core.
From Verif Require Import Prelude F32 Text MapModel GeoModel GatherSpec GeoSpec BaseProofs FloatProofs ColorProofs GatherProofs
  GeoProofs ExactProofs DegenerateProofs BoxSpec BoxProofs.
Local Close Scope R_scope.
Local Open Scope Z_scope.

Lemma choose_all : forall A B (R : A -> B -> Prop) l, (forall x, In x l -> exists y, R x y) -> exists m, Forall2 R l m.
Proof.
  intros A B R. induction l as [|a l IH]; intros H; [exists []; constructor|].
  destruct (H a (or_introl eq_refl)) as [y Hy]. destruct IH as [m Hm]; [intros; apply H; now right|]. exists (y :: m). now constructor.
Qed.

Lemma zext : forall a b : vec3 Z, vx a = vx b -> vy a = vy b -> vz a = vz b -> a = b.
Proof. intros [x y z] [x' y' z'] A B C. cbn in *. congruence. Qed.
Fixpoint total (l : list (vec3 Z)) : vec3 Z := match l with [] => V3 0 0 0 | x :: t => zplus x (total t) end.
Ltac zring := apply zext; cbn [total zplus zminus ztimes vx vy vz]; ring.
Lemma total_perm : forall l l', Permutation l l' -> total l = total l'.
Proof.
  intros l l' P. induction P; cbn [total]; [reflexivity|now rewrite IHP| |congruence].
  zring.
Qed.

Section Box.
Context (p : platform).
Local Notation O := (f32_num p).

Lemma halves_of : forall v k, at_ints v k <-> at_halves v (ztimes 2 k).
Proof. intros v k. unfold at_ints, at_halves. cbn [ztimes vx vy vz]. rewrite !int_half. tauto. Qed.

Lemma sum_exact : forall s l r S Ks B, sum_from O s l r -> at_halves s S -> Forall2 at_halves l Ks ->
  coords (fun c => Z.abs c <= B) S -> (forall K, In K Ks -> coords (fun c => Z.abs c <= 2 ^ 21) K) ->
  B + Z.of_nat (length l) * 2 ^ 21 < 2 ^ 24 -> at_halves r (zplus S (total Ks)).
Proof.
  intros s l r S Ks B H. revert S Ks B. induction H as [s|s x l r H IH]; intros S Ks B Hs F Bs Bk N.
  - inv F. replace (zplus S (total [])) with S by zring. exact Hs.
  - inv F. rename y into K. rename l' into Ks.
    assert (G : coords (fun c => Z.abs c <= 2 ^ 21) K) by (apply Bk; now left).
    replace (zplus S (total (K :: Ks))) with (zplus (zplus S K) (total Ks))
      by zring.
    cbn [length] in N. destruct Bs as (B1 & B2 & B3). destruct G as (G1 & G2 & G3).
    apply (IH _ _ (B + 2 ^ 21)).
    + destruct Hs as (A1 & A2 & A3).
      match goal with X : at_halves x K |- _ => destruct X as (C1 & C2 & C3) end.
      split; [|split]; cbn [v3_add zplus vx vy vz n_add f32_num]; apply half_add; auto; lia.
    + assumption.
    + repeat split; cbn [zplus vx vy vz]; lia.
    + intros; apply Bk; now right.
    + lia.
Qed.

Lemma mean_exact : forall l c Ks C, is_mean O l c -> Forall2 at_halves l Ks -> (forall K, In K Ks -> coords (fun c => Z.abs c <= 2 ^ 21) K) ->
  (0 < length l < 8)%nat -> total Ks = ztimes (Z.of_nat (length l)) C -> coords (fun c => Z.abs c < 2 ^ 24) C -> at_halves c C.
Proof.
  intros l c Ks C (s & S & ->) F B N T (B1 & B2 & B3).
  assert (Hs : at_halves s (ztimes (Z.of_nat (length l)) C)).
  { rewrite <- T. replace (total Ks) with (zplus (V3 0 0 0) (total Ks)) by zring.
    apply (sum_exact _ _ _ _ _ 0 S); [|exact F| |exact B|lia].
    - assert (Z0 : half f32_zero 0) by (split; [apply fin_zero|rewrite val_zero; lra]). repeat split; apply Z0.
    - repeat split; cbn; lia. }
  assert (Hn : int (n_of_N O (N.of_nat (Nat.max (length l) 1))) (Z.of_nat (length l))).
  { replace (Z.of_nat (length l)) with (Z.of_N (N.of_nat (Nat.max (length l) 1))) by lia. apply int_of_N. lia. }
  destruct Hs as (A1 & A2 & A3). split; [|split]; cbn [v3_divs vx vy vz n_div f32_num].
  - eapply div_half; [exact A1|exact Hn|lia|reflexivity|exact B1].
  - eapply div_half; [exact A2|exact Hn|lia|reflexivity|exact B2].
  - eapply div_half; [exact A3|exact Hn|lia|reflexivity|exact B3].
Qed.

Lemma same_place : forall x y X, at_ints x X -> at_ints y X -> pos_eq O x y.
Proof.
  intros x y X (A & B & C) (D & E & F).
  split; [|split]; unfold num_eq; change (n_cmp O) with f32_cmp; (erewrite cmp_ints; [|eassumption|eassumption]); now rewrite Z.compare_refl.
Qed.

Lemma place_same : forall x y X Y, at_ints x X -> at_ints y Y -> pos_eq O x y -> X = Y.
Proof.
  intros x y [a b c] [a' b' c'] (A & B & C) (D & E & F) (G & H & I). cbn [vx vy vz] in *. unfold num_eq in *. change (n_cmp O) with f32_cmp in *.
  erewrite cmp_ints in G; [|eassumption|eassumption]. erewrite cmp_ints in H; [|eassumption|eassumption].
  erewrite cmp_ints in I; [|eassumption|eassumption]. injection G as G. injection H as H. injection I as I.
  apply Z.compare_eq in G. apply Z.compare_eq in H. apply Z.compare_eq in I. congruence.
Qed.

Lemma corners_nodup : forall lo hi s, box lo hi -> NoDup (side_corners lo hi s).
Proof.
  intros [x y z] [x' y' z'] s (A & B & C & _). cbn [vx vy vz] in *.
  destruct s; cbn [side_corners vx vy vz]; repeat constructor; cbn [In]; intros H;
    repeat match goal with H : _ \/ _ |- _ => destruct H end; try contradiction;
    match goal with E : _ = _ |- _ => injection E; intros; lia end.
Qed.

Lemma raw_exact : forall lo hi b s k plane raw, box lo hi -> box_brush p lo hi b -> box_plane lo hi s k plane -> exact_length p k ->
  corner_set O b plane raw -> exists Xs, Forall2 (fun v X => at_ints (vt_pos v) X) raw Xs /\ Permutation Xs (side_corners lo hi s).
Proof.
  intros lo hi b s k plane raw Bx Bb Hp Hk (M1 & M2 & M3).
  destruct (choose_all _ _ (fun v X => In X (side_corners lo hi s) /\ at_ints (vt_pos v) X) raw) as [Xs F].
  { intros v Hv. eapply meeting_corner; eauto. }
  assert (F' : Forall2 (fun v X => at_ints (vt_pos v) X) raw Xs) by (eapply Forall2_impl; [|exact F]; cbv beta; tauto).
  exists Xs. split; [exact F'|]. apply NoDup_Permutation.
  - rewrite NoDup_nth_error. intros i j Hi Hij. rewrite <- (Forall2_length _ _ _ _ _ F') in Hi.
    destruct (nth_error raw i) as [u|] eqn:Eu; [|apply nth_error_None in Eu; lia].
    assert (G : forall i u, nth_error raw i = Some u -> exists X, nth_error Xs i = Some X /\ at_ints (vt_pos u) X).
    { clear - F'. induction F' as [|a X l Ls H F IH]; intros [|i] u E; try discriminate; simpl in E.
      - injection E as ->. exists X. auto.
      - apply IH. exact E. }
    destruct (G i u Eu) as (X & EX & Hu). rewrite EX in Hij. symmetry in Hij.
    assert (Lj : (j < length raw)%nat) by (rewrite (Forall2_length _ _ _ _ _ F'); apply nth_error_Some; congruence).
    destruct (nth_error raw j) as [w|] eqn:Ew; [|apply nth_error_None in Ew; lia].
    destruct (G j w Ew) as (Y & EY & Hw). assert (Y = X) by congruence. subst Y.
    destruct (Nat.lt_trichotomy i j) as [Lt|[Eq|Gt]]; [|exact Eq|].
    + exfalso. apply (M3 i j u w Lt Eu Ew). eapply same_place; eassumption.
    + exfalso. apply (M3 j i w u Gt Ew Eu). eapply same_place; eassumption.
  - apply corners_nodup. exact Bx.
  - intros X. split; intros HX.
    + destruct (Forall2_in_r _ _ _ _ _ _ F HX) as (v & _ & H & _). exact H.
    + destruct (corner_meeting p lo hi b s k plane X Bx Bb Hp Hk HX) as (x & Mx & Ax). destruct (M2 x Mx) as (v & Hv & E).
      destruct (Forall2_in_l _ _ _ _ _ _ F' Hv) as (Y & HY & AY). cbv beta in AY.
      replace X with Y; [exact HY|]. destruct E as [E|E].
      * eapply place_same; [exact AY|exact Ax|]. rewrite E. eapply same_place; eassumption.
      * symmetry. eapply place_same; eassumption.
Qed.

Lemma side_total : forall lo hi s, total (side_corners lo hi s) = ztimes 2 (side_center2 lo hi s).
Proof. intros [x y z] [x' y' z'] s. destruct s; apply zext; cbn [side_corners side_center2 total zplus ztimes vx vy vz]; ring. Qed.
Lemma total_twice : forall l, total (map (ztimes 2) l) = ztimes 2 (total l).
Proof.
  induction l as [|x l IH]; [reflexivity|]. cbn [map total]. rewrite IH. zring.
Qed.
Lemma center_small : forall lo hi s, box lo hi -> coords (fun c => Z.abs c <= 2 ^ 21) (side_center2 lo hi s).
Proof. intros lo hi s (_ & _ & _ & (A & B & C) & (D & E & F)). destruct s; repeat split; cbn [side_center2 vx vy vz]; lia. Qed.

Theorem face_exact : forall lo hi b s k plane tx e f, box lo hi -> box_brush p lo hi b -> box_plane lo hi s k plane -> exact_length p k ->
  build_face O tx e b plane = Ok f ->
  (exists Xs, Permutation Xs (side_corners lo hi s) /\ Forall2 (fun v X => at_ints (vt_pos v) X) (f_vertices f) Xs)
  /\ at_halves (f_center f) (side_center2 lo hi s)
  /\ (~ phong e -> forall v, In v (f_vertices f) -> at_ints (vt_normal v) (outward s)).
Proof.
  intros lo hi b s k plane tx e f Bx Bb Hp Hk E.
  destruct (face_corners_built O (f32_eq_laws p) tx e b plane f E) as (raw & centred & sorted & M & C & F1 & P & F2 & _).
  destruct (raw_exact lo hi b s k plane raw Bx Bb Hp Hk M) as (Xs & F & PX).
  assert (BX : forall X, In X Xs -> coords (fun c => Z.abs c <= 2 ^ 20) X).
  { intros X HX. apply (Permutation_in _ PX) in HX. eapply (corner_inside lo hi s X s); eassumption. }
  assert (Len : length raw = 4%nat) by (rewrite (Forall2_length _ _ _ _ _ F), (Permutation_length PX); destruct s; reflexivity).
  assert (HC : at_halves (f_center f) (side_center2 lo hi s)).
  { apply (mean_exact (map vt_pos raw) _ (map (ztimes 2) Xs)); [exact C| | | | |].
    - clear - F. induction F; cbn [map]; constructor; [now apply halves_of|assumption].
    - intros K HK. apply in_map_iff in HK. destruct HK as (X & <- & HX). destruct (BX X HX) as (B1 & B2 & B3).
      repeat split; cbn [ztimes vx vy vz]; lia.
    - rewrite map_length, Len. lia.
    - rewrite map_length, Len, total_twice, (total_perm _ _ PX), side_total. zring.
    - pose proof (center_small lo hi s Bx) as (B1 & B2 & B3). repeat split; lia. }
  split; [|split; [exact HC|]].
  - pose proof (center_small lo hi s Bx) as (B1 & B2 & B3). destruct HC as (C1 & C2 & C3).
    assert (G1 : Forall2 (fun v X => at_halves (vt_pos v) (zminus (ztimes 2 X) (side_center2 lo hi s)) /\ coords (fun c => Z.abs c <= 2 ^ 20) X) centred Xs).
    { clear - F F1 BX B1 B2 B3 C1 C2 C3. revert Xs F BX. induction F1 as [|u w l l' H F1 IH]; intros Xs F BX; inv F; constructor.
      - rename y into X. destruct H as (-> & _). assert (G : coords (fun c => Z.abs c <= 2 ^ 20) X) by (apply BX; now left). split; [|exact G].
        match goal with A : at_ints _ X |- _ => apply halves_of in A; destruct A as (A1 & A2 & A3) end.
        destruct G as (G1 & G2 & G3).
        split; [|split]; cbn [v3_sub zminus vx vy vz n_sub f32_num]; (apply half_sub; [assumption|assumption|cbn [ztimes vx vy vz]; lia]).
      - apply IH; [assumption|]. intros; apply BX; now right. }
    destruct (Permutation_Forall2 P G1) as (Ys & PY & G2). exists Ys. split.
    + eapply Permutation_trans; [apply Permutation_sym; exact PY|exact PX].
    + clear - G2 F2 B1 B2 B3 C1 C2 C3. revert Ys G2. induction F2 as [|u w l l' H F2 IH]; intros Ys G2; inv G2; constructor.
      * rename y into X. destruct H as (-> & _). match goal with A : _ /\ _ |- _ => destruct A as [(A1 & A2 & A3) (G1 & G2 & G3)] end.
        apply halves_of. replace (ztimes 2 X) with (zplus (zminus (ztimes 2 X) (side_center2 lo hi s)) (side_center2 lo hi s))
          by zring.
        split; [|split]; cbn [v3_add zplus vx vy vz n_add f32_num]; (apply half_add; [assumption|assumption|cbn [zminus ztimes vx vy vz]; lia]).
      * apply IH. assumption.
  - intros N v Hv. rewrite (flat_normals O tx e b plane f v E Hv N). eapply normal_exact; eassumption.
Qed.

Lemma normal_plain : forall lo hi s k pl, box_plane lo hi s k pl -> exact_length p k -> plain_normal p pl.
Proof. intros lo hi s k pl H X. destruct (normal_exact p _ _ _ _ _ H X) as ((A & _) & (B & _) & (C & _)). repeat split; first [apply A|apply B|apply C]. Qed.

Theorem face_built : forall lo hi b s k plane tx e, box lo hi -> box_brush p lo hi b -> box_plane lo hi s k plane -> exact_length p k ->
  exists f, build_face O tx e b plane = Ok f.
Proof. intros lo hi b s k plane tx e Bx Bb Hp Hk. apply face_total. intros _ _ _. eapply normal_plain; eassumption. Qed.

(** ** The centre of the brush *)
Lemma sides_total : forall lo hi, total (map (side_center2 lo hi) all_sides) = ztimes 6 (box_center2 lo hi).
Proof. intros [x y z] [x' y' z']. apply zext; cbn [all_sides map side_center2 box_center2 total zplus ztimes vx vy vz]; ring. Qed.

Theorem brush_exact : forall lo hi b sides tx e, box lo hi ->
  Forall2 (fun pl s => exists k, box_plane lo hi s k pl /\ exact_length p k) b sides -> Permutation sides all_sides ->
  exists g, build_brush O tx e b = Ok g /\ length (bg_faces g) = 6%nat /\ at_halves (bg_center g) (box_center2 lo hi).
Proof.
  intros lo hi b sides tx e Bx F P.
  assert (Bb : box_brush p lo hi b).
  { split.
    - intros pl Hpl. destruct (Forall2_in_l _ _ _ _ _ _ F Hpl) as (s & _ & k & H). eauto.
    - intros s. assert (Hs : In s sides) by (apply (Permutation_in _ (Permutation_sym P)); destruct s; cbn; tauto).
      destruct (Forall2_in_r _ _ _ _ _ _ F Hs) as (pl & Hpl & k & H). exists pl, k. tauto. }
  assert (Len : length b = 6%nat) by (rewrite (Forall2_length _ _ _ _ _ F), (Permutation_length P); reflexivity).
  unfold build_brush. destruct (mapM_total _ _ (build_face O tx e b) b) as [fs Ef].
  { intros pl Hpl. destruct (Forall2_in_l _ _ _ _ _ _ F Hpl) as (s & _ & k & H1 & H2). eapply face_built; eassumption. }
  rewrite Ef. cbn [bind]. eexists. split; [reflexivity|]. cbn [bg_faces bg_center]. apply mapM_ok in Ef.
  assert (Lf : length fs = 6%nat) by (rewrite <- (Forall2_length _ _ _ _ _ Ef); exact Len). split; [exact Lf|].
  apply (mean_exact (map f_center fs) _ (map (side_center2 lo hi) sides)); [apply mean_is| | | | |].
  - clear P Len Lf. assert (G : forall l, Forall2 (fun pl f => build_face O tx e b pl = Ok f) l fs ->
       Forall2 (fun pl s => exists k, box_plane lo hi s k pl /\ exact_length p k) l sides -> Forall2 at_halves (map f_center fs) (map (side_center2 lo hi) sides)).
    { intros l H. clear Ef F. revert sides. induction H as [|pl f l fs E H IH]; intros sides G; inv G; cbn [map]; constructor.
      - match goal with A : exists k, _ |- _ => destruct A as (k & H1 & H2) end.
        apply (face_exact lo hi b y k pl tx e f Bx Bb H1 H2 E).
      - eapply IH; eassumption. }
    apply (G b); assumption.
  - intros K HK. apply in_map_iff in HK. destruct HK as (s & <- & _). apply center_small. exact Bx.
  - rewrite map_length, Lf. lia.
  - rewrite map_length, Lf. rewrite (total_perm _ _ (Permutation_map (side_center2 lo hi) P)). apply sides_total.
  - destruct Bx as (_ & _ & _ & (A & B & C) & (D & E & F')). repeat split; cbn [box_center2 vx vy vz]; lia.
Qed.
End Box.

Theorem box_face_c18 : forall p lo hi b s area plane tx e, box lo hi -> box_brush p lo hi b ->
  box_plane lo hi s area plane -> exact_length p area ->
  exists f, build_face (f32_num p) tx e b plane = Ok f
    /\ (exists corners, Permutation corners (side_corners lo hi s) /\ Forall2 (fun v X => at_ints (vt_pos v) X) (f_vertices f) corners)
    /\ at_halves (f_center f) (side_center2 lo hi s)
    /\ (~ phong e -> forall v, In v (f_vertices f) -> at_ints (vt_normal v) (outward s)).
Proof.
  intros p lo hi b s k plane tx e Bx Bb Hp Hk. destruct (face_built p lo hi b s k plane tx e Bx Bb Hp Hk) as [f E].
  exists f. split; [exact E|]. eapply face_exact; eassumption.
Qed.
