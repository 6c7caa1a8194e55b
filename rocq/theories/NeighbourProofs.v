(** How many sides and corners a brush has: proofs of C127. *)
From Coq Require Import Reals Lra Psatz Lia Permutation.
From Verif Require Import Prelude F32 Text MapModel GeoModel GeoSpec RealSpec WindSpec SolidSpec EdgeSpec NeighbourSpec
  BaseProofs GeoProofs RealProofs WindProofs SolidProofs TouchProofs EdgeProofs ClosedProofs.
Local Open Scope R_scope.

(** ** Planes through three points *)
Lemma normal_along : forall F a b, inner F a = 0 -> inner F b = 0 -> outer F (outer a b) = V3 0 0 0.
Proof. intros F a b A B. rewrite triple_outer, A, B. vectors. f_equal; ring. Qed.
Lemma along_each : forall w F G, w <> V3 0 0 0 -> outer F w = V3 0 0 0 -> outer G w = V3 0 0 0 -> outer F G = V3 0 0 0.
Proof.
  intros w F G N A B. pose proof (inner_pos w N) as P.
  assert (S : forall X, outer X w = V3 0 0 0 -> exists k, X = scaled k w).
  { intros X Z. exists (inner w X / inner w w). pose proof (triple_outer w X w) as T. rewrite Z, outer_null in T.
    pose proof (f_equal vx T) as E1. pose proof (f_equal vy T) as E2. pose proof (f_equal vz T) as E3. unfold scaled, minus in *. cbn [vx vy vz] in *.
    apply v3_ext; cbn [vx vy vz]; apply (Rmult_eq_reg_l (inner w w)); try lra; field_simplify; lra. }
  destruct (S F A) as (x & ->), (S G B) as (y & ->). clear. vectors. f_equal; ring.
Qed.
Lemma parallel_same : forall planes o P Q p, proper P -> deep planes o -> In P planes -> In Q planes -> on_plane P p -> on_plane Q p -> outer (facing P) (facing Q) = V3 0 0 0 -> same_half P Q.
Proof.
  intros planes o P Q p Pp Dp IP IQ Op Op' Par. set (F := facing P) in *. set (G := facing Q) in *.
  assert (NF : F <> V3 0 0 0) by (now apply facing_some). pose proof (inner_pos F NF) as PF.
  pose proof (triple_outer F F G) as T. rewrite Par, outer_null in T.
  set (k := inner F G / inner F F). assert (Ek : G = V3 (k * vx F) (k * vy F) (k * vz F)).
  { pose proof (f_equal vx T) as E1. pose proof (f_equal vy T) as E2. pose proof (f_equal vz T) as E3. unfold scaled, minus in E1, E2, E3. cbn [vx vy vz] in E1, E2, E3.
    apply v3_ext; cbn [vx vy vz]; apply (Rmult_eq_reg_l (inner F F)); try lra; unfold k; field_simplify; lra. }
  assert (Do : forall r, In r planes -> on_plane r p -> inner (facing r) (minus o p) < 0).
  { intros r Ir Or. pose proof (Dp r Ir) as X. unfold on_plane in Or.
    replace (inner (facing r) (minus o p)) with (inner (facing r) (minus o (bp_v0 r)) - inner (facing r) (minus p (bp_v0 r))) by (generalize (facing r); intros; vectors; ring). lra. }
  pose proof (Do P IP Op) as D1. pose proof (Do Q IQ Op') as D2. fold F in D1. fold G in D2.
  split.
  - exists k. split; [|exact Ek]. rewrite Ek in D2. replace (inner (V3 (k * vx F) (k * vy F) (k * vz F)) (minus o p)) with (k * inner F (minus o p)) in D2 by (vectors; ring). nra.
  - assert (Kn : k <> 0) by (intros Z; rewrite Ek, Z in D2; revert D2; vectors; lra).
    unfold on_plane in *. fold F in Op |- *. fold G in Op'. rewrite Ek in Op'.
    replace (inner (V3 (k * vx F) (k * vy F) (k * vz F)) (minus p (bp_v0 Q))) with (k * inner F (minus p (bp_v0 Q))) in Op' by (vectors; ring).
    apply Rmult_integral in Op'. destruct Op' as [Z|Z]; [contradiction|].
    replace (inner F (minus (bp_v0 Q) (bp_v0 P))) with (inner F (minus p (bp_v0 P)) - inner F (minus p (bp_v0 Q))) by (generalize F; intros; vectors; ring). lra.
Qed.
Lemma three_same : forall planes o P Q p q c, proper P -> deep planes o -> In P planes -> In Q planes ->
  on_plane P p -> on_plane P q -> on_plane P c -> on_plane Q p -> on_plane Q q -> on_plane Q c -> clockwise (facing P) p q c -> same_half P Q.
Proof.
  intros planes o P Q p q c Pp Dp IP IQ Op Oq Oc Op' Oq' Oc' C. apply (parallel_same planes o P Q p); auto. apply (along_each (outer (minus q p) (minus c p))).
  - intros Z. unfold clockwise in C. rewrite Z in C. revert C. vectors. lra.
  - apply normal_along; now apply on_both.
  - apply normal_along; now apply on_both.
Qed.

(** ** Brushes *)
Lemma at_face : forall A B (r : A -> B -> Prop) l l', Forall2 r l l' -> forall k y, nth_error l' k = Some y -> exists x, nth_error l k = Some x /\ r x y.
Proof. intros A B r l l' F. induction F as [|x y l l' X F IH]; intros k z Hk; [destruct k; discriminate|]. destruct k; [injection Hk as <-; now exists x|]. now apply IH. Qed.
Lemma next_in : forall A (l : list A) p q, next l p q -> In p l /\ In q l.
Proof. intros A l p q (i & U & V). split; eapply nth_error_In; eassumption. Qed.
Lemma next_one : forall A (l : list A) p q q', NoDup l -> next l p q -> next l p q' -> q = q'.
Proof. intros A l p q q' N (i & U & V) (j & U' & V'). assert (i = j) by (apply (proj1 (NoDup_nth_error l) N); [apply nth_error_Some|]; congruence). congruence. Qed.
Lemma chosen : forall (r : nat -> nat -> Prop) m, (forall k, (k < m)%nat -> exists j, r k j) -> exists l, Forall2 r (seq 0 m) l.
Proof.
  intros r m H. assert (G : forall n s, (s + n <= m)%nat -> exists l, Forall2 r (seq s n) l).
  { induction n as [|n IH]; intros s L; [exists []; constructor|]. destruct (H s ltac:(lia)) as (j & J). destruct (IH (S s) ltac:(lia)) as (l & F). exists (j :: l). now constructor. }
  now apply G.
Qed.

Section Brush.
Context (parse : str -> option R) (cosine radians : R -> R) (atan2 : R -> R -> R)
  (quat : vec3 R -> R -> vec3 R -> vec3 R) (mat2 : R -> vec2 R -> vec2 R).
Local Notation O := (real_num parse cosine radians atan2 quat mat2).
Context (tx : texture_info) (e : entity R) (planes : list (brush_plane R)) (b : brush_geo R) (o : vec3 R).
Context (Eb : build_brush O tx e planes = Ok b) (An : polar_angle atan2)
  (H : forall plane f, In plane planes -> In f (bg_faces b) -> build_face O tx e planes plane = Ok f -> proper plane /\ crisp planes f /\ sharp planes plane)
  (Bd : bounded (solid planes)) (Dp : deep planes o).
Lemma built : Forall2 (fun P f => build_face O tx e planes P = Ok f) planes (bg_faces b).
Proof. exact (faces_of _ _ _ _ _ _ _ _ _ _ Eb H). Qed.
Local Notation pts f := (map vt_pos (f_vertices f)).
Lemma face_on : forall P f, In P planes -> build_face O tx e planes P = Ok f -> forall x, In x (pts f) -> on_plane P x.
Proof. intros P f I E x Ix. now destruct (corner_of _ _ _ _ _ _ _ _ _ _ _ E x Ix) as (_ & _ & _ & _ & _ & _ & Ox & _). Qed.
Lemma face_turn : forall P f, In P planes -> In f (bg_faces b) -> build_face O tx e planes P = Ok f -> forall i j k a c d, (i < j)%nat -> (j < k)%nat ->
    nth_error (pts f) i = Some a -> nth_error (pts f) j = Some c -> nth_error (pts f) k = Some d -> clockwise (facing P) a c d.
Proof. intros P f I If E. destruct (H P f I If E) as (_ & K & _). apply (any_clockwise _ _ _ _ _ _ _ _ _ _ _ E K An). Qed.
Lemma face_nodup : forall f, In f (bg_faces b) -> NoDup (pts f).
Proof. intros f If. destruct (Forall2_in_r _ _ _ _ _ _ built If) as (P & IP & E). apply (real_corners _ _ _ _ _ _ _ _ _ _ _ E). Qed.
Lemma third : forall A (l : list A), NoDup l -> (3 <= length l)%nat -> forall (dec : forall x y : A, {x = y} + {x <> y}) p q, exists c, In c l /\ c <> p /\ c <> q.
Proof.
  intros A [|x [|y [|z l]]] N L dec p q; try (cbn in L; lia). inversion N as [|? ? N1 N2]; subst. inversion N2 as [|? ? N3 N4]; subst. cbn [In] in *.
  assert (x <> y /\ x <> z /\ y <> z) as (D1 & D2 & D3) by intuition congruence.
  destruct (dec x p) as [Xp|Xp], (dec x q) as [Xq|Xq], (dec y p) as [Yp|Yp], (dec y q) as [Yq|Yq];
    first [exists x; split; [auto|split; congruence]|exists y; split; [auto|split; congruence]|exists z; split; [auto|split; congruence]].
Qed.

(** The side of a face run along both ways. *)
Lemma not_both : forall f p q, In f (bg_faces b) -> (3 <= length (f_vertices f))%nat -> edge f p q -> edge f q p -> False.
Proof.
  intros f p q If L E1 E2. destruct (Forall2_in_r _ _ _ _ _ _ built If) as (P & IP & E). rewrite edge_next in E1, E2.
  destruct (third _ (pts f) (face_nodup f If) ltac:(rewrite map_length; exact L) v3_dec p q) as (c & Ic & Np & Nq).
  apply (cw_flip (facing P) p c q).
  - apply cw_turn. apply (next_side (facing P) (pts f) (face_turn P f IP If E) q p c); auto.
  - apply (next_side (facing P) (pts f) (face_turn P f IP If E) p q c); auto.
Qed.

Theorem sides_meet : no_repeats planes -> forall i j f g, nth_error (bg_faces b) i = Some f -> nth_error (bg_faces b) j = Some g ->
  (3 <= length (f_vertices f))%nat -> (3 <= length (f_vertices g))%nat ->
  forall p q p' q', edge f p q -> edge g q p -> edge f p' q' -> edge g q' p' -> p = p' /\ q = q'.
Proof.
  intros Nr i j f g Hi Hj Lf Lg p q p' q' A B A' B'.
  destruct (at_face _ _ _ _ _ built i f Hi) as (P & HP & EP). destruct (at_face _ _ _ _ _ built j g Hj) as (Q & HQ & EQ).
  pose proof (nth_error_In _ _ HP) as IP. pose proof (nth_error_In _ _ HQ) as IQ. pose proof (nth_error_In _ _ Hi) as If. pose proof (nth_error_In _ _ Hj) as Ig.
  destruct (H P f IP If EP) as (Pp & _ & _). rewrite edge_next in A, B, A', B'.
  destruct (next_in _ _ _ _ A) as (A1 & A2). destruct (next_in _ _ _ _ A') as (A3 & A4). destruct (next_in _ _ _ _ B) as (B1 & B2). destruct (next_in _ _ _ _ B') as (B3 & B4).
  assert (No : forall c, In c (pts f) -> In c (pts g) -> c <> p -> c <> q -> False).
  { intros c If' Ig' Np Nq. assert (S : same_half P Q).
    { apply (three_same planes o P Q p q c Pp Dp IP IQ); try (now apply (face_on P f IP EP)); try (now apply (face_on Q g IQ EQ)).
      apply (next_side (facing P) (pts f) (face_turn P f IP If EP)); auto. }
    pose proof (Nr i j P Q HP HQ S) as <-. assert (f = g) as <- by congruence. apply (not_both f p q If Lf); now apply edge_next. }
  destruct (v3_dec p' p) as [->|Np].
  - split; [reflexivity|]. apply (next_one _ _ _ _ _ (face_nodup f If) A A').
  - exfalso. destruct (v3_dec p' q) as [->|Nq]; [|now apply (No p')].
    apply (No q'); auto.
    + intros ->. apply (not_both f p q If Lf); now apply edge_next.
    + intros ->. apply (not_both f q q If Lf); now apply edge_next.
Qed.

Lemma filter_positions : forall A (t : A -> bool) l s, exists ks, length ks = length (filter t l) /\ NoDup ks /\
  (forall k, In k ks <-> exists i x, k = (s + i)%nat /\ nth_error l i = Some x /\ t x = true).
Proof.
  intros A t l. induction l as [|a l IH]; intros s; [exists []; split; [reflexivity|split; [constructor|]]; intros k; split; [intros []|intros (i & x & _ & X & _); destruct i; discriminate]|].
  destruct (IH (S s)) as (ks & L & N & I). cbn [filter]. destruct (t a) eqn:T.
  - exists (s :: ks). split; [cbn; now rewrite L|]. split.
    + constructor; [|exact N]. intros X. apply I in X. destruct X as (i & x & X & _). lia.
    + intros k. cbn [In]. rewrite I. split.
      * intros [<-|(i & x & -> & X & Y)]; [exists 0%nat, a; split; [lia|auto]|exists (S i), x; split; [lia|auto]].
      * intros (i & x & -> & X & Y). destruct i; [left; lia|right; exists i, x; split; [lia|auto]].
  - exists ks. split; [exact L|]. split; [exact N|]. intros k. rewrite I. split.
    + intros (i & x & -> & X & Y). exists (S i), x. split; [lia|auto].
    + intros (i & x & -> & X & Y). destruct i; [injection X as ->; congruence|exists i, x; split; [lia|auto]].
Qed.

Theorem corners_few : no_repeats planes -> forall f, In f (bg_faces b) -> (3 <= length (f_vertices f))%nat -> (length (f_vertices f) < length (shown b))%nat.
Proof.
  intros Nr f If L. apply In_nth_error in If. destruct If as (i & Hi). pose proof (nth_error_In _ _ Hi) as If.
  destruct (filter_positions _ (fun f => (3 <=? length (f_vertices f))%nat) (bg_faces b) 0) as (ks & Lk & Nk & Ik).
  set (m := length (f_vertices f)) in *.
  assert (C : forall k, (k < m)%nat -> exists j, exists p q g, nth_error (pts f) k = Some p /\ next (pts f) p q /\ nth_error (bg_faces b) j = Some g /\ (3 <= length (f_vertices g))%nat /\ edge g q p).
  { intros k Lk'. assert (exists p, nth_error (pts f) k = Some p) as (p & Ep).
    { destruct (nth_error (pts f) k) as [p|] eqn:Ep; [eauto|]. apply nth_error_None in Ep. rewrite map_length in Ep. fold m in Ep. lia. }
    assert (exists q, nth_error (pts f) (S k mod length (pts f)) = Some q) as (q & Eq).
    { destruct (nth_error (pts f) (S k mod length (pts f))) as [q|] eqn:Eq; [eauto|]. apply nth_error_None in Eq. pose proof (Nat.mod_upper_bound (S k) (length (pts f))) as X. rewrite map_length in *. fold m in X, Eq. lia. }
    assert (N : next (pts f) p q) by (exists k; auto).
    destruct (edges_shared _ _ _ _ _ _ _ _ _ _ _ Eb An H Bd Dp f p q If L ltac:(now apply edge_next)) as (g & Ig & Lg & Eg). apply In_nth_error in Ig. destruct Ig as (j & Hj).
    exists j, p, q, g. auto. }
  destruct (chosen _ m C) as (js & F).
  assert (Lj : length js = m) by (rewrite <- (Forall2_length _ _ _ _ _ F); apply seq_length).
  assert (Inj : NoDup (i :: js)).
  { constructor.
    - intros I. destruct (Forall2_in_r _ _ _ _ _ _ F I) as (k & _ & p & q & g & _ & N & Hg & Lg & Eg). assert (g = f) as -> by congruence.
      apply (not_both f p q If L); [now apply edge_next|exact Eg].
    - apply NoDup_nth_error. intros a c La E. assert (Lc : (c < length js)%nat) by (apply nth_error_Some; rewrite <- E; now apply nth_error_Some).
      destruct (nth_error js a) as [j|] eqn:Ea; [|apply nth_error_None in Ea; lia]. symmetry in E.
      destruct (at_face _ _ _ _ _ F a j Ea) as (x & Hx & p & q & g & Ep & N & Hg & Lg & Eg). destruct (at_face _ _ _ _ _ F c j E) as (x' & Hx' & p' & q' & g' & Ep' & N' & Hg' & _ & Eg').
      assert (g' = g) as -> by congruence.
      assert (Sq : forall k y, nth_error (seq 0 m) k = Some y -> y = k).
      { intros k y Hk. assert (Lk' : (k < m)%nat) by (rewrite <- (seq_length m 0); apply nth_error_Some; congruence). rewrite (nth_error_nth' _ 0%nat) in Hk by now rewrite seq_length.
        rewrite seq_nth in Hk by exact Lk'. injection Hk as <-. reflexivity. }
      apply Sq in Hx, Hx'. subst x x'.
      destruct (sides_meet Nr i j f g Hi Hg L Lg p q p' q') as (Epp & _); try assumption; try (now apply edge_next). subst p'.
      apply (proj1 (NoDup_nth_error _) (face_nodup f If)); [apply nth_error_Some; congruence|congruence]. }
  assert (Sub : incl (i :: js) ks).
  { intros k [<-|I]; apply Ik.
    - exists i, f. split; [reflexivity|]. split; [exact Hi|now apply Nat.leb_le].
    - destruct (Forall2_in_r _ _ _ _ _ _ F I) as (x & _ & p & q & g & _ & N & Hg & Lg & Eg). exists k, g. split; [reflexivity|]. split; [exact Hg|now apply Nat.leb_le]. }
  pose proof (NoDup_incl_length Inj Sub) as X. cbn [length] in X. unfold shown. rewrite Lj, Lk in X. lia.
Qed.

Theorem shown_four : no_repeats planes -> (4 <= length (shown b) <= length planes)%nat.
Proof.
  intros Nr. split.
  - destruct (volume_positive _ _ _ _ _ _ _ _ _ _ _ Eb An H Bd Dp Nr) as (v & V & S).
    assert (exists f, In f (bg_faces b) /\ (3 <= length (f_vertices f))%nat) as (f & If & L).
    { destruct (all_triangles (bg_faces b)) as [|t l] eqn:E; [specialize (S o); cbn in S; lra|]. assert (I : In t (all_triangles (bg_faces b))) by (rewrite E; now left).
      unfold all_triangles in I. apply in_flat_map in I. destruct I as (f & If & I). exists f. split; [exact If|]. destruct (Forall2_in_r _ _ _ _ _ _ built If) as (P & IP & Ef).
      fold (face_triangles f) in I. rewrite (triangles_fan _ _ _ _ _ _ _ _ _ _ _ Ef) in I. destruct (points f) as [|a r] eqn:Ep; [destruct I|]. destruct (length (a :: r) <? 3)%nat eqn:X; [destruct I|].
      apply Nat.ltb_ge in X. rewrite <- Ep in X. unfold points in X. now rewrite map_length in X. }
    pose proof (corners_few Nr f If L). lia.
  - unfold shown. rewrite (Forall2_length _ _ _ _ _ built). clear. induction (bg_faces b) as [|f l IH]; [constructor|]. cbn [filter length]. destruct (3 <=? length (f_vertices f))%nat; cbn [length]; lia.
Qed.
End Brush.
