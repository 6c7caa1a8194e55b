(** Triangles in single precision cover the sides: lemmas for C107. *)
From Coq Require Import Reals Lra Lia ZArith Permutation Psatz Classical.
From Flocq Require Import Core.
From Verif Require Import Prelude F32 Text MapModel GeoModel SceneModel NumberSpec GeoSpec RealSpec WindSpec ErrorSpec CornerSpec MeanSpec SolidSpec WoundSpec TriangleSpec SharedSpec CoverSpec
  BaseProofs FloatProofs NumberProofs ColorProofs ArithProofs ExactProofs GeoProofs GeoFinal ErrorProofs ErrorFinal NormalProofs CornerProofs MeanProofs WindProofs SolidProofs WoundProofs TriangleProofs SharedProofs.
Local Open Scope R_scope.

(** ** The fan of a convex polygon *)
Lemma first_true : forall (P : nat -> Prop) n, P n -> exists m, (m <= n)%nat /\ P m /\ forall k, (k < m)%nat -> ~ P k.
Proof.
  intros P n. induction n as [n IH] using lt_wf_ind. intros H. destruct (classic (exists k, (k < n)%nat /\ P k)) as [(k & L & K)|N].
  - destruct (IH k L K) as (m & A & B). exists m. split; [lia|exact B].
  - exists n. split; [lia|]. split; [exact H|]. intros k L K. apply N. eauto.
Qed.
Lemma last_true : forall (P : nat -> Prop) n m, P m -> (m <= n)%nat -> exists k, (m <= k <= n)%nat /\ P k /\ forall j, (k < j <= n)%nat -> ~ P j.
Proof.
  intros P n m H L. destruct (first_true (fun i => P (n - i)%nat) (n - m)) as (i & A & B & C); [now replace (n - (n - m))%nat with m by lia|].
  exists (n - i)%nat. split; [lia|]. split; [exact B|]. intros j J Q. apply (C (n - j)%nat); [lia|]. now replace (n - (n - j))%nat with j by lia.
Qed.
Lemma strict_change : forall (f : nat -> vec3 R) (g : vec3 R -> R) k m, g (f m) <= 0 -> 0 <= g (f (m + k)%nat) -> f m <> f (m + k)%nat ->
  exists i, (m <= i < m + k)%nat /\ f i <> f (S i) /\ g (f i) <= 0 /\ 0 <= g (f (S i)).
Proof.
  intros f g k. induction k as [|k IH]; intros m A B N; [rewrite Nat.add_0_r in N; now elim N|].
  replace (m + S k)%nat with (S m + k)%nat in * by lia.
  destruct (classic (f m = f (S m))) as [E|E].
  - destruct (IH (S m)) as (i & L & H); [now rewrite <- E|exact B|now rewrite <- E|]. exists i. split; [lia|exact H].
  - destruct (Rle_or_lt 0 (g (f (S m)))) as [Q|Q]; [exists m; split; [lia|auto]|].
    destruct (IH (S m)) as (i & L & H); [lra|exact B|intros Z; rewrite Z in Q; lra|]. exists i. split; [lia|exact H].
Qed.

Section Fan.
Context (plane : brush_plane R) (pts : list (vec3 R)).
Local Notation F := (facing plane).
Context (flat : forall x, In x pts -> inner F x = inner F (bp_v0 plane)).
Context (turning : forall i j k x y z, (i < j)%nat -> (j < k)%nat -> nth_error pts i = Some x -> nth_error pts j = Some y -> nth_error pts k = Some z ->
  x <> y -> y <> z -> x <> z -> clockwise F x y z).

(** Points may be repeated. *)
Lemma fan_covered : forall x, three (fun y => In y pts) -> in_hull pts x ->
  exists i a b d, nth_error pts 0 = Some a /\ nth_error pts (i + 1) = Some b /\ nth_error pts (i + 2) = Some d /\ in_triangle a b d x.
Proof.
  intros x T H.
  assert (Get : forall k, (k < length pts)%nat -> nth_error pts k = Some (nth k pts (V3 0 0 0))) by (intros; now apply nth_error_nth').
  assert (Px : inner F x = inner F (bp_v0 plane)) by (rewrite (weighted_plane plane _ _ _ _ H flat); ring).
  set (at_ k := nth k pts (V3 0 0 0)) in *. set (a := at_ 0%nat).
  assert (Has : forall y, In y pts -> exists k, (k < length pts)%nat /\ at_ k = y).
  { intros y I. apply In_nth_error in I. destruct I as (k & Hk). assert (Lk : (k < length pts)%nat) by (apply nth_error_Some; congruence).
    rewrite (Get k Lk) in Hk. injection Hk as <-. exists k. auto. }
  assert (All : forall (Q : vec3 R -> Prop), (forall k, (k < length pts)%nat -> Q (at_ k)) -> forall y, In y pts -> Q y).
  { intros Q HQ y I. destruct (Has y I) as (k & Lk & <-). auto. }
  assert (Cw : forall i j k, (i < j)%nat -> (j < k)%nat -> (k < length pts)%nat -> at_ i <> at_ j -> at_ j <> at_ k -> at_ i <> at_ k -> area plane (at_ i) (at_ j) (at_ k) < 0).
  { intros i j k A B C N1 N2 N3. apply (turning i j k); auto; apply Get; lia. }
  assert (Cw0 : forall i j k, (i < j)%nat -> (j < k)%nat -> (k < length pts)%nat -> area plane (at_ i) (at_ j) (at_ k) <= 0).
  { intros i j k A B C. destruct (classic (at_ i = at_ j)) as [->|N1]; [apply Req_le, area_same|]. destruct (classic (at_ j = at_ k)) as [->|N2]; [apply Req_le, area_same|].
    destruct (classic (at_ i = at_ k)) as [->|N3]; [apply Req_le, area_same|]. left. now apply Cw. }
  (* two others than the first point *)
  assert (Two : exists k l, (k < l)%nat /\ (l < length pts)%nat /\ at_ k <> a /\ at_ l <> a /\ at_ k <> at_ l).
  { destruct T as (t1 & t2 & t3 & I1 & I2 & I3 & N12 & N23 & N13). destruct (Has _ I1) as (k1 & L1 & E1). destruct (Has _ I2) as (k2 & L2 & E2). destruct (Has _ I3) as (k3 & L3 & E3).
    assert (Sort : forall k l, (k < length pts)%nat -> (l < length pts)%nat -> at_ k <> a -> at_ l <> a -> at_ k <> at_ l -> exists k l, (k < l)%nat /\ (l < length pts)%nat /\ at_ k <> a /\ at_ l <> a /\ at_ k <> at_ l).
    { intros k l Lk Ll A B N. destruct (Nat.lt_trichotomy k l) as [C|[->|C]]; [exists k, l; auto|now elim N|]. exists l, k. auto. }
    destruct (classic (t1 = a)) as [Q|Q1]; [apply (Sort k2 k3); auto; congruence|]. destruct (classic (t2 = a)) as [Q|Q2]; [apply (Sort k1 k3); auto; congruence|apply (Sort k1 k2); auto; congruence]. }
  destruct Two as (k & l & Lkl & Ll & Nk & Nl & Nkl).
  destruct (first_true (fun i => at_ i <> a) k Nk) as (m & Lm & Nm & Fm). destruct (last_true (fun i => at_ i <> a) (length pts - 1) l Nl ltac:(lia)) as (M & LM & NM & FM).
  assert (M0 : (0 < m)%nat) by (destruct m; [now elim Nm|lia]).
  assert (Fm' : forall i, (i < m)%nat -> at_ i = a) by (intros i Li; apply NNPP, Fm, Li).
  assert (FM' : forall i, (M < i)%nat -> (i < length pts)%nat -> at_ i = a) by (intros i Li Li'; apply NNPP, FM; lia).
  assert (NmM : at_ m <> at_ M).
  { intros E. assert (O : exists c, (m < c < M)%nat /\ at_ c <> a /\ at_ c <> at_ m).
    { destruct (classic (at_ k = at_ m)) as [Q|Q]; [exists l|exists k]; (split; [|split; congruence]).
      - split; [lia|]. destruct (Nat.eq_dec l M) as [->|]; [congruence|lia].
      - split; [|lia]. destruct (Nat.eq_dec m k) as [->|]; [congruence|lia]. }
    destruct O as (o & Lo & No & Nom).
    assert (A1 : area plane a (at_ m) (at_ o) < 0) by (apply (Cw 0%nat m o); [lia|lia|lia|exact (not_eq_sym Nm)|exact (not_eq_sym Nom)|exact (not_eq_sym No)]).
    assert (A2 : area plane a (at_ o) (at_ M) < 0) by (apply (Cw 0%nat o M); [lia|lia|lia|exact (not_eq_sym No)|congruence|exact (not_eq_sym NM)]).
    rewrite <- E, area_flip in A2. lra. }
  assert (Mid : forall i, (m <= i <= M)%nat -> at_ i <> a).
  { intros i Li E. assert (i <> m) by congruence. assert (i <> M) by congruence.
    assert (A1 : area plane (at_ m) (at_ i) (at_ M) < 0) by (apply Cw; try lia; congruence).
    assert (A2 : area plane a (at_ m) (at_ M) < 0) by (apply (Cw 0%nat m M); [lia|lia|lia|exact (not_eq_sym Nm)|exact NmM|exact (not_eq_sym NM)]).
    rewrite E, area_swap in A1. lra. }
  destruct (strict_change at_ (fun y => area plane a y x) (M - m) m) as (i & Li & Ni & S1 & S2).
  - apply (hull_area plane _ _ pts x H). apply All. intros j Lj. destruct (Nat.lt_trichotomy j m) as [C|[->|C]].
    + rewrite (Fm' j C). apply Req_le, area_same.
    + apply Req_le, area_same.
    + apply (Cw0 0%nat m j); lia.
  - replace (m + (M - m))%nat with M by lia. assert (Q : area plane (at_ M) a x <= 0); [|rewrite area_swap in Q; lra].
    apply (hull_area plane _ _ pts x H). apply All. intros j Lj. rewrite area_swap.
    destruct (Nat.lt_trichotomy j M) as [C|[->|C]]; [|destruct (area_same plane a (at_ M)) as (_ & Z & _); lra|rewrite (FM' j C Lj); destruct (area_same plane a (at_ M)) as (Z & _); lra].
    destruct (Nat.eq_dec j 0) as [->|N0]; [fold a; destruct (area_same plane a (at_ M)) as (Z & _); lra|].
    rewrite area_flip. assert (area plane a (at_ j) (at_ M) <= 0) by (apply (Cw0 0%nat j M); lia). lra.
  - replace (m + (M - m))%nat with M by lia. exact NmM.
  - exists (i - 1)%nat, a, (at_ i), (at_ (S i)). replace (i - 1 + 1)%nat with i by lia. replace (i - 1 + 2)%nat with (S i) by lia.
    split; [apply Get; lia|]. split; [apply Get; lia|]. split; [apply Get; lia|].
    assert (Pk : forall j, (j < length pts)%nat -> inner F (at_ j) = inner F (bp_v0 plane)).
    { intros j Lj. apply flat. eapply nth_error_In, Get, Lj. }
    apply (triangle_of_areas plane).
    + apply (Cw 0%nat i (S i)); [lia|lia|lia|apply not_eq_sym, Mid; lia|exact Ni|apply not_eq_sym, Mid; lia].
    + rewrite inner_minus_r. unfold a. rewrite !Pk by lia. ring.
    + rewrite inner_minus_r. unfold a. rewrite !Pk by lia. ring.
    + rewrite inner_minus_r. unfold a. rewrite Px, Pk by lia. ring.
    + exact S1.
    + apply (hull_area plane _ _ pts x H). apply All. intros j Lj.
      destruct (Nat.lt_trichotomy j i) as [C|[->|C]].
      * rewrite (area_turn plane (at_ j)). apply Cw0; lia.
      * apply Req_le, area_same.
      * destruct (Nat.eq_dec j (S i)) as [->|N]; [apply Req_le, area_same|]. apply Cw0; lia.
    + rewrite area_swap. lra.
Qed.
End Fan.

(** ** Moving the corners of a triangle *)
Lemma blend_near : forall h a b c a' b' c' r s t, 0 <= r -> 0 <= s -> 0 <= t -> r + s + t = 1 ->
  norm (minus a' a) <= h -> norm (minus b' b) <= h -> norm (minus c' c) <= h -> norm (minus (blend a' b' c' r s t) (blend a b c r s t)) <= h.
Proof.
  intros h a b c a' b' c' r s t R0 S0 T0 One A B C.
  replace (minus (blend a' b' c' r s t) (blend a b c r s t)) with (vplus (vscale r (minus a' a)) (vplus (vscale s (minus b' b)) (vscale t (minus c' c))))
    by (unfold vplus, vscale, minus, blend; cbn [vx vy vz]; f_equal; ring).
  eapply Rle_trans; [apply norm_triangle|]. pose proof (norm_triangle (vscale s (minus b' b)) (vscale t (minus c' c))) as T. rewrite !norm_scale in *.
  rewrite !Rabs_pos_eq in * by assumption.
  assert (r * norm (minus a' a) <= r * h) by (apply Rmult_le_compat_l; assumption).
  assert (s * norm (minus b' b) <= s * h) by (apply Rmult_le_compat_l; assumption).
  assert (t * norm (minus c' c) <= t * h) by (apply Rmult_le_compat_l; assumption).
  replace h with (r * h + (s * h + t * h)) by (replace (r * h + (s * h + t * h)) with ((r + s + t) * h) by ring; rewrite One; ring). lra.
Qed.
Lemma triangle_near : forall h a b c a' b' c' x, in_triangle a b c x ->
  norm (minus a' a) <= h -> norm (minus b' b) <= h -> norm (minus c' c) <= h -> exists y, in_triangle a' b' c' y /\ norm (minus y x) <= h.
Proof.
  intros h a b c a' b' c' x (r & s & t & R0 & S0 & T0 & One & ->) A B C. exists (blend a' b' c' r s t). split; [exists r, s, t; auto|]. now apply blend_near.
Qed.

Lemma norm_back : forall a b, norm (minus a b) = norm (minus b a).
Proof. intros a b. unfold norm. f_equal. unfold inner, minus. cbn [vx vy vz]. ring. Qed.

(** ** The corners of a good side *)
Section Side.
Context (p : platform).
Local Notation O := (f32_num p).

Lemma good_corners : forall tx e planes plane f b, build_face O tx e planes plane = Ok f -> (forall q, In q (plane :: planes) -> grid_plane q) ->
  (Z.of_nat (length planes) <= 4000)%Z -> good_side p planes plane b ->
  exists ys, (forall x, In x ys <-> true_corner planes plane x)
    /\ Forall2 (fun v x => norm (minus (point_of (vt_pos v)) x) <= allowance b) (f_vertices f) ys
    /\ forall i j k x y z, (i < j)%nat -> (j < k)%nat -> nth_error ys i = Some x -> nth_error ys j = Some y -> nth_error ys k = Some z ->
         x <> y -> y <> z -> x <> z -> clockwise (facing (plane_of plane)) x y z.
Proof.
  intros tx e planes plane f b E G L (CL & _ & TH & d & s & r & AC & AS & BL & S0 & Dd).
  destruct (wound_shared p tx e planes plane f d s r b E G L CL AC AS BL S0 Dd) as (ys & T & SH & CW).
  exists ys. split; [exact T|]. split; [|exact CW].
  destruct (corners_c15 p tx e planes plane f E) as (raw & _ & _ & CS & M & _).
  destruct (corner_tally p planes plane raw s r b CS G CL BL ltac:(lra) AS) as (ls & TL & H). pose proof (tally_in planes plane ls TL) as IFF. set (zs := map snd ls) in *. clearbody zs.
  assert (Ne : zs <> []) by (intros ->; destruct TH as (x & _ & _ & Tx & _); apply IFF in Tx; destruct Tx).
  assert (Hz : forall w, In w zs -> 0 <= b /\ norm w <= 524288 * b).
  { intros w Hw. destruct (Forall2_right _ _ _ _ H Hw) as (rv & _ & OCx). destruct (corner_near p planes plane b _ w G BL OCx) as (B0 & _ & _ & Nw). split; assumption. }
  assert (B0 : 0 <= b) by (destruct zs as [|z zs]; [congruence|]; apply (Hz z); now left).
  assert (Ng : norm (average zs) <= 524288 * b) by (apply average_norm; [exact Ne|]; intros w Hw; now apply Hz).
  pose proof (centre_near p planes plane b raw zs (f_center f) G L BL CS M H Ne) as Cn.
  assert (Kz : 0 <= INR (length zs) <= 16777216).
  { split; [apply pos_INR|]. assert (length raw = length zs) as <- by (clear -H; induction H; cbn; congruence). pose proof (raw_length p planes plane raw G CS).
    rewrite INR_IZR_INZ. apply (IZR_le _ 16777216). nia. }
  pose proof (minus_norm (point_of (f_center f)) (average zs)) as Nc. set (K := INR (length zs)) in *.
  assert (Kb : K * b <= 16777216 * b) by (apply Rmult_le_compat_r; lra).
  assert (SHB : forall w a, shows planes plane (f_center f) w a -> In a ys -> norm (minus (point_of (vt_pos w)) a) <= allowance b).
  { intros w a (p1 & p2 & I1 & I2 & X & Nw) Ha. apply T in Ha. destruct Ha as [_ IN]. specialize (BL p1 p2 a I1 I2 X IN). unfold allowance.
    replace (10 ^ 30) with 1000000000000000000000000000000 in * by ring. replace (10 ^ 20) with 100000000000000000000 by ring. replace (2 ^ 23) with 8388608 in * by ring. lra. }
  clear -SH SHB. induction SH as [|v x vs ys Q SH IH]; [constructor|]. constructor; [apply SHB; [exact Q|now left]|apply IH; intros w a Q' I; apply SHB; [exact Q'|now right]].
Qed.

Lemma corner_side : forall planes plane x, true_corner planes plane x -> side (map plane_of planes) (plane_of plane) x.
Proof.
  intros planes plane x ((p1 & p2 & _ & _ & (X & _)) & IN). split; [exact X|]. intros q Hq. apply in_map_iff in Hq. destruct Hq as (q' & <- & Hq). now apply IN.
Qed.

(** The side is the hull of its corners. *)
Lemma side_corners : forall planes plane ys, (forall q, In q (plane :: planes) -> grid_plane q) -> bounded (side (map plane_of planes) (plane_of plane)) ->
  (forall x, In x ys <-> true_corner planes plane x) -> forall x, side (map plane_of planes) (plane_of plane) x <-> in_hull ys x.
Proof.
  intros planes plane ys G Bd T x. split.
  - apply (side_hull _ _ Bd); [|apply G; now left]. intros p1 p2 y I1 I2 D O1 O2 (On & So).
    apply in_map_iff in I1, I2. destruct I1 as (q1 & <- & I1). destruct I2 as (q2 & <- & I2). apply T. split.
    + exists q1, q2. split; [exact I1|]. split; [exact I2|]. split; [exact On|]. split; [exact O1|]. split; [exact O2|].
      destruct (det_facing _ _ _ D) as (P0 & P1 & P2). unfold proper in *. unfold openness. apply Rdiv_lt_0_compat; [exact D|].
      pose proof (norm_pos (facing (plane_of plane))). pose proof (norm_pos (facing (plane_of q1))). pose proof (norm_pos (facing (plane_of q2))).
      apply Rmult_lt_0_compat; [apply Rmult_lt_0_compat|]; lra.
    + intros q Hq. apply So. now apply in_map.
  - intros H. split.
    + apply (hull_on _ _ _ H). intros y I. apply T in I. apply corner_side in I. apply I.
    + apply solid_slack. intros q Iq. apply (hull_slack _ _ _ H). intros y I. apply T in I. apply corner_side in I. apply slack_within. now apply I.
Qed.

Lemma triangle_hull : forall l a b c x, In a l -> In b l -> In c l -> in_triangle a b c x -> in_hull l x.
Proof.
  intros l a b c x A B C (r & s & t & R0 & S0 & T0 & One & ->).
  eapply weighted_eq; [exact (weighted_plus _ _ _ (weighted_one _ _ r R0 A) _ _ (weighted_plus _ _ _ (weighted_one _ _ s S0 B) _ _ (weighted_one _ _ t T0 C)))|lra|].
  unfold blend, WindProofs.plus, scaled; cbn [vx vy vz]; f_equal; ring.
Qed.

(** ** One face *)
Lemma face_covers_side : forall tx e planes plane f b, build_face O tx e planes plane = Ok f -> (forall q, In q (plane :: planes) -> grid_plane q) ->
  (Z.of_nat (length planes) <= 4000)%Z -> good_side p planes plane b ->
  (3 <= length (f_vertices f))%nat
  /\ (forall x, side (map plane_of planes) (plane_of plane) x -> exists m v v' v'' y, (m + 2 < length (f_vertices f))%nat
      /\ nth_error (f_vertices f) 0 = Some v /\ nth_error (f_vertices f) (m + 1) = Some v' /\ nth_error (f_vertices f) (m + 2) = Some v''
      /\ in_triangle (point_of (vt_pos v)) (point_of (vt_pos v')) (point_of (vt_pos v'')) y /\ norm (minus y x) <= allowance b)
  /\ (forall v v' v'', In v (f_vertices f) -> In v' (f_vertices f) -> In v'' (f_vertices f) ->
      stays_near (allowance b) (side (map plane_of planes) (plane_of plane)) (vt_pos v) (vt_pos v') (vt_pos v'')).
Proof.
  intros tx e planes plane f b E G L GS. destruct (good_corners tx e planes plane f b E G L GS) as (ys & T & N & CW).
  assert (Bd : bounded (side (map plane_of planes) (plane_of plane))) by apply GS.
  pose proof (side_corners planes plane ys G Bd T) as SC.
  assert (Fl : forall x, In x ys -> inner (facing (plane_of plane)) x = inner (facing (plane_of plane)) (bp_v0 (plane_of plane))).
  { intros x Hx. apply T, corner_side in Hx. destruct Hx as (On & _). unfold on_plane in On. rewrite inner_minus_r in On. lra. }
  assert (TH : three (fun y => In y ys)).
  { destruct GS as (_ & _ & (x & y & z & X & Y & Z & Nxyz) & _). exists x, y, z. rewrite !T. auto. }
  assert (Len : (3 <= length ys)%nat).
  { destruct TH as (x & y & z & X & Y & Z & N1 & N2 & N3). apply (NoDup_incl_length (l := [x; y; z])).
    - repeat constructor; cbn [In]; intuition congruence.
    - intros w [<-|[<-|[<-|[]]]]; assumption. }
  assert (Lv : length (f_vertices f) = length ys) by (clear -N; induction N; cbn; congruence). split; [lia|]. split.
  - intros x Sx. apply SC in Sx. destruct (fan_covered (plane_of plane) ys Fl CW x TH Sx) as (i & a & c & d & A & C & D & Tr).
    destruct (Forall2_nth_r _ _ _ _ _ _ _ N A) as (va & Ga & Na). destruct (Forall2_nth_r _ _ _ _ _ _ _ N C) as (vc & Gc & Nc). destruct (Forall2_nth_r _ _ _ _ _ _ _ N D) as (vd & Gd & Nd).
    destruct (triangle_near (allowance b) a c d (point_of (vt_pos va)) (point_of (vt_pos vc)) (point_of (vt_pos vd)) x Tr Na Nc Nd) as (y & Ty & Ny).
    exists i, va, vc, vd, y. split; [apply nth_error_Some; congruence|]. repeat (split; [assumption|]). assumption.
  - intros v v' v'' Hv Hv' Hv'' y Ty.
    destruct (Forall2_left _ _ _ _ N Hv) as (a & Ia & Na). destruct (Forall2_left _ _ _ _ N Hv') as (c & Ic & Nc). destruct (Forall2_left _ _ _ _ N Hv'') as (d & Id & Nd).
    rewrite norm_back in Na, Nc, Nd. destruct (triangle_near (allowance b) _ _ _ a c d y Ty Na Nc Nd) as (x & Tx & Nx).
    exists x. split; [apply SC; now apply (triangle_hull ys a c d)|]. now rewrite norm_back.
Qed.

Theorem side_covered : forall tx e planes plane f b, build_face O tx e planes plane = Ok f -> (forall q, In q (plane :: planes) -> grid_plane q) ->
  (Z.of_nat (length planes) <= 4000)%Z -> good_side p planes plane b ->
  (forall x, side (map plane_of planes) (plane_of plane) x -> shown (allowance b) (map vt_pos (f_vertices f)) (f_indices f) x)
  /\ (forall k u v w, kth_triangle (map vt_pos (f_vertices f)) (f_indices f) k u v w -> stays_near (allowance b) (side (map plane_of planes) (plane_of plane)) u v w).
Proof.
  intros tx e planes plane f b E G L GS. destruct (face_covers_side tx e planes plane f b E G L GS) as (L3 & A & B). split.
  - intros x Sx. destruct (A x Sx) as (m & v & v' & v'' & y & Lm & V0 & V1 & V2 & Ty & Ny). destruct (face_fan _ _ _ _ _ _ E) as (_ & _ & K). destruct (K m) as (F0 & F1 & F2); [lia|].
    exists m, (vt_pos v), (vt_pos v'), (vt_pos v''), y. split; [|auto]. exists 0%nat, (m + 1)%nat, (m + 2)%nat. rewrite !nth_error_map, V0, V1, V2. repeat (split; [first [assumption|reflexivity]|]). reflexivity.
  - intros k u v w (i & j & l & _ & _ & _ & U & V & W). rewrite nth_error_map in U, V, W.
    destruct (nth_error (f_vertices f) i) as [u'|] eqn:Hu; [|discriminate]. destruct (nth_error (f_vertices f) j) as [v'|] eqn:Hv; [|discriminate]. destruct (nth_error (f_vertices f) l) as [w'|] eqn:Hw; [|discriminate].
    injection U as <-. injection V as <-. injection W as <-. apply B; eapply nth_error_In; eassumption.
Qed.

(** ** One brush *)
Theorem surface_covered : forall tx e planes g b, build_brush O tx e planes = Ok g -> (forall q, In q planes -> grid_plane q) -> (Z.of_nat (length planes) <= 4000)%Z ->
  (forall pl, In pl planes -> good_side p planes pl b) ->
  (forall x, surface_of (map plane_of planes) x -> exists f, In f (bg_faces g) /\ shown (allowance b) (map vt_pos (f_vertices f)) (f_indices f) x)
  /\ (forall f k u v w, In f (bg_faces g) -> kth_triangle (map vt_pos (f_vertices f)) (f_indices f) k u v w -> stays_near (allowance b) (surface_of (map plane_of planes)) u v w).
Proof.
  intros tx e planes g b E G L GS. unfold build_brush in E. apply bind_ok in E. destruct E as (fs & Ef & E). injection E as <-. cbn [bg_faces]. apply mapM_ok in Ef. split.
  - intros x (So & q & Iq & On). apply in_map_iff in Iq. destruct Iq as (pl & <- & Ip). destruct (Forall2_in_l _ _ _ _ _ _ Ef Ip) as (f & Hf & E). exists f. split; [exact Hf|].
    apply (side_covered tx e planes pl f b E); [intros z [<-|I]; auto|exact L|now apply GS|]. split; assumption.
  - intros f k u v w Hf Tr. destruct (Forall2_in_r _ _ _ _ _ _ Ef Hf) as (pl & Ip & E).
    destruct (side_covered tx e planes pl f b E) as (_ & B); [intros z [<-|I]; auto|exact L|now apply GS|].
    intros y Ty. destruct (B k u v w Tr y Ty) as (x & (On & So) & N). exists x. split; [|exact N]. split; [exact So|]. exists (plane_of pl). split; [now apply in_map|exact On].
Qed.
End Side.
