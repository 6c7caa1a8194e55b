(** Corners shared by more than three planes: lemmas for C110. *)
From Coq Require Import Reals Lra Lia ZArith Permutation Sorted Classical.
From Flocq Require Import Core.
From Verif Require Import Prelude F32 Text MapModel GeoModel GatherSpec GeoSpec WindSpec WindProofs WoundPlane GatherProofs GeoProofs GeoFinal NumberSpec BaseProofs FloatProofs NumberProofs ColorProofs BoxSpec BoxProofs ExactProofs RealSpec ArithProofs ErrorSpec ErrorProofs ErrorFinal CornerSpec CornerProofs MeanSpec MeanProofs WoundSpec WoundProofs SharedSpec.
Local Open Scope R_scope.

(** ** Tallies *)
Lemma gathered : forall {A B} (P : A -> B -> Prop) (l : list A), exists m : list (A * B), NoDup (map fst m)
  /\ (forall a b, In (a, b) m -> In a l /\ P a b) /\ forall a b, In a l -> P a b -> exists b', In (a, b') m.
Proof.
  intros A B P l. induction l as [|a l (m & N & I & C)].
  - exists []. split; [constructor|]. split; [intros ? ? []|intros ? ? []].
  - destruct (classic (exists b, P a b /\ ~ In a (map fst m))) as [(b & H & F)|F].
    + exists ((a, b) :: m). split; [cbn; constructor; assumption|]. split.
      * intros a' b' [E|H']; [injection E as <- <-; split; [now left|exact H]|]. destruct (I _ _ H'). split; [now right|assumption].
      * intros a' b' [<-|H'] Q; [exists b; now left|]. destruct (C _ _ H' Q) as (b2 & H2). exists b2. now right.
    + exists m. split; [exact N|]. split; [intros a' b' H; destruct (I _ _ H); split; [now right|assumption]|].
      intros a' b' [<-|H'] Q; [|eauto]. destruct (classic (In a (map fst m))) as [H|H]; [|exfalso; apply F; eauto].
      apply in_map_iff in H. destruct H as ((a2 & b2) & E & H). cbn in E. subst a2. eauto.
Qed.

Lemma tally_exists : forall planes plane, (forall q, In q (plane :: planes) -> grid_plane q) -> exists ls, tally planes plane ls.
Proof.
  intros planes plane G. destruct (gathered (fun pq x => crossing plane (fst pq) (snd pq) x /\ in_solid planes x) (list_prod planes planes)) as (ls & N & I & C).
  exists ls. split; [exact N|]. split.
  - intros p1 p2 x H. destruct (I _ _ H) as (J & X & T). cbn [fst snd] in X. apply in_prod_iff in J. tauto.
  - intros x ((p1 & p2 & I1 & I2 & X) & T). destruct (C (p1, p2) x) as (x' & H); [now apply in_prod|auto|]. destruct (I _ _ H) as (_ & X' & _). cbn [fst snd] in X'.
    rewrite (crossing_unique plane p1 p2 x x') by (auto; apply G; cbn; auto). apply in_map_iff. exists (p1, p2, x'). auto.
Qed.

Lemma spread_far : forall s r l x y, 0 < s <= 1 -> 0 <= r -> spread s r l -> In x l -> In y l -> x <> y -> s * r <= norm (minus x y).
Proof.
  intros s r l x y S0 R0 (D & A) Hx Hy N. specialize (A x y Hx Hy N). pose proof (D x Hx) as Dx. pose proof (D y Hy) as Dy. set (g := average l) in *.
  set (a := minus x g) in *. set (c := minus y g) in *. assert (E : minus x y = minus a c) by (unfold a, c, minus; cbn [vx vy vz]; f_equal; ring). rewrite E.
  assert (Sr : s * r <= r) by nra. destruct A as [A|A].
  - apply Rle_trans with r; [exact Sr|]. apply Rle_trans with (norm a); [exact Dx|]. unfold norm. apply sqrt_le_1_alt.
    assert (0 <= inner c c) by (rewrite <- norm_sq; pose proof (norm_pos c); nra).
    replace (inner (minus a c) (minus a c)) with (inner a a + inner c c - 2 * inner a c) by (unfold inner, minus; cbn [vx vy vz]; ring). lra.
  - assert (O : norm (outer a c) <= norm (minus a c) * norm c).
    { replace (outer a c) with (outer (minus a c) c) by (unfold outer, minus; cbn [vx vy vz]; f_equal; ring). apply outer_norm. }
    pose proof (norm_pos a). pose proof (norm_pos c). pose proof (norm_pos (minus a c)).
    destruct (Rle_lt_or_eq_dec _ _ (norm_pos c)) as [P|Z].
    + assert (H3 : s * norm a <= norm (minus a c)) by (apply Rmult_le_reg_r with (norm c); [exact P|]; lra). nra.
    + assert (r = 0) by lra. subst r. lra.
Qed.

Section WithPlatform.
Context (p : platform).
Local Notation O := (f32_num p).

(** ** The corners before the sort *)
Lemma corner_tally : forall planes plane raw s r b, corner_set O planes plane raw -> (forall q, In q (plane :: planes) -> grid_plane q) ->
  clear planes plane -> blurred b planes plane -> 0 < s <= 1 -> always_spread s r b planes plane ->
  exists ls, tally planes plane ls /\ Forall2 (fun v x => of_corner p planes plane (vt_pos v) x) raw (map snd ls).
Proof.
  intros planes plane raw s r b (A & B & N) G CL BL S0 AS.
  assert (G0 : grid_plane plane) by (apply G; now left).
  assert (OC : forall q, In q planes -> grid_plane q) by (intros q Hq; apply G; now right).
  destruct (forall_exists (fun v (t : brush_plane f32 * brush_plane f32 * vec3 R) => In (fst (fst t)) planes /\ In (snd (fst t)) planes /\ crossing plane (fst (fst t)) (snd (fst t)) (snd t)
    /\ intersect_planes O plane (fst (fst t)) (snd (fst t)) = Some (vt_pos v) /\ in_solid planes (snd t)) raw) as (ls & H).
  { intros v Hv. destruct (A v Hv) as (p1 & p2 & I1 & I2 & Er & IN). destruct (meeting_crossing p plane p1 p2 (vt_pos v) G0 (OC _ I1) (OC _ I2) Er) as (x & X).
    exists (p1, p2, x). cbn [fst snd]. split; [exact I1|]. split; [exact I2|]. split; [exact X|]. split; [exact Er|]. exact (kept_true p planes plane p1 p2 (vt_pos v) x G CL I1 I2 Er IN X). }
  assert (H1 : Forall2 (fun v pq => intersect_planes O plane (fst pq) (snd pq) = Some (vt_pos v)) raw (map fst ls)).
  { clear -H. induction H as [|v t raw ls Q H IH]; cbn [map]; constructor; [apply Q|exact IH]. }
  assert (H2 : Forall2 (fun v x => of_corner p planes plane (vt_pos v) x) raw (map snd ls)).
  { clear -H. induction H as [|v ((p1 & p2) & x) raw ls Q H IH]; cbn [map]; constructor; [|exact IH]. cbn [fst snd] in Q. exists p1, p2. tauto. }
  exists ls. split; [|exact H2]. split; [|split].
  - eapply Forall2_pairwise; [exact H1| |exact N]. intros v v' pq Hv Hv' E E'. cbv beta in *. assert (E2 : Some (vt_pos v) = Some (vt_pos v')) by (rewrite <- E, <- E'; reflexivity). injection E2 as E2.
    destruct (meeting_fins p planes plane _ G (A v Hv)) as [Fv _]. destruct (meeting_fins p planes plane _ G (A v' Hv')) as [Fv' _].
    apply pos_eq_point; [exact Fv|exact Fv'|]. congruence.
  - intros p1 p2 x Hx. destruct (Forall2_right _ _ _ _ H Hx) as (v & Hv & Q). cbn [fst snd] in Q. tauto.
  - intros x Tx. pose proof Tx as ((p1 & p2 & I1 & I2 & X) & T). destruct (true_kept p planes plane p1 p2 x G CL I1 I2 X T) as (rr & Er & IN).
    assert (MP : meeting_point O planes plane rr) by (exists p1, p2; unfold meets; auto).
    destruct (B rr MP) as (v & Hv & EQ). destruct (Forall2_left _ _ _ _ H2 Hv) as (x' & Hx' & OCx). pose proof OCx as (p1' & p2' & I1' & I2' & X' & Er' & T').
    destruct (classic (x = x')) as [->|Nx]; [exact Hx'|]. exfalso.
    assert (PE : point_of rr = point_of (vt_pos v)).
    { destruct EQ as [->|EQ]; [reflexivity|]. destruct (meeting_fins p planes plane _ G (A v Hv)) as [Fv _]. destruct (meeting_fins p planes plane _ G MP) as [Fr _]. apply (pos_eq_point p) in EQ; assumption. }
    destruct (tally_exists planes plane G) as (ks & TK). destruct (AS ks TK) as (SP & Small). destruct TK as (_ & _ & All).
    destruct (corner_near p planes plane b rr x G BL) as (B0 & _ & N1 & _); [exists p1, p2; auto 6|]. destruct (corner_near p planes plane b (vt_pos v) x' G BL OCx) as (_ & _ & N2 & _).
    rewrite <- PE in N2. pose proof (minus_triangle x (point_of rr) x') as TR. rewrite (minus_sym x (point_of rr)) in TR.
    assert (K : 0 <= 4 * INR (length ks) * (b + / 10 ^ 20)).
    { apply Rmult_le_pos; [pose proof (pos_INR (length ks)); lra|]. replace (10 ^ 20) with 100000000000000000000 by ring. lra. }
    assert (R0 : 0 <= r).
    { destruct (Rle_or_lt 0 r) as [?|Neg]; [assumption|]. exfalso. replace (10 ^ 20) with 100000000000000000000 in * by ring. nra. }
    pose proof (spread_far s r (map snd ks) x x' S0 R0 SP (All x Tx) (All x' ltac:(split; [exists p1', p2'; auto|exact T'])) Nx) as Far.
    pose proof eta_small. replace (10 ^ 20) with 100000000000000000000 in * by ring. lra.
Qed.

Lemma tally_in : forall planes plane ls, tally planes plane ls -> forall x, In x (map snd ls) <-> true_corner planes plane x.
Proof.
  intros planes plane ls (_ & B & C) x. split; [|apply C]. intros H. apply in_map_iff in H. destruct H as (((p1 & p2) & x') & <- & H). destruct (B _ _ _ H) as (I1 & I2 & X & T).
  split; [exists p1, p2; auto|exact T].
Qed.

(** ** The order of the vertices *)
Theorem wound_shared : forall tx e planes plane f d s r b, build_face O tx e planes plane = Ok f -> (forall q, In q (plane :: planes) -> grid_plane q) ->
  (Z.of_nat (length planes) <= 4000)%Z -> clear planes plane -> accurate_angle d (p_atan2 p) ->
  always_spread s r b planes plane -> blurred b planes plane -> / 1000 <= s <= 1 -> d <= s / 3 ->
  exists ys, (forall x, In x ys <-> true_corner planes plane x) /\ Forall2 (shows planes plane (f_center f)) (f_vertices f) ys
    /\ forall i j k x y z, (i < j)%nat -> (j < k)%nat -> nth_error ys i = Some x -> nth_error ys j = Some y -> nth_error ys k = Some z ->
         x <> y -> y <> z -> x <> z -> clockwise (facing (plane_of plane)) x y z.
Proof.
  intros tx e planes plane f d s r b E G L CL AC AS BL S0 Dd.
  destruct (face_points p tx e planes plane f E G L) as (Fc & Bc & _).
  destruct (face_corners_built _ (f32_eq_laws p) _ _ _ _ _ E) as (raw & centred & sorted & CS & M & F1 & P & F2 & W).
  destruct (corner_tally planes plane raw s r b CS G CL BL ltac:(lra) AS) as (ls & TL & H). destruct (AS ls TL) as (SP & Small). pose proof (tally_in planes plane ls TL) as T.
  rewrite <- (map_length snd) in Small. set (zs := map snd ls) in *. clearbody zs. clear TL AS.
  assert (G0 : grid_plane plane) by (apply G; now left).
  assert (OC : forall q, In q planes -> grid_plane q) by (intros q Hq; apply G; now right).
  assert (H1 : Forall2 (fun sv x => exists rv, vt_pos sv = v3_sub O rv (f_center f) /\ of_corner p planes plane rv x) centred zs).
  { eapply Forall2_chain; [apply Forall2_flip; exact F1|exact H|]. intros sv v x (D & _) OCx. exists (vt_pos v). split; [exact D|exact OCx]. }
  destruct (Permutation_Forall2 P H1) as (ys & PY & H2).
  exists ys. split; [intros x; rewrite <- T; split; apply Permutation_in; [apply Permutation_sym|]; exact PY|]. split.
  - eapply Forall2_chain; [apply Forall2_flip; exact F2|exact H2|]. intros v sv x (D & _) (rv & Es & OCx). destruct OCx as (p1 & p2 & I1 & I2 & X & Er & Tx).
    exists p1, p2. split; [exact I1|]. split; [exact I2|]. split; [exact X|]. rewrite D, Es. destruct (meeting_near p plane p1 p2 rv x G0 (OC _ I1) (OC _ I2) Er X) as (Fr & _). apply back_near with rv; auto.
  - intros i j k x y z Lij Ljk Hi Hj Hk Nxy Nyz Nxz.
    assert (Hin : forall m v, nth_error ys m = Some v -> In v zs) by (intros m v Hm; apply (Permutation_in _ (Permutation_sym PY)); apply nth_error_In in Hm; exact Hm).
    assert (Ne : zs <> []) by (intros Z; pose proof (Hin _ _ Hi) as Q; rewrite Z in Q; destruct Q).
    assert (Cg : norm (minus (point_of (f_center f)) (average zs)) <= (7 / 8 + 63 / 1000 * INR (length zs)) * b + / 10 ^ 30).
    { apply (centre_near p planes plane b raw zs); assumption. }
    assert (DIR : forall sv x, (exists rv, vt_pos sv = v3_sub O rv (f_center f) /\ of_corner p planes plane rv x) -> In x zs -> directed p plane zs d s sv x).
    { intros sv x0 (rv & Es & OCx) Hx. apply (corner_directed p planes plane zs b d s r G T S0 SP (f_center f) sv rv x0); auto.
      destruct OCx as (p1 & p2 & I1 & I2 & _ & Er & _). destruct (meet_size p _ _ _ _ G0 (OC _ I1) (OC _ I2) Er) as (_ & _ & Nr).
      destruct (coord_norm (point_of rv)) as (? & ? & ?). unfold below. lra. }
    assert (W' : StronglySorted (fun a c => not_above O (angle_of O plane c) (angle_of O plane a)) sorted).
    { apply (W _ (f32_order p)). intros v Hv. destruct (Forall2_left _ _ _ _ H1 Hv) as (x0 & Hx0 & Q).
      destruct (DIR v x0 Q Hx0) as (_ & _ & _ & _ & _ & Fa & _). intros Z. rewrite Z in Fa. destruct Fa as [_ Fa]; discriminate Fa. }
    assert (GET : forall m v, nth_error ys m = Some v -> exists sv, nth_error sorted m = Some sv /\ directed p plane zs d s sv v).
    { intros m v Hm. clear -H2 Hm DIR Hin. assert (HI := Hin _ _ Hm). clear Hin. revert m Hm. induction H2 as [|sv v0 sorted ys Q H2 IH]; intros m Hm; [destruct m; discriminate|].
      destruct m as [|m]; cbn in Hm; [injection Hm as ->; exists sv; split; [reflexivity|apply DIR; assumption]|]. exact (IH m Hm). }
    destruct (GET i x Hi) as (sx & Gx & Dx). destruct (GET j y Hj) as (sy & Gy & Dy). destruct (GET k z Hk) as (sz & Gz & Dz).
    apply (directed_clockwise p planes plane zs d s r G T S0 SP sx sy sz x y z); eauto.
    + apply (sorted_at _ _ sorted i j sx sy W'); auto.
    + apply (sorted_at _ _ sorted j k sy sz W'); auto.
    + apply (sorted_at _ _ sorted i k sx sz W'); auto; lia.
Qed.

(** ** With one pair for each corner *)
Lemma simple_tally : forall planes plane ls xs, (forall q, In q (plane :: planes) -> grid_plane q) -> simple planes plane -> NoDup xs -> (forall x, In x xs <-> true_corner planes plane x) ->
  tally planes plane ls -> Permutation xs (map snd ls).
Proof.
  intros planes plane ls xs G SI ND T TL. apply NoDup_Permutation; [exact ND| |intros x; rewrite T, (tally_in _ _ _ TL); reflexivity].
  destruct TL as (N & B & _). clear T ND xs. induction ls as [|((p1 & p2) & x) ls IH]; cbn [map snd]; [constructor|]. cbn [map fst] in N. inversion N as [|? ? F N']; subst.
  constructor; [|apply IH; [exact N'|intros; apply B; now right]]. intros H. apply in_map_iff in H. destruct H as (((p1' & p2') & x') & E & H). cbn in E. subst x'.
  destruct (B p1 p2 x ltac:(now left)) as (I1 & I2 & X & Tx). destruct (B p1' p2' x ltac:(now right)) as (I1' & I2' & X' & _).
  destruct (SI p1 p2 x p1' p2' x I1 I2 I1' I2' X X' Tx Tx) as [(-> & ->)|D].
  - apply F. apply in_map_iff. exists (p1', p2', x). auto.
  - assert (Z0 : norm (minus x x) = 0).
    { unfold norm, minus, inner. cbn [vx vy vz]. rewrite !Rminus_diag_eq, Rmult_0_l, !Rplus_0_r by reflexivity. apply sqrt_0. }
    pose proof (g_pos _ _ _ _ X). pose proof (g_pos _ _ _ _ X'). unfold blur in D. replace (2 ^ 19) with 524288 in D by ring. replace (10 ^ 30) with 1000000000000000000000000000000 in D by ring. lra.
Qed.
Theorem simple_spread : forall planes plane xs s r b, (forall q, In q (plane :: planes) -> grid_plane q) -> simple planes plane -> NoDup xs -> (forall x, In x xs <-> true_corner planes plane x) ->
  spread s r xs -> (64 + 4 * INR (length xs)) * (b + / 10 ^ 20) <= s * r -> always_spread s r b planes plane.
Proof.
  intros planes plane xs s r b G SI ND T SP Small ls TL. pose proof (simple_tally planes plane ls xs G SI ND T TL) as PX.
  split; [|rewrite <- (map_length snd ls), <- (Permutation_length PX); exact Small]. unfold spread in *. rewrite <- (average_perm _ _ PX). destruct SP as (A & B).
  assert (S : forall x, In x (map snd ls) -> In x xs) by (intros x; apply Permutation_in, Permutation_sym; exact PX). split; auto.
Qed.
End WithPlatform.
