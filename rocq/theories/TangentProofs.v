(** Tangents against texture coordinates: lemmas for C103. *)
From Coq Require Import Reals Lra Lia ZArith.
From Verif Require Import Prelude F32 Text MapModel GeoModel RealSpec UvSpec TangentSpec BaseProofs RealAttributes GeoWitness.
Local Open Scope R_scope.

Lemma mostly_fun : forall n a b, mostly n a -> mostly n b -> a = b.
Proof. intros n [] []; cbn [mostly]; intros H K; try reflexivity; lra. Qed.
Lemma mostly_total : forall n, exists a, mostly n a.
Proof.
  intros n. destruct (Rle_lt_dec (Rabs (vy n)) (Rabs (vz n))); destruct (Rle_lt_dec (Rabs (vx n)) (Rabs (vz n))); destruct (Rle_lt_dec (Rabs (vx n)) (Rabs (vy n)));
    solve [exists AxisZ; cbn; lra|exists AxisY; cbn; lra|exists AxisX; cbn; lra].
Qed.

Lemma shifts_valve : forall pl size dir ua uo va vo, bp_uv pl = UVValve ua uo va vo ->
  shifts pl size dir (inner ua dir / ux (bp_scale pl) / IZR (Z.of_N (fst size))) (inner va dir / uy (bp_scale pl) / IZR (Z.of_N (snd size))).
Proof.
  intros pl size dir ua uo va vo E x a b. unfold uv_of. rewrite E. intros -> ->. unfold texels. cbn [ux uy]. unfold inner, Rdiv. cbn [vx vy vz]. split; ring.
Qed.
Lemma shifts_quake : forall pl size dir uo vo a, bp_uv pl = UVQuake uo vo -> mostly (facing pl) a ->
  let r := true_mat2 (true_radians (bp_rotation pl)) (projected a dir) in
  shifts pl size dir (ux r / ux (bp_scale pl) / IZR (Z.of_N (fst size))) (uy r / uy (bp_scale pl) / IZR (Z.of_N (snd size))).
Proof.
  intros pl size dir uo vo a E M r x s t. unfold uv_of. rewrite E. intros (a1 & M1 & ->) (a2 & M2 & ->).
  rewrite (mostly_fun _ _ _ M1 M), (mostly_fun _ _ _ M2 M). unfold r, texels, true_mat2, turned_by, Rdiv. destruct a; cbn [projected ux uy vx vy vz]; split; ring.
Qed.
Lemma uv_total : forall pl size x, exists t, uv_of true_radians true_mat2 pl size x t.
Proof.
  intros pl size x. unfold uv_of. destruct (bp_uv pl); [|eauto]. destruct (mostly_total (facing pl)) as (a & M). eauto.
Qed.
Lemma shifts_fun : forall pl size dir du dv du' dv', shifts pl size dir du dv -> shifts pl size dir du' dv' -> du = du' /\ dv = dv'.
Proof.
  intros pl size dir du dv du' dv' H K. destruct (uv_total pl size (V3 0 0 0)) as (a & A). destruct (uv_total pl size (V3 (0 + vx dir) (0 + vy dir) (0 + vz dir))) as (b & B).
  destruct (H (V3 0 0 0) a b A B). destruct (K (V3 0 0 0) a b A B). lra.
Qed.
Lemma shifts_eq : forall pl size dir du dv du' dv', shifts pl size dir du dv -> du = du' -> dv = dv' -> shifts pl size dir du' dv'.
Proof. intros; subst; assumption. Qed.

Lemma unit_exists : forall n, exists u, unit_of n u.
Proof. intros n. destruct (Req_dec (norm n) 0); eexists; [left|right]; split; try reflexivity; assumption. Qed.
Lemma unit_scaled : forall n u, unit_of n u -> exists k, 0 <= k /\ (norm n <> 0 -> 0 < k) /\ vx u = k * vx n /\ vy u = k * vy n /\ vz u = k * vz n.
Proof.
  intros n u [[Z ->]|[Z ->]]; [exists 0|exists (/ norm n)]; cbn [vx vy vz].
  - repeat split; try lra.
  - assert (0 < norm n) by (pose proof (sqrt_pos (inner n n)); unfold norm in *; lra). assert (0 < / norm n) by now apply Rinv_0_lt_compat.
    repeat split; try lra; unfold Rdiv; ring.
Qed.
Lemma size_pos : forall n, (0 < n)%N -> 0 < / IZR (Z.of_N n).
Proof. intros n H. apply Rinv_0_lt_compat. apply (IZR_lt 0). lia. Qed.
Lemma norm_zero : forall n, norm n = 0 -> vx n = 0 /\ vy n = 0 /\ vz n = 0.
Proof.
  intros n H. assert (S : forall a, 0 <= a * a) by (intros a; pose proof (Rle_0_sqr a); unfold Rsqr in *; lra).
  pose proof (S (vx n)). pose proof (S (vy n)). pose proof (S (vz n)).
  apply sqrt_eq_0 in H; [|unfold inner; lra]. unfold inner in H.
  assert (Z : forall a, a * a = 0 -> a = 0) by (intros a Ha; now apply Rmult_integral in Ha; destruct Ha).
  repeat split; apply Z; lra.
Qed.

Lemma Rabs_zero : forall x, Rabs x <= 0 -> x = 0.
Proof. intros x H. destruct (Req_dec x 0) as [?|N]; [assumption|]. apply Rabs_pos_lt in N. lra. Qed.
Lemma sign_abs : forall x s, sign x s -> (s = 1 \/ s = -1) /\ x = s * Rabs x.
Proof. intros x s [[H ->]|[H ->]]; (split; [auto|]); [rewrite Rabs_pos_eq by exact H|rewrite Rabs_left by exact H]; ring. Qed.
Definition along_axis (a : axis) (s : R) : vec3 R := match a with AxisZ => V3 0 0 s | AxisY => V3 0 (- s) 0 | AxisX => V3 s 0 0 end.
Lemma quotient : forall a b c, a = c * b -> b <> 0 -> a * / b = c.
Proof. intros a b c -> H. field. exact H. Qed.
Ltac axis_zero M Al := destruct Al as [[? ?]|[[? ?]|[? ?]]]; subst; rewrite ?Rabs_R0 in M;
  first [assumption|reflexivity|apply Rabs_zero; lra|exfalso; repeat match goal with H : _ < Rabs ?x |- _ => pose proof (Rabs_pos x); revert H end; intros; lra
        |exfalso; match type of M with context [Rabs ?x] => pose proof (Rabs_pos x); lra end].
(** The direction of a plane facing along an axis. *)
Lemma along_unit : forall n a u t s, along n -> mostly n a -> unit_of n u -> base_tangent n a t s -> (s = 1 \/ s = -1) /\ u = along_axis a s.
Proof.
  intros n a u t s (Nz & Al) M U Bt.
  assert (P : forall x y z, n = V3 x y z -> x = 0 -> y = 0 -> z = 0 -> False) by (intros x y z -> -> -> ->; now apply Nz).
  destruct n as [x y z]. specialize (P x y z eq_refl). cbn [vx vy vz] in *.
  assert (D : norm (V3 x y z) <> 0) by (intros H; apply norm_zero in H; cbn [vx vy vz] in H; tauto).
  destruct U as [[C _]|[_ ->]]; [contradiction|].
  assert (Q : forall w, norm w <> 0 -> 0 < norm w) by (intros w Hw; pose proof (sqrt_pos (inner w w)); unfold norm in *; lra).
  specialize (Q _ D).
  assert (E : forall r, 0 <= r -> sqrt (r * r) = r) by (intros r Hr; now apply sqrt_square).
  assert (AA : forall r, Rabs r * Rabs r = r * r) by (intros r; rewrite <- Rabs_mult; apply Rabs_pos_eq; pose proof (Rle_0_sqr r); unfold Rsqr in *; lra).
  destruct a; cbn [mostly vx vy vz] in M; destruct Bt as [_ Sg]; cbn [vx vy vz] in Sg; destruct (sign_abs _ _ Sg) as [S1 S2]; cbn [along_axis].
  - assert (Y0 : y = 0) by axis_zero M Al.
    assert (Z0 : z = 0) by axis_zero M Al.
    subst y z. split; [exact S1|].
    assert (N1 : norm (V3 x 0 0) = Rabs x) by (unfold norm, inner; cbn [vx vy vz]; rewrite Rmult_0_l, !Rplus_0_r, <- AA; apply E, Rabs_pos).
    rewrite N1 in *. f_equal; cbn [vx vy vz]; unfold Rdiv; try ring. apply quotient; [exact S2|lra].
  - assert (X0 : x = 0) by axis_zero M Al.
    assert (Z0 : z = 0) by axis_zero M Al.
    subst x z. split; [destruct S1; [right|left]; lra|].
    assert (N1 : norm (V3 0 y 0) = Rabs y) by (unfold norm, inner; cbn [vx vy vz]; rewrite Rmult_0_l, Rplus_0_l, !Rplus_0_r, <- AA; apply E, Rabs_pos).
    rewrite N1 in *. f_equal; cbn [vx vy vz]; unfold Rdiv; try ring. apply quotient; [exact S2|lra].
  - assert (X0 : x = 0) by axis_zero M Al.
    assert (Y0 : y = 0) by axis_zero M Al.
    subst x y. split; [exact S1|].
    assert (N1 : norm (V3 0 0 z) = Rabs z) by (unfold norm, inner; cbn [vx vy vz]; rewrite Rmult_0_l, !Rplus_0_l, <- AA; apply E, Rabs_pos).
    rewrite N1 in *. f_equal; cbn [vx vy vz]; unfold Rdiv; try ring. apply quotient; [exact S2|lra].
Qed.

Section Tangent.
Context (parse : str -> option R) (cosine : R -> R) (atan2 : R -> R -> R).
Local Notation O := (exactly parse cosine atan2).

Theorem valve_follows : forall tx e planes plane f v size ua uo va vo, build_face O tx e planes plane = Ok f -> In v (f_vertices f) -> textured size ->
  bp_uv plane = UVValve ua uo va vo -> 0 < ux (bp_scale plane) -> 0 < uy (bp_scale plane) -> inner (outer (facing plane) ua) va <> 0 ->
  follows plane size (vt_tangent v)
  /\ shifts plane size (fst (vt_tangent v)) (inner ua ua / ux (bp_scale plane) / IZR (Z.of_N (fst size))) (inner va ua / uy (bp_scale plane) / IZR (Z.of_N (snd size))).
Proof.
  intros tx e planes plane f v size ua uo va vo E Hv (S1 & S2) Huv Sx Sy D.
  pose proof (real_tangent _ _ _ _ _ _ tx e planes plane f v E Hv) as T. unfold tangent_of in T. rewrite Huv in T. destruct T as (Et & Sg).
  destruct (vt_tangent v) as [t w]. cbn [fst snd] in *. subst t.
  pose proof (shifts_valve plane size ua ua uo va vo Huv) as H1. split; [|exact H1].
  pose proof (size_pos _ S1) as P1. pose proof (size_pos _ S2) as P2.
  pose proof (Rinv_0_lt_compat _ Sx) as Q1. pose proof (Rinv_0_lt_compat _ Sy) as Q2.
  destruct (unit_exists (facing plane)) as (u & U). destruct (unit_scaled _ _ U) as (k & _ & Kp & X & Y & Z).
  assert (K : 0 < k).
  { apply Kp. intros H. apply norm_zero in H. destruct H as (A & B & C). apply D. unfold inner, outer. cbn [vx vy vz]. rewrite A, B, C. ring. }
  set (b := V3 (w * vx (outer u ua)) (w * vy (outer u ua)) (w * vz (outer u ua))).
  pose proof (shifts_valve plane size b ua uo va vo Huv) as H2.
  exists b. do 4 eexists. split; [exists u; split; [exact U|reflexivity]|]. split; [exact H1|]. split; [|split; [exact H2|]].
  - assert (0 < inner ua ua).
    { assert (S : forall a, 0 <= a * a) by (intros a; pose proof (Rle_0_sqr a); unfold Rsqr in *; lra).
      pose proof (S (vx ua)). pose proof (S (vy ua)). pose proof (S (vz ua)). destruct (Req_dec (norm ua) 0) as [N|N].
      - apply norm_zero in N. destruct N as (A & B & C). exfalso. apply D. unfold inner, outer. cbn [vx vy vz]. rewrite A, B, C. ring.
      - unfold norm in N. destruct (Rle_lt_dec (inner ua ua) 0) as [L|L]; [|exact L]. exfalso. apply N. replace (inner ua ua) with 0; [apply sqrt_0|]. unfold inner in *. lra. }
    unfold Rdiv. apply Rmult_lt_0_compat; [apply Rmult_lt_0_compat|]; assumption.
  - replace (inner va b) with (k * (w * inner (outer (facing plane) ua) va)).
    + assert (W : w * inner (outer (facing plane) ua) va < 0) by (destruct Sg as [[A B]|[A B]]; [replace w with (-1) by lra|replace w with 1 by lra]; lra).
      set (d := w * inner (outer (facing plane) ua) va) in *. clearbody d. unfold Rdiv. apply Ropp_lt_cancel. rewrite Ropp_0.
      replace (- (k * d * / uy (bp_scale plane) * / IZR (Z.of_N (snd size)))) with (k * - d * / uy (bp_scale plane) * / IZR (Z.of_N (snd size))) by ring.
      apply Rmult_lt_0_compat; [apply Rmult_lt_0_compat; [apply Rmult_lt_0_compat; lra|]|]; assumption.
    + unfold b, inner, outer. cbn [vx vy vz]. rewrite X, Y, Z. ring.
Qed.

Lemma quat_none : forall k s v, true_quat k (- true_radians 0 * s) v = v.
Proof.
  intros k s [x y z]. unfold true_quat, true_radians. replace (- (0 * PI / 180) * s) with 0 by (unfold Rdiv; ring). rewrite cos_0, sin_0. cbn [vx vy vz]. f_equal; ring.
Qed.

Theorem standard_follows : forall tx e planes plane f v size uo vo, build_face O tx e planes plane = Ok f -> In v (f_vertices f) -> textured size ->
  bp_uv plane = UVQuake uo vo -> bp_rotation plane = 0 -> 0 < ux (bp_scale plane) -> uy (bp_scale plane) <> 0 -> proper plane ->
  follows plane size (vt_tangent v) /\ shifts plane size (fst (vt_tangent v)) (1 / ux (bp_scale plane) / IZR (Z.of_N (fst size))) 0.
Proof.
  intros tx e planes plane f v size uo vo E Hv (S1 & S2) Huv R0 Sx Sy Pr.
  pose proof (real_tangent _ _ _ _ _ _ tx e planes plane f v E Hv) as T. unfold tangent_of in T. rewrite Huv in T. destruct T as (a & bt & s & u & k & M & Bt & U & Et & Sk & Ew).
  rewrite R0, quat_none in Et. destruct (vt_tangent v) as [t w]. cbn [fst snd] in *. subst t.
  pose proof (shifts_quake plane size bt uo vo a Huv M) as H1. cbn zeta in H1. rewrite R0 in H1.
  assert (C0 : cos (true_radians 0) = 1 /\ sin (true_radians 0) = 0).
  { unfold true_radians. replace (0 * PI / 180) with 0 by (unfold Rdiv; ring). split; [apply cos_0|apply sin_0]. }
  destruct C0 as [C0 C1].
  assert (H1' : shifts plane size bt (1 / ux (bp_scale plane) / IZR (Z.of_N (fst size))) 0).
  { eapply shifts_eq; [exact H1| |]; unfold true_mat2, turned_by; rewrite C0, C1; destruct a; destruct Bt as [-> _]; cbn [projected ux uy vx vy vz]; unfold Rdiv; ring. }
  split; [|exact H1'].
  pose proof (size_pos _ S1) as P1. pose proof (size_pos _ S2) as P2. pose proof (Rinv_0_lt_compat _ Sx) as Q1.
  destruct (unit_scaled _ _ U) as (l & _ & Kp & X & Y & Z). specialize (Kp Pr).
  set (b := V3 (w * vx (outer u bt)) (w * vy (outer u bt)) (w * vz (outer u bt))).
  pose proof (shifts_quake plane size b uo vo a Huv M) as H2. cbn zeta in H2. rewrite R0 in H2. unfold true_mat2, turned_by in H2. rewrite C0, C1 in H2.
  exists b. do 4 eexists. split; [exists u; split; [exact U|reflexivity]|]. split; [exact H1'|]. split; [|split; [exact H2|]].
  - unfold Rdiv. rewrite Rmult_1_l. apply Rmult_lt_0_compat; assumption.
  - cbn [ux uy].
    assert (SY : 0 < k * / uy (bp_scale plane)).
    { destruct Sk as [[A ->]|[A ->]]; [rewrite Rmult_1_l; apply Rinv_0_lt_compat; lra|].
      replace (-1 * / uy (bp_scale plane)) with (/ - uy (bp_scale plane)) by (field; lra). apply Rinv_0_lt_compat. lra. }
    assert (NZ : forall n m r, norm n <> 0 -> Rabs (vy n) <= m -> Rabs (vx n) <= m -> Rabs (vz n) <= m -> r = m -> 0 < r).
    { intros n m r Nn A B C ->. destruct (Rle_lt_dec m 0) as [Q|Q]; [|exact Q]. exfalso. apply Nn.
      pose proof (Rabs_pos (vx n)). pose proof (Rabs_pos (vy n)). pose proof (Rabs_pos (vz n)).
      assert (Z0 : forall r, Rabs r <= 0 -> r = 0) by (intros r Hr; destruct (Req_dec r 0) as [?|N0]; [assumption|apply Rabs_pos_lt in N0; lra]).
      unfold norm, inner. rewrite (Z0 (vx n)), (Z0 (vy n)), (Z0 (vz n)) by lra. rewrite Rmult_0_l, Rplus_0_r, Rplus_0_r. apply sqrt_0. }
    assert (G : forall g, g < 0 -> g * (k * / uy (bp_scale plane)) * / IZR (Z.of_N (snd size)) < 0).
    { intros g Hg. apply Ropp_lt_cancel. rewrite Ropp_0. replace (- (g * (k * / uy (bp_scale plane)) * / IZR (Z.of_N (snd size)))) with (- g * (k * / uy (bp_scale plane)) * / IZR (Z.of_N (snd size))) by ring.
      apply Rmult_lt_0_compat; [apply Rmult_lt_0_compat; lra|exact P2]. }
    assert (AB : forall x s', sign x s' -> 0 < Rabs x -> 0 < s' * x).
    { intros x s' [[A ->]|[A ->]] Hx; [rewrite Rabs_pos_eq in Hx by exact A; lra|lra]. }
    destruct a; cbn [projected ux uy]; destruct Bt as [-> Sg]; unfold b, outer; cbn [vx vy vz]; cbn [mostly] in M.
    + replace ((0 * (w * (vz u * 0 - vx u * 0)) + 1 * - (w * (vx u * 1 - vy u * 0))) / uy (bp_scale plane) / IZR (Z.of_N (snd size)))
        with (- (l * (s * vx (facing plane))) * (k * / uy (bp_scale plane)) * / IZR (Z.of_N (snd size))) by (rewrite Ew, X; unfold Rdiv; ring).
      apply G. assert (0 < s * vx (facing plane)) by (apply AB; [exact Sg|eapply (NZ (facing plane)); [exact Pr| | | |reflexivity]; lra]).
      assert (0 < l * (s * vx (facing plane))) by (apply Rmult_lt_0_compat; assumption). lra.
    + replace ((0 * (w * (vy u * 0 - vz u * 0)) + 1 * - (w * (vx u * 0 - vy u * 1))) / uy (bp_scale plane) / IZR (Z.of_N (snd size)))
        with (- (l * (- s * vy (facing plane))) * (k * / uy (bp_scale plane)) * / IZR (Z.of_N (snd size))) by (rewrite Ew, Y; unfold Rdiv; ring).
      apply G. assert (0 < - s * vy (facing plane)) by (apply AB; [exact Sg|eapply (NZ (facing plane)); [exact Pr| | | |reflexivity]; lra]).
      assert (0 < l * (- s * vy (facing plane))) by (apply Rmult_lt_0_compat; assumption). lra.
    + replace ((0 * (w * (vy u * 0 - vz u * 0)) + 1 * - (w * (vz u * 1 - vx u * 0))) / uy (bp_scale plane) / IZR (Z.of_N (snd size)))
        with (- (l * (s * vz (facing plane))) * (k * / uy (bp_scale plane)) * / IZR (Z.of_N (snd size))) by (rewrite Ew, Z; unfold Rdiv; ring).
      apply G. assert (0 < s * vz (facing plane)) by (apply AB; [exact Sg|eapply (NZ (facing plane)); [exact Pr| | | |reflexivity]; lra]).
      assert (0 < l * (s * vz (facing plane))) by (apply Rmult_lt_0_compat; assumption). lra.
Qed.

Lemma turned_twice : forall t, cos (2 * t) = cos t * cos t - sin t * sin t /\ sin (2 * t) = 2 * sin t * cos t.
Proof. intros t. split; [apply cos_2a|apply sin_2a]. Qed.
(** The tangent of a standard plane facing along an axis turns one way, its texture coordinates the other. *)
Theorem standard_turned : forall tx e planes plane f v size uo vo, build_face O tx e planes plane = Ok f -> In v (f_vertices f) ->
  bp_uv plane = UVQuake uo vo -> along (facing plane) ->
  shifts plane size (fst (vt_tangent v)) (cos (2 * true_radians (bp_rotation plane)) / ux (bp_scale plane) / IZR (Z.of_N (fst size)))
    (sin (2 * true_radians (bp_rotation plane)) / uy (bp_scale plane) / IZR (Z.of_N (snd size))).
Proof.
  intros tx e planes plane f v size uo vo E Hv Huv Al.
  pose proof (real_tangent _ _ _ _ _ _ tx e planes plane f v E Hv) as T. unfold tangent_of in T. rewrite Huv in T. destruct T as (a & bt & s & u & k & M & Bt & U & Et & _ & _).
  destruct (vt_tangent v) as [t w]. cbn [fst snd] in *. subst t. set (r := true_radians (bp_rotation plane)) in *.
  destruct (turned_twice r) as (C2 & S2). rewrite C2, S2.
  pose proof (shifts_quake plane size (true_quat u (- r * s) bt) uo vo a Huv M) as H. cbn zeta in H. fold r in H.
  destruct (along_unit _ _ _ _ _ Al M U Bt) as [Ss ->].
  assert (Cs : cos (- r * s) = cos r) by (destruct Ss as [->| ->]; [rewrite Rmult_1_r; apply cos_neg|f_equal; ring]).
  assert (Sn : sin (- r * s) = - s * sin r) by (destruct Ss as [->| ->]; [rewrite Rmult_1_r, sin_neg; ring|replace (- r * -1) with r by ring; ring]).
  assert (Sq : s * s = 1) by (destruct Ss as [->| ->]; ring).
  eapply shifts_eq; [exact H| |]; clear H C2 S2 E Hv; unfold true_mat2, turned_by, true_quat; rewrite Cs, Sn; destruct a; destruct Bt as [-> _];
    cbn [projected along_axis ux uy]; unfold outer, inner; cbn [vx vy vz]; do 2 (apply f_equal2; [|reflexivity]); ring_simplify; rewrite <- ?Rsqr_pow2 in *; unfold Rsqr; rewrite ?Sq; try ring.
Qed.
End Tangent.
