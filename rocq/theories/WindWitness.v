(** A real angle function and a unit cube, to try C71 and C72 on. *)
From Coq Require Import Reals Lra Psatz.
From Verif Require Import Prelude F32 Text MapModel GeoModel GeoSpec RealSpec WindSpec BaseProofs RealProofs.
Local Open Scope R_scope.

Definition real_atan2 (y x : R) : R :=
  if Rlt_dec 0 x then atan (y / x)
  else if Rlt_dec x 0 then (if Rle_dec 0 y then atan (y / x) + PI else atan (y / x) - PI)
  else if Rlt_dec 0 y then PI / 2 else - (PI / 2).

Lemma atan_split : forall x y, x <> 0 -> x = (x / cos (atan (y / x))) * cos (atan (y / x)) /\ y = (x / cos (atan (y / x))) * sin (atan (y / x)).
Proof.
  intros x y N. pose proof (atan_bound (y / x)) as B. assert (C : 0 < cos (atan (y / x))) by (apply cos_gt_0; lra).
  pose proof (tan_atan (y / x)) as T. unfold tan in T. split; [field; lra|].
  apply (Rmult_eq_compat_l x) in T. replace (x * (y / x)) with y in T by (field; exact N). rewrite <- T at 1. field. lra.
Qed.
Lemma atan_nonpos : forall z, z <= 0 -> atan z <= 0.
Proof. intros z [H| ->]; [|rewrite atan_0; lra]. left. rewrite <- atan_0. now apply atan_increasing. Qed.

Lemma real_polar : polar_angle real_atan2.
Proof.
  intros x y N. unfold real_atan2. pose proof PI_RGT_0 as P. pose proof (atan_bound (y / x)) as B.
  destruct (Rlt_dec 0 x) as [X|X]; [|destruct (Rlt_dec x 0) as [X'|X'];
    [|assert (x = 0) as -> by lra; destruct (Rlt_dec 0 y) as [Y|Y]]].
  - assert (C : 0 < cos (atan (y / x))) by (apply cos_gt_0; lra). split; [lra|].
    exists (x / cos (atan (y / x))). split; [now apply Rdiv_lt_0_compat|]. apply atan_split. lra.
  - assert (C : 0 < cos (atan (y / x))) by (apply cos_gt_0; lra). destruct (atan_split x y ltac:(lra)) as (S1 & S2).
    assert (D : 0 < - x / cos (atan (y / x))) by (apply Rdiv_lt_0_compat; lra). destruct (Rle_dec 0 y) as [Y|Y].
    + split.
      { assert (Xi : / x < 0) by now apply Rinv_lt_0_compat. assert (y / x <= 0) by (unfold Rdiv; nra). pose proof (atan_nonpos _ H). lra. }
      exists (- x / cos (atan (y / x))). split; [exact D|]. rewrite neg_cos, neg_sin.
      split; [rewrite S1 at 1|rewrite S2 at 1]; unfold Rdiv; ring.
    + split.
      { assert (Xi : / x < 0) by now apply Rinv_lt_0_compat. assert (0 < y / x) by (unfold Rdiv; nra).
        assert (0 < atan (y / x)) by (rewrite <- atan_0; now apply atan_increasing). lra. }
      exists (- x / cos (atan (y / x))). split; [exact D|].
      replace (atan (y / x) - PI) with (- (PI - atan (y / x))) by ring. rewrite cos_neg, sin_neg, Rtrigo_facts.cos_pi_minus, Rtrigo_facts.sin_pi_minus.
      split; [rewrite S1 at 1|rewrite S2 at 1]; unfold Rdiv; ring.
  - split; [lra|]. exists y. rewrite cos_PI2, sin_PI2. lra.
  - split; [lra|]. exists (- y). rewrite cos_neg, sin_neg, cos_PI2, sin_PI2. lra.
Qed.

(** The plane through [o], [o + q], [o + p]. *)
Definition panel (o p q : vec3 R) : brush_plane R :=
  BrushPlane o (V3 (vx o + vx q) (vy o + vy q) (vz o + vz q)) (V3 (vx o + vx p) (vy o + vy p) (vz o + vz p)) (lit "brick") (UVQuake 0 0) 0 (V2 1 1) ExNone.
Definition e1 : vec3 R := V3 1 0 0.
Definition e2 : vec3 R := V3 0 1 0.
Definition e3 : vec3 R := V3 0 0 1.
Definition o0 : vec3 R := V3 0 0 0.
Definition lid : brush_plane R := panel e3 e1 e2.
Definition cube : list (brush_plane R) := [lid; panel o0 e2 e1; panel e1 e2 e3; panel o0 e3 e2; panel e2 e3 e1; panel o0 e1 e3].

Lemma cube_norm : forall p, In p cube -> norm (facing p) = 1.
Proof.
  intros p I. rewrite <- sqrt_1. unfold norm. f_equal. cbn in I.
  repeat destruct I as [<-|I]; try contradiction; unfold facing, inner, outer, minus, panel; cbn; ring.
Qed.
Lemma cube_proper : forall p, In p cube -> proper p.
Proof. intros p I. unfold proper. rewrite (cube_norm p I). lra. Qed.

Lemma lid_corner : forall parse cosine radians atan2 quat mat2 f tx e,
  build_face (real_num parse cosine radians atan2 quat mat2) tx e cube lid = Ok f ->
  forall x, In x (map vt_pos (f_vertices f)) <-> vz x = 1 /\ (vx x = 0 \/ vx x = 1) /\ (vy x = 0 \/ vy x = 1).
Proof.
  intros parse cosine radians atan2 quat mat2 f tx e E [x y z]. rewrite (proj2 (real_corners _ _ _ _ _ _ _ _ _ _ _ E) (V3 x y z)). cbn [vx vy vz]. split.
  - intros (p1 & p2 & I1 & I2 & _ & _ & _ & S & A & B & C & _). unfold spans in S. rewrite !cube_norm in S by (assumption || (cbn; auto)).
    unfold on_plane in *. cbn in I1, I2.
    repeat destruct I1 as [<-|I1]; try contradiction; repeat destruct I2 as [<-|I2]; try contradiction;
      unfold facing, inner, outer, minus, lid, panel in *; cbn in S, A, B, C; try lra;
      (split; [lra|]; split; (left; lra) || (right; lra)).
  - intros (Z & X & Y).
    assert (W : forall q, In q cube -> within (/ 1000) q (V3 x y z)).
    { intros q I. unfold within. rewrite (cube_norm q I). cbn in I.
      repeat destruct I as [<-|I]; try contradiction; unfold facing, inner, outer, minus, lid, panel; cbn; destruct X, Y; lra. }
    assert (Pick : forall p1 p2, In p1 cube -> In p2 cube -> spans lid p1 p2 -> on_plane p1 (V3 x y z) -> on_plane p2 (V3 x y z) ->
       exists p1 p2, In p1 cube /\ In p2 cube /\ proper lid /\ proper p1 /\ proper p2 /\ spans lid p1 p2
         /\ on_plane lid (V3 x y z) /\ on_plane p1 (V3 x y z) /\ on_plane p2 (V3 x y z) /\ forall q, In q cube -> within (/ 1000) q (V3 x y z)).
    { intros p1 p2 I1 I2 S A B. exists p1, p2. repeat (split; [first [assumption|apply cube_proper; cbn; auto]|]). split; [|auto].
      unfold on_plane, facing, inner, outer, minus, lid, panel. cbn. lra. }
    assert (Sp : forall p1 p2, In p1 cube -> In p2 cube -> 1 <= inner (outer (facing lid) (facing p1)) (facing p2) -> spans lid p1 p2).
    { intros p1 p2 I1 I2 D. unfold spans. rewrite !cube_norm by (assumption || (cbn; auto)). lra. }
    assert (I1 : In (panel e1 e2 e3) cube) by (cbn; auto 10). assert (I2 : In (panel o0 e3 e2) cube) by (cbn; auto 10).
    assert (I3 : In (panel e2 e3 e1) cube) by (cbn; auto 10). assert (I4 : In (panel o0 e1 e3) cube) by (cbn; auto 10).
    destruct X as [X|X], Y as [Y|Y].
    + apply (Pick (panel o0 e3 e2) (panel o0 e1 e3)); auto; try apply Sp; auto; unfold on_plane, facing, inner, outer, minus, lid, panel; cbn; lra.
    + apply (Pick (panel e2 e3 e1) (panel o0 e3 e2)); auto; try apply Sp; auto; unfold on_plane, facing, inner, outer, minus, lid, panel; cbn; lra.
    + apply (Pick (panel o0 e1 e3) (panel e1 e2 e3)); auto; try apply Sp; auto; unfold on_plane, facing, inner, outer, minus, lid, panel; cbn; lra.
    + apply (Pick (panel e1 e2 e3) (panel e2 e3 e1)); auto; try apply Sp; auto; unfold on_plane, facing, inner, outer, minus, lid, panel; cbn; lra.
Qed.

Lemma lid_face : forall parse cosine radians quat mat2 tx e, exists f,
  build_face (real_num parse cosine radians real_atan2 quat mat2) tx e cube lid = Ok f /\ crisp cube f /\ (3 <= length (f_vertices f))%nat.
Proof.
  intros parse cosine radians quat mat2 tx e.
  destruct (real_total parse cosine radians real_atan2 quat mat2 tx e cube lid) as [f E]. exists f. split; [exact E|].
  pose proof (lid_corner _ _ _ _ _ _ _ _ _ E) as C. split.
  - intros v q I Iq. pose proof (proj1 (C (vt_pos v)) (in_map vt_pos _ _ I)) as (Z & X & Y). unfold within. rewrite (cube_norm q Iq). cbn in Iq.
    repeat destruct Iq as [<-|Iq]; try contradiction; unfold facing, inner, outer, minus, lid, panel; cbn; destruct X, Y; lra.
  - rewrite <- (map_length vt_pos). change 3%nat with (length [V3 0 0 1; V3 0 1 1; V3 1 0 1]). apply NoDup_incl_length.
    + repeat constructor; cbn; intros H; repeat destruct H as [H|H]; try contradiction; injection H; intros; lra.
    + intros x I. apply C. cbn in I. repeat destruct I as [<-|I]; try contradiction; cbn; auto.
Qed.

Lemma lid_variants : forall parse cosine radians quat mat2 tx e tx' e', exists f f' f'',
  build_face (real_num parse cosine radians real_atan2 quat mat2) tx e cube lid = Ok f /\ crisp cube f /\ f_vertices f <> [] /\
  build_face (real_num parse cosine radians real_atan2 quat mat2) tx' e' (rev cube ++ cube) lid = Ok f' /\
  (forall q, In q cube <-> In q (rev cube ++ cube)) /\
  build_face (real_num parse cosine radians real_atan2 quat mat2) tx e (map (moved_plane e1) cube) (moved_plane e1 lid) = Ok f''.
Proof.
  intros parse cosine radians quat mat2 tx e tx' e'. destruct (lid_face parse cosine radians quat mat2 tx e) as (f & E & C & L).
  destruct (real_total parse cosine radians real_atan2 quat mat2 tx' e' (rev cube ++ cube) lid) as [f' E'].
  destruct (real_total parse cosine radians real_atan2 quat mat2 tx e (map (moved_plane e1) cube) (moved_plane e1 lid)) as [f'' E''].
  exists f, f', f''. repeat (split; [assumption|]). split; [intros Z; rewrite Z in L; cbn in L; lia|]. split; [exact E'|]. split; [|exact E''].
  intros q. rewrite in_app_iff, <- in_rev. tauto.
Qed.
