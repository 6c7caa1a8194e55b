(** A cube cut in two, to try C145 on. *)
From Coq Require Import Reals Lra Psatz.
From Verif Require Import Prelude F32 Text MapModel GeoModel GeoSpec RealSpec WindSpec SolidSpec RestateSpec CutSpec
  BaseProofs RealProofs WindProofs WindWitness SolidProofs SolidWitness CutProofs.
Local Open Scope R_scope.

Definition half : vec3 R := V3 (/ 2) 0 0.
Definition cut : brush_plane R := panel half e2 e3.
Definition other : brush_plane R := panel half e3 e2.

Lemma cut_backs : backs cut other.
Proof. split; [unfold on_plane, facing, inner, outer, minus, cut, other, panel, half; cbn; lra|]. exists 1. split; [lra|]. unfold facing, outer, minus, cut, other, panel, half; cbn. f_equal; lra. Qed.

Definition sign (s : R) : Prop := s = 1 \/ s = -1.
Definition ends (a : R) : Prop := a = 0 \/ a = 1.
Definition square_on (p : brush_plane R) : Prop := exists s a, sign s /\
  ((reads p s 0 0 (s * a) /\ (ends a \/ a = / 2)) \/ (reads p 0 s 0 (s * a) /\ ends a) \/ (reads p 0 0 s (s * a) /\ ends a)).
Lemma all_square : forall p, p = cut \/ p = other \/ In p cube -> square_on p.
Proof.
  intros p [->|[->|I]].
  - exists 1, (/ 2). split; [now left|]. left. split; [|now right]. split; [unfold facing, outer, minus, cut, panel, half; cbn; f_equal; lra|intros; unfold facing, inner, outer, minus, cut, panel, half; cbn; lra].
  - exists (-1), (/ 2). split; [now right|]. left. split; [|now right]. split; [unfold facing, outer, minus, other, panel, half; cbn; f_equal; lra|intros; unfold facing, inner, outer, minus, other, panel, half; cbn; lra].
  - destruct (cube_reads p I) as [H|[H|[H|[H|[H|H]]]]].
    + exists 1, 1. split; [now left|]. right; right. split; [|now right]. now rewrite Rmult_1_l.
    + exists (-1), 0. split; [now right|]. right; right. split; [|now left]. now rewrite Rmult_0_r.
    + exists 1, 1. split; [now left|]. left. split; [|left; now right]. now rewrite Rmult_1_l.
    + exists (-1), 0. split; [now right|]. left. split; [|left; now left]. now rewrite Rmult_0_r.
    + exists 1, 1. split; [now left|]. right; left. split; [|now right]. now rewrite Rmult_1_l.
    + exists (-1), 0. split; [now right|]. right; left. split; [|now left]. now rewrite Rmult_0_r.
Qed.
Lemma square_norm : forall p, square_on p -> norm (facing p) = 1.
Proof. intros p (s & a & S & [((F & _) & _)|[((F & _) & _)|((F & _) & _)]]); rewrite F; rewrite <- sqrt_1; unfold norm, inner; cbn [vx vy vz]; f_equal; destruct S as [-> | ->]; lra. Qed.
Lemma sign_product : forall s t u, sign s -> sign t -> sign u -> 0 < s * t * u -> s * t * u = 1.
Proof. intros s t u [-> | ->] [-> | ->] [-> | ->]; lra. Qed.
Lemma sign_out : forall s a x, sign s -> s * x - s * a = 0 -> x = a.
Proof. intros s a x [-> | ->]; lra. Qed.
Lemma square_meet : forall p p1 p2 x y z, square_on p -> square_on p1 -> square_on p2 -> on_plane p (V3 x y z) -> on_plane p1 (V3 x y z) -> on_plane p2 (V3 x y z) ->
  0 < inner (outer (facing p) (facing p1)) (facing p2) ->
  inner (outer (facing p) (facing p1)) (facing p2) = 1 /\ (ends x \/ x = / 2) /\ ends y /\ ends z.
Proof.
  intros p p1 p2 x y z (s & a & S & H) (s1 & a1 & S1 & H1) (s2 & a2 & S2 & H2). unfold on_plane.
  destruct H as [((F & E) & A)|[((F & E) & A)|((F & E) & A)]]; rewrite E, F; clear E F;
  (destruct H1 as [((F & E) & A1)|[((F & E) & A1)|((F & E) & A1)]]; rewrite E, F; clear E F;
   (destruct H2 as [((F & E) & A2)|[((F & E) & A2)|((F & E) & A2)]]; rewrite E, F; clear E F;
    unfold inner, outer; cbn [vx vy vz]; intros G G1 G2 D; try (exfalso; lra))).
  all: split; [match goal with |- ?e = 1 => first
    [ replace e with (s * s1 * s2) in * by ring; now apply sign_product | replace e with (- s * s1 * s2) in * by ring; apply sign_product; try assumption; destruct S as [-> | ->]; [right|left]; lra ] end|].
  all: repeat split; first
    [ rewrite (sign_out s a _ S) by lra; exact A | rewrite (sign_out s1 a1 _ S1) by lra; exact A1 | rewrite (sign_out s2 a2 _ S2) by lra; exact A2 ].
Qed.
Lemma square_sharp : forall planes p, (forall q, In q planes -> square_on q) -> square_on p -> sharp planes p.
Proof.
  intros planes p Q I p1 p2 [x y z] I1 I2 D A B (C & _). unfold spans. rewrite !square_norm by auto.
  rewrite (proj1 (square_meet p p1 p2 x y z I (Q _ I1) (Q _ I2) C A B D)). lra.
Qed.
Lemma square_crisp : forall parse cosine radians atan2 quat mat2 tx e planes plane f, (forall q, In q planes -> square_on q) -> square_on plane ->
  build_face (real_num parse cosine radians atan2 quat mat2) tx e planes plane = Ok f -> crisp planes f.
Proof.
  intros parse cosine radians atan2 quat mat2 tx e planes plane f Q I E v q Iv Iq. destruct (real_corners _ _ _ _ _ _ _ _ _ _ _ E) as (_ & C).
  assert (K := proj1 (C _) (in_map vt_pos _ _ Iv)). clear C E Iv. destruct K as (p1 & p2 & I1 & I2 & _ & _ & _ & S & A & B & C & W).
  specialize (W q Iq). unfold spans in S. rewrite !square_norm in S by auto. destruct (vt_pos v) as [x y z].
  destruct (square_meet plane p1 p2 x y z I (Q _ I1) (Q _ I2) A B C ltac:(lra)) as (_ & X & Y & Z).
  unfold within in *. rewrite square_norm in * by auto. destruct (Q q Iq) as (s & a & G & H). unfold ends in *.
  destruct H as [((F & E) & T)|[((F & E) & T)|((F & E) & T)]]; rewrite E in *; clear E F; destruct G as [-> | ->].
  1, 2: destruct X as [[-> | ->]| ->], T as [[-> | ->]| ->]; lra.
  1, 2: destruct Y as [-> | ->], T as [-> | ->]; lra.
  1, 2: destruct Z as [-> | ->], T as [-> | ->]; lra.
Qed.
Lemma square_proper : forall p, square_on p -> proper p.
Proof. intros p H. unfold proper. rewrite (square_norm p H). lra. Qed.

Theorem cube_cut : backs cut other /\ adds cut cube (cut :: cube) /\ adds other cube (other :: cube) /\ polar_angle real_atan2 /\
  (solid (cut :: cube) (V3 (/ 4) 0 0) /\ ~ solid (other :: cube) (V3 (/ 4) 0 0)) /\ (solid (other :: cube) (V3 1 0 0) /\ ~ solid (cut :: cube) (V3 1 0 0)) /\
  forall parse cosine radians quat mat2 tx e, let O := real_num parse cosine radians real_atan2 quat mat2 in
    (exists f, build_face O tx e (cut :: cube) cut = Ok f /\ crisp (cut :: cube) f /\ In half (map vt_pos (f_vertices f)))
    /\ (exists f f1 f2, build_face O tx e cube lid = Ok f /\ build_face O tx e (cut :: cube) lid = Ok f1 /\ build_face O tx e (other :: cube) lid = Ok f2 /\
      proper lid /\ crisp cube f /\ sharp cube lid /\ crisp (cut :: cube) f1 /\ sharp (cut :: cube) lid /\ crisp (other :: cube) f2 /\ sharp (other :: cube) lid /\ bounded (side cube lid)).
Proof.
  assert (Q0 : forall q, In q cube -> square_on q) by (intros q I; apply all_square; auto).
  assert (Q1 : forall q, In q (cut :: cube) -> square_on q) by (intros q [<-|I]; apply all_square; auto).
  assert (Q2 : forall q, In q (other :: cube) -> square_on q) by (intros q [<-|I]; apply all_square; auto).
  assert (Sl : square_on lid) by (apply Q0; now left).
  assert (Sc : square_on cut) by (apply Q1; now left). assert (So : square_on other) by (apply Q2; now left).
  assert (Wc : forall x y z, within 0 cut (V3 x y z) <-> x <= / 2) by (intros; unfold within; rewrite (square_norm _ Sc); unfold facing, inner, outer, minus, cut, panel, half; cbn; split; intros; lra).
  assert (Wo : forall x y z, within 0 other (V3 x y z) <-> / 2 <= x) by (intros; unfold within; rewrite (square_norm _ So); unfold facing, inner, outer, minus, other, panel, half; cbn; split; intros; lra).
  assert (C : forall x y z, 0 <= x <= 1 /\ 0 <= y <= 1 /\ 0 <= z <= 1 -> solid cube (V3 x y z)) by (intros; now apply cube_solid).
  split; [exact cut_backs|]. split; [intros q; cbn [In]; intuition|]. split; [intros q; cbn [In]; intuition|]. split; [exact real_polar|].
  split; [split; [intros q [<-|I]; [apply Wc; lra|apply (C (/ 4) 0 0); [lra|exact I]]|intros H; specialize (H other (or_introl eq_refl)); apply Wo in H; lra]|].
  split; [split; [intros q [<-|I]; [apply Wo; lra|apply (C 1 0 0); [lra|exact I]]|intros H; specialize (H cut (or_introl eq_refl)); apply Wc in H; lra]|].
  intros parse cosine radians quat mat2 tx e O. split.
  - destruct (real_total parse cosine radians real_atan2 quat mat2 tx e (cut :: cube) cut) as (f & E). exists f. split; [exact E|]. split; [exact (square_crisp _ _ _ _ _ _ _ _ _ _ _ Q1 Sc E)|].
    apply (proj2 (real_corners _ _ _ _ _ _ _ _ _ _ _ E)). exists (panel o0 e1 e3), (panel o0 e2 e1).
    assert (J1 : In (panel o0 e2 e1) (cut :: cube)) by (cbn; auto 10). assert (J2 : In (panel o0 e1 e3) (cut :: cube)) by (cbn; auto 10).
    split; [exact J2|]. split; [exact J1|]. split; [now apply square_proper|]. split; [apply square_proper; auto|]. split; [apply square_proper; auto|].
    split; [unfold spans; rewrite !square_norm by auto; unfold facing, inner, outer, minus, cut, panel, half, e1, e2, e3, o0; cbn; lra|].
    split; [unfold cut, half; numbers; cbn; lra|]. split; [unfold half; numbers; cbn; lra|]. split; [unfold half; numbers; cbn; lra|].
    intros q Iq. assert (D : within 0 q half) by (destruct Iq as [<-|I]; [apply Wc; lra|apply (C (/ 2) 0 0); [lra|exact I]]).
    unfold within in *. rewrite square_norm in * by auto. lra.
  - destruct (real_total parse cosine radians real_atan2 quat mat2 tx e cube lid) as (f & E). destruct (real_total parse cosine radians real_atan2 quat mat2 tx e (cut :: cube) lid) as (f1 & E1).
    destruct (real_total parse cosine radians real_atan2 quat mat2 tx e (other :: cube) lid) as (f2 & E2). exists f, f1, f2.
    split; [exact E|]. split; [exact E1|]. split; [exact E2|]. split; [now apply square_proper|].
    split; [exact (square_crisp _ _ _ _ _ _ _ _ _ _ _ Q0 Sl E)|]. split; [now apply square_sharp|].
    split; [exact (square_crisp _ _ _ _ _ _ _ _ _ _ _ Q1 Sl E1)|]. split; [now apply square_sharp|].
    split; [exact (square_crisp _ _ _ _ _ _ _ _ _ _ _ Q2 Sl E2)|]. split; [now apply square_sharp|].
    destruct cube_bounded as (m & B). exists m. intros x (_ & S). now apply B.
Qed.
