(** A cube with one plane too many, whose centre is outside (C94). *)
From Coq Require Import Reals Lra Lia Permutation.
From Verif Require Import Prelude F32 Text MapModel GeoModel GeoSpec RealSpec WindSpec SolidSpec BaseProofs GeoProofs RealProofs WindProofs WindWitness SolidProofs SolidWitness CentreProofs.
Local Open Scope R_scope.

(** The cube from 9 to 10, and a plane that does not touch it at 11. *)
Definition lo9 : vec3 R := V3 9 9 9.
Definition beyond : brush_plane R := panel (V3 11 9 9) e2 e3.
Definition far : list (brush_plane R) :=
  [panel (V3 9 9 10) e1 e2; panel lo9 e2 e1; panel (V3 10 9 9) e2 e3; panel lo9 e3 e2; panel (V3 9 10 9) e3 e1; panel lo9 e1 e3; beyond].

Lemma far_reads : Forall2 (fun p abcd => let '(a, b, c, d) := abcd in reads p a b c d) far
  [(0, 0, 1, 10); (0, 0, -1, -9); (1, 0, 0, 10); (-1, 0, 0, -9); (0, 1, 0, 10); (0, -1, 0, -9); (1, 0, 0, 11)].
Proof.
  repeat (constructor; [split; [unfold facing, outer, minus, panel, lo9, beyond; cbn; f_equal; ring|intros x y z; unfold facing, outer, inner, minus, panel, lo9, beyond; cbn; ring]|]).
  constructor.
Qed.
Lemma far_norm : forall p, In p far -> norm (facing p) = 1.
Proof.
  intros p I. rewrite <- sqrt_1. unfold norm. f_equal. cbn in I.
  repeat destruct I as [<-|I]; try contradiction; unfold facing, inner, outer, minus, panel; cbn; ring.
Qed.
Lemma far_within : forall d x y z, (forall q, In q far -> within d q (V3 x y z)) <-> 9 - d <= x <= 10 + d /\ 9 - d <= y <= 10 + d /\ 9 - d <= z <= 10 + d /\ x <= 11 + d.
Proof.
  intros d x y z.
  assert (K : (forall q, In q far -> within d q (V3 x y z)) <-> (forall q, In q far -> inner (facing q) (minus (V3 x y z) (bp_v0 q)) <= d)).
  { split; intros H q I; specialize (H q I); unfold within in *; rewrite far_norm in * by assumption; lra. }
  rewrite K. clear K. pose proof far_reads as F. unfold far in F |- *.
  repeat match goal with H : Forall2 _ (_ :: _) (_ :: _) |- _ => inversion H; subst; clear H end.
  repeat match goal with H : reads _ _ _ _ _ |- _ => destruct H as (_ & H) end.
  split.
  - intros K.
    repeat match goal with H : forall x y z, inner (facing ?p) _ = _ |- _ => let k := fresh "k" in assert (k := K p ltac:(cbn; tauto)); rewrite H in k; clear H end. lra.
  - intros K q I. cbn in I. repeat (destruct I as [<-|I]; [match goal with H : forall x y z, inner (facing ?p) _ = _ |- context [facing ?p] => rewrite H end; lra|]). destruct I.
Qed.

Section Far.
Context (parse : str -> option R) (cosine radians : R -> R) (atan2 : R -> R -> R)
  (quat : vec3 R -> R -> vec3 R -> vec3 R) (mat2 : R -> vec2 R -> vec2 R).
Local Notation O := (real_num parse cosine radians atan2 quat mat2).

Lemma beyond_empty : forall tx e f, build_face O tx e far beyond = Ok f -> f_vertices f = [].
Proof.
  intros tx e f E. destruct (f_vertices f) as [|v l] eqn:V; [reflexivity|exfalso]. destruct (real_corners _ _ _ _ _ _ _ _ _ _ _ E) as (_ & C).
  assert (I : In (vt_pos v) (map vt_pos (f_vertices f))) by (rewrite V; now left). apply C in I. destruct I as (_ & _ & _ & _ & _ & _ & _ & _ & A & _ & _ & W).
  destruct (vt_pos v) as [x y z]. apply far_within in W. unfold on_plane, beyond, facing, panel, inner, outer, minus in A. cbn in A. lra.
Qed.

Lemma centre_low : forall tx e pl f, In pl far -> build_face O tx e far pl = Ok f -> vx (f_center f) <= 10 + / 1000.
Proof.
  intros tx e pl f I E. destruct (f_vertices f) as [|v l] eqn:V; [rewrite (empty_centre _ _ _ _ _ _ _ _ _ _ _ E V); cbn; lra|].
  assert (N : f_vertices f <> []) by (rewrite V; discriminate). destruct (face_centre _ _ _ _ _ _ _ _ _ _ _ E N) as (_ & W).
  destruct (f_center f) as [x y z]. apply far_within in W. cbn. lra.
Qed.

Theorem outside : forall tx e, exists planes b q, build_brush O tx e planes = Ok b
  /\ (forall q, In q planes -> proper q) /\ bounded (solid planes)
  /\ (exists x, forall q, In q planes -> inner (facing q) (minus x (bp_v0 q)) < 0)
  /\ In q planes /\ ~ within (/ 4) q (bg_center b).
Proof.
  intros tx e.
  assert (B : exists b, build_brush O tx e far = Ok b).
  { unfold build_brush. destruct (mapM_total _ _ (build_face O tx e far) far (fun q _ => real_total _ _ _ _ _ _ tx e far q)) as (fs & ->). eexists. reflexivity. }
  destruct B as (b & B). exists far, b, (panel lo9 e3 e2). split; [exact B|]. split; [|split; [|split; [|split]]].
  - intros q I. unfold proper. rewrite far_norm by exact I. lra.
  - exists 10. intros [x y z] S. apply far_within in S. cbn. rewrite !Rabs_pos_eq by lra. lra.
  - exists (V3 (19 / 2) (19 / 2) (19 / 2)). intros q I. cbn in I.
    repeat (destruct I as [<-|I]; [unfold facing, inner, outer, minus, panel, beyond, lo9; cbn; lra|]). destruct I.
  - cbn. tauto.
  - destruct (brush_mean _ _ _ _ _ _ _ _ _ _ B) as (M & F).
    assert (K : forall pl f, In pl far -> build_face O tx e far pl = Ok f -> vx (f_center f) <= 10 + / 1000) by (intros; eapply centre_low; eassumption).
    unfold far in F. do 7 (inversion F as [|? ? ? ? ? F']; subst; clear F; rename F' into F). inversion F; subst; clear F.
    rename y into c0, y0 into c1, y1 into c2, y2 into c3, y3 into c4, y4 into c5, y5 into c6.
    fold far in *.
    assert (Z : f_center c6 = V3 0 0 0) by (eapply empty_centre; [eassumption|eapply beyond_empty; eassumption]).
    assert (L : vx (f_center c0) <= 10 + / 1000 /\ vx (f_center c1) <= 10 + / 1000 /\ vx (f_center c2) <= 10 + / 1000 /\ vx (f_center c3) <= 10 + / 1000
      /\ vx (f_center c4) <= 10 + / 1000 /\ vx (f_center c5) <= 10 + / 1000) by (repeat split; eapply K; try eassumption; cbn; tauto).
    match goal with H : _ = bg_faces b |- _ => rewrite <- H in M end.
    assert (N : map f_center [c0; c1; c2; c3; c4; c5; c6] <> []) by discriminate.
    pose proof (mean_total _ _ _ _ _ _ e1 _ _ N M) as T. cbn [map total length] in T. rewrite Z in T. unfold inner in T. cbn [e1 vx vy vz] in T.
    replace (INR 7) with 7 in T by (cbn; ring).
    unfold within. rewrite (far_norm (panel lo9 e3 e2)) by (cbn; tauto).
    replace (inner (facing (panel lo9 e3 e2)) (minus (bg_center b) (bp_v0 (panel lo9 e3 e2)))) with (9 - vx (bg_center b)) by (unfold facing, inner, outer, minus, panel, lo9; cbn; ring).
    lra.
Qed.
End Far.

Theorem cube_centre : forall parse cosine radians atan2 quat mat2 tx e, exists b,
  build_brush (real_num parse cosine radians atan2 quat mat2) tx e cube = Ok b
  /\ (forall f, In f (bg_faces b) -> f_vertices f <> [] /\ crisp cube f)
  /\ exists f v, In f (bg_faces b) /\ In v (f_vertices f) /\ ~ on_plane lid (vt_pos v).
Proof.
  intros parse cosine radians atan2 quat mat2 tx e. set (O := real_num parse cosine radians atan2 quat mat2).
  assert (B : exists b, build_brush O tx e cube = Ok b).
  { unfold build_brush. destruct (mapM_total _ _ (build_face O tx e cube) cube (fun q _ => real_total _ _ _ _ _ _ tx e cube q)) as (fs & ->). eexists. reflexivity. }
  destruct B as (b & B). exists b. split; [exact B|]. destruct (brush_mean _ _ _ _ _ _ _ _ _ _ B) as (_ & F).
  assert (N : forall pl f, In pl cube -> build_face O tx e cube pl = Ok f -> f_vertices f <> []).
  { intros pl f I E Z. pose proof (cube_three _ _ _ _ _ _ _ _ _ _ I E) as L. rewrite Z in L. cbn in L. lia. }
  split.
  - intros f I. destruct (Forall2_right _ _ _ _ F I) as (pl & Ip & E). split; [apply (N pl); assumption|]. apply (cube_crisp _ _ _ _ _ _ _ _ _ _ Ip E).
  - unfold cube in F. inversion F as [|pa f1 la ma E1 F1 Q1 Q2]. inversion F1 as [|pb f2 lb mb E2 F2 Q3 Q4]. subst. fold cube in E1, E2. clear F F1 F2.
    assert (I2 : In (panel o0 e2 e1) cube) by (cbn; tauto). pose proof (N _ _ I2 E2) as NE. destruct (f_vertices f2) as [|v l] eqn:V; [congruence|].
    exists f2, v. split; [cbn; tauto|]. split; [rewrite V; now left|].
    assert (Iv : In (vt_pos v) (map vt_pos (f_vertices f2))) by (rewrite V; now left).
    apply (real_corners _ _ _ _ _ _ _ _ _ _ _ E2) in Iv. destruct Iv as (p1 & p2 & _ & _ & _ & _ & _ & _ & A & _). clear - A. destruct (vt_pos v) as [x y z]. intros L. numbers. lra.
Qed.
