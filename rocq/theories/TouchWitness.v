(** A cube with a seventh plane along one of its edges, to try C81 on. *)
From Coq Require Import Reals Lra Psatz Lia.
From Verif Require Import Prelude F32 Text MapModel GeoModel GeoSpec RealSpec WindSpec SolidSpec BaseProofs RealProofs WindProofs WindWitness SolidProofs SolidWitness.
Local Open Scope R_scope.

Definition ridge : brush_plane R := panel (V3 1 1 0) e3 (V3 1 (-1) 0).
Definition ridged : list (brush_plane R) := ridge :: cube.

Lemma ridge_reads : reads ridge 1 1 0 2.
Proof. unfold ridge. split; [unfold facing, outer, minus, panel; cbn; f_equal; ring|intros x y z; numbers; ring]. Qed.
Lemma ridged_reads : forall p, In p ridged -> reads p 1 1 0 2 \/
  reads p 0 0 1 1 \/ reads p 0 0 (-1) 0 \/ reads p 1 0 0 1 \/ reads p (-1) 0 0 0 \/ reads p 0 1 0 1 \/ reads p 0 (-1) 0 0.
Proof. intros p [<-|I]; [left; exact ridge_reads|right; now apply cube_reads]. Qed.
Lemma ridged_norm : forall p, In p ridged -> 1 <= norm (facing p) <= 2.
Proof.
  intros p [<-|I]; [|rewrite cube_norm by exact I; lra]. rewrite (proj1 ridge_reads). unfold norm, inner. cbn [vx vy vz]. split.
  - rewrite <- sqrt_1 at 1. apply sqrt_le_1_alt. lra.
  - rewrite <- (sqrt_pow2 2) by lra. apply sqrt_le_1_alt. lra.
Qed.
Lemma ridged_proper : forall p, In p ridged -> proper p.
Proof. intros p I. unfold proper. pose proof (ridged_norm p I). lra. Qed.
Lemma ridged_solid : forall x y z, solid ridged (V3 x y z) <-> 0 <= x <= 1 /\ 0 <= y <= 1 /\ 0 <= z <= 1.
Proof.
  intros x y z. rewrite <- cube_solid. split; [intros H q I; apply H; now right|]. intros H q [<-|I]; [|now apply H].
  apply cube_solid in H. apply slack_within. unfold slack. rewrite (proj2 ridge_reads). lra.
Qed.
Lemma ridged_near : forall x y z, (forall q, In q ridged -> within (/ 1000) q (V3 x y z)) -> - / 500 <= x <= 1 + / 500 /\ - / 500 <= y <= 1 + / 500 /\ - / 500 <= z <= 1 + / 500.
Proof.
  intros x y z H. assert (K : forall q, In q ridged -> inner (facing q) (minus (V3 x y z) (bp_v0 q)) <= / 500).
  { intros q I. specialize (H q I). unfold within in H. pose proof (ridged_norm q I). lra. }
  pose proof (K (panel e1 e2 e3)) as H1. pose proof (K (panel o0 e3 e2)) as H2. pose proof (K (panel e2 e3 e1)) as H3.
  pose proof (K (panel o0 e1 e3)) as H4. pose proof (K lid) as H5. pose proof (K (panel o0 e2 e1)) as H6. clear H K.
  specialize (H1 ltac:(cbn; auto 10)). specialize (H2 ltac:(cbn; auto 10)). specialize (H3 ltac:(cbn; auto 10)).
  specialize (H4 ltac:(cbn; auto 10)). specialize (H5 ltac:(cbn; auto 10)). specialize (H6 ltac:(cbn; auto 10)).
  numbers. lra.
Qed.
Lemma ridged_meet : forall p p1 p2 x y z, In p ridged -> In p1 ridged -> In p2 ridged -> on_plane p (V3 x y z) -> on_plane p1 (V3 x y z) -> on_plane p2 (V3 x y z) ->
  - / 500 <= x <= 1 + / 500 /\ - / 500 <= y <= 1 + / 500 /\ - / 500 <= z <= 1 + / 500 -> 0 < inner (outer (facing p) (facing p1)) (facing p2) ->
  1 <= inner (outer (facing p) (facing p1)) (facing p2) /\ (x = 0 \/ x = 1) /\ (y = 0 \/ y = 1) /\ (z = 0 \/ z = 1).
Proof.
  intros p p1 p2 x y z I I1 I2. unfold on_plane.
  destruct (ridged_reads p I) as [(F & E)|[(F & E)|[(F & E)|[(F & E)|[(F & E)|[(F & E)|(F & E)]]]]]]; rewrite E, F; clear E F I;
  (destruct (ridged_reads p1 I1) as [(F & E)|[(F & E)|[(F & E)|[(F & E)|[(F & E)|[(F & E)|(F & E)]]]]]]; rewrite E, F; clear E F I1;
   (destruct (ridged_reads p2 I2) as [(F & E)|[(F & E)|[(F & E)|[(F & E)|[(F & E)|[(F & E)|(F & E)]]]]]]; rewrite E, F; clear E F I2;
    unfold inner, outer; cbn [vx vy vz]; intros; (exfalso; lra) ||
      (split; [lra|]; repeat split; (left; lra) || (right; lra)))).
Qed.
Lemma ridged_bounded : bounded (solid ridged).
Proof. exists 1. intros [x y z] H. apply ridged_solid in H. cbn. rewrite !Rabs_pos_eq by lra. lra. Qed.
Lemma product_bound : forall a b c, 1 <= a <= 2 -> 1 <= b <= 2 -> 1 <= c <= 2 -> 0 < a * b * c <= 8.
Proof. intros a b c A B C. assert (1 <= a * b <= 4) by nra. nra. Qed.
Lemma ridged_sharp : forall p, In p ridged -> sharp ridged p.
Proof.
  intros p I p1 p2 [x y z] I1 I2 D A B (C & S). apply ridged_solid in S. unfold spans.
  pose proof (product_bound _ _ _ (ridged_norm p I) (ridged_norm p1 I1) (ridged_norm p2 I2)).
  destruct (ridged_meet p p1 p2 x y z I I1 I2 C A B) as (G & _); [lra|exact D|]. lra.
Qed.

Section Ridged.
Context (parse : str -> option R) (cosine radians : R -> R) (atan2 : R -> R -> R)
  (quat : vec3 R -> R -> vec3 R -> vec3 R) (mat2 : R -> vec2 R -> vec2 R).
Local Notation O := (real_num parse cosine radians atan2 quat mat2).
Context tx e plane f (I : In plane ridged) (E : build_face O tx e ridged plane = Ok f).

Lemma ridged_corner : forall x y z, In (V3 x y z) (map vt_pos (f_vertices f)) -> on_plane plane (V3 x y z) /\ (x = 0 \/ x = 1) /\ (y = 0 \/ y = 1) /\ (z = 0 \/ z = 1).
Proof.
  intros x y z K. destruct (real_corners _ _ _ _ _ _ _ _ _ _ _ E) as (_ & C). apply C in K. clear C.
  destruct K as (p1 & p2 & I1 & I2 & _ & _ & _ & S & A & B & C & W). split; [exact A|]. apply (ridged_meet plane p1 p2 x y z I I1 I2 A B C).
  - now apply ridged_near.
  - unfold spans in S. pose proof (product_bound _ _ _ (ridged_norm plane I) (ridged_norm p1 I1) (ridged_norm p2 I2)). lra.
Qed.
Lemma ridged_crisp : crisp ridged f.
Proof.
  intros v q Iv. revert q. change (solid ridged (vt_pos v)). apply (in_map vt_pos) in Iv. destruct (vt_pos v) as [x y z]. apply ridged_corner in Iv.
  apply ridged_solid. destruct Iv as (_ & [-> | ->] & [-> | ->] & [-> | ->]); lra.
Qed.
End Ridged.

Theorem ridged_ready : forall parse cosine radians quat mat2 tx e, let O := real_num parse cosine radians real_atan2 quat mat2 in exists b f,
  build_brush O tx e ridged = Ok b /\ polar_angle real_atan2
  /\ (forall plane f, In plane ridged -> In f (bg_faces b) -> build_face O tx e ridged plane = Ok f -> proper plane /\ crisp ridged f /\ sharp ridged plane)
  /\ bounded (solid ridged) /\ (exists o, forall q, In q ridged -> inner (facing q) (minus o (bp_v0 q)) < 0)
  /\ In f (bg_faces b) /\ (length (f_vertices f) <= 2)%nat.
Proof.
  intros parse cosine radians quat mat2 tx e. cbn zeta.
  destruct (mapM_all (build_face (real_num parse cosine radians real_atan2 quat mat2) tx e ridged) ridged (real_total _ _ _ _ _ _ _ _ _)) as (fs & E & L).
  unfold build_brush. rewrite E. cbn [bind]. apply mapM_ok in E. destruct (Forall2_in_l _ _ _ _ _ _ E (or_introl eq_refl)) as (f & If & Eb).
  eexists _, f. split; [reflexivity|]. cbn [bg_faces]. split; [exact real_polar|].
  split; [intros plane g Ip _ Eg; split; [now apply ridged_proper|]; split; [exact (ridged_crisp _ _ _ _ _ _ _ _ _ _ Ip Eg)|now apply ridged_sharp]|].
  split; [exact ridged_bounded|]. split.
  - exists (V3 (1 / 2) (1 / 2) (1 / 2)). intros q I. destruct (ridged_reads q I) as [(_ & R)|[(_ & R)|[(_ & R)|[(_ & R)|[(_ & R)|[(_ & R)|(_ & R)]]]]]]; rewrite R; lra.
  - split; [exact If|]. rewrite <- (map_length vt_pos). change 2%nat with (length [V3 1 1 0; V3 1 1 1]). apply NoDup_incl_length; [apply (real_corners _ _ _ _ _ _ _ _ _ _ _ Eb)|].
    intros [x y z] I. destruct (ridged_corner _ _ _ _ _ _ _ _ _ _ (or_introl eq_refl) Eb _ _ _ I) as (A & X & Y & Z). unfold on_plane in A. rewrite (proj2 ridge_reads) in A.
    assert (x = 1) as -> by (destruct X, Y; lra). assert (y = 1) as -> by lra. destruct Z as [-> | ->]; cbn; auto.
Qed.
