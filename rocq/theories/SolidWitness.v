(** A cube and a thin wedge, to try C80 and C81 on. *)
From Coq Require Import Reals Lra Psatz.
From Verif Require Import Prelude F32 Text MapModel GeoModel GeoSpec RealSpec WindSpec SolidSpec BaseProofs RealProofs WindProofs WindWitness SolidProofs.
Local Open Scope R_scope.

Ltac numbers := unfold on_plane, facing, inner, outer, minus, lid, panel, e1, e2, e3, o0 in *; cbn [bp_v0 bp_v1 bp_v2 vx vy vz] in *.
Ltac planes H := cbn in H; repeat destruct H as [<-|H]; try contradiction.

Lemma cube_solid : forall x y z, solid cube (V3 x y z) <-> 0 <= x <= 1 /\ 0 <= y <= 1 /\ 0 <= z <= 1.
Proof.
  intros x y z. rewrite solid_slack. split.
  - intros H. pose proof (H (panel e1 e2 e3)) as H1. pose proof (H (panel o0 e3 e2)) as H2. pose proof (H (panel e2 e3 e1)) as H3.
    pose proof (H (panel o0 e1 e3)) as H4. pose proof (H lid) as H5. pose proof (H (panel o0 e2 e1)) as H6. clear H.
    specialize (H1 ltac:(cbn; auto 10)). specialize (H2 ltac:(cbn; auto 10)). specialize (H3 ltac:(cbn; auto 10)).
    specialize (H4 ltac:(cbn; auto 10)). specialize (H5 ltac:(cbn; auto 10)). specialize (H6 ltac:(cbn; auto 10)).
    unfold slack in *. numbers. lra.
  - intros H q I. planes I; unfold slack; numbers; lra.
Qed.
Lemma cube_bounded : bounded (solid cube).
Proof. exists 1. intros [x y z] H. apply cube_solid in H. cbn. rewrite !Rabs_pos_eq by lra. lra. Qed.
(** Each plane of the cube is one of [x = 0], [x <= 1] and so on. *)
Definition reads (p : brush_plane R) (a b c d : R) : Prop :=
  facing p = V3 a b c /\ forall x y z, inner (facing p) (minus (V3 x y z) (bp_v0 p)) = a * x + b * y + c * z - d.
Lemma cube_reads : forall p, In p cube ->
  reads p 0 0 1 1 \/ reads p 0 0 (-1) 0 \/ reads p 1 0 0 1 \/ reads p (-1) 0 0 0 \/ reads p 0 1 0 1 \/ reads p 0 (-1) 0 0.
Proof.
  intros p I. cbn in I. destruct I as [P|[P|[P|[P|[P|[P|[]]]]]]]; [left|right; left|right; right; left|right; right; right; left|
    right; right; right; right; left|right; right; right; right; right]; subst p;
    (split; [unfold facing, outer, minus, lid, panel; cbn; f_equal; ring|intros x y z; numbers; ring]).
Qed.
Lemma cube_meet : forall p p1 p2 x y z, In p cube -> In p1 cube -> In p2 cube -> on_plane p (V3 x y z) -> on_plane p1 (V3 x y z) -> on_plane p2 (V3 x y z) ->
  0 < inner (outer (facing p) (facing p1)) (facing p2) ->
  inner (outer (facing p) (facing p1)) (facing p2) = 1 /\ (0 <= x <= 1 /\ 0 <= y <= 1 /\ 0 <= z <= 1).
Proof.
  intros p p1 p2 x y z I I1 I2. unfold on_plane.
  destruct (cube_reads p I) as [(F & E)|[(F & E)|[(F & E)|[(F & E)|[(F & E)|(F & E)]]]]]; rewrite E, F; clear E F I;
  (destruct (cube_reads p1 I1) as [(F & E)|[(F & E)|[(F & E)|[(F & E)|[(F & E)|(F & E)]]]]]; rewrite E, F; clear E F I1;
   (destruct (cube_reads p2 I2) as [(F & E)|[(F & E)|[(F & E)|[(F & E)|[(F & E)|(F & E)]]]]]; rewrite E, F; clear E F I2;
    unfold inner, outer; cbn [vx vy vz]; intros; (exfalso; lra) || lra)).
Qed.
Lemma cube_sharp : forall p, In p cube -> sharp cube p.
Proof.
  intros p I p1 p2 [x y z] I1 I2 D A B (C & _). unfold spans. rewrite !cube_norm by assumption.
  rewrite (proj1 (cube_meet p p1 p2 x y z I I1 I2 C A B D)). lra.
Qed.

Section Cube.
Context (parse : str -> option R) (cosine radians : R -> R) (atan2 : R -> R -> R)
  (quat : vec3 R -> R -> vec3 R -> vec3 R) (mat2 : R -> vec2 R -> vec2 R).
Local Notation O := (real_num parse cosine radians atan2 quat mat2).
Context tx e plane f (I : In plane cube) (E : build_face O tx e cube plane = Ok f).

Lemma cube_crisp : crisp cube f.
Proof.
  intros v q Iv. revert q. change (solid cube (vt_pos v)). destruct (real_corners _ _ _ _ _ _ _ _ _ _ _ E) as (_ & C).
  assert (K := proj1 (C _) (in_map vt_pos _ _ Iv)). clear C E Iv. destruct K as (p1 & p2 & I1 & I2 & _ & _ & _ & S & A & B & C & _).
  unfold spans in S. rewrite !cube_norm in S by assumption. destruct (vt_pos v) as [x y z]. apply cube_solid.
  apply (cube_meet plane p1 p2 x y z I I1 I2 A B C). lra.
Qed.
Lemma cube_has : forall p1 p2 x y z, In p1 cube -> In p2 cube -> 0 < inner (outer (facing plane) (facing p1)) (facing p2) ->
  on_plane plane (V3 x y z) -> on_plane p1 (V3 x y z) -> on_plane p2 (V3 x y z) -> In (V3 x y z) (map vt_pos (f_vertices f)).
Proof.
  intros p1 p2 x y z I1 I2 D O0 O1 O2. destruct (cube_meet plane p1 p2 x y z I I1 I2 O0 O1 O2 D) as (D' & So).
  apply (real_corners _ _ _ _ _ _ _ _ _ _ _ E). exists p1, p2.
  repeat (split; [assumption || (apply cube_proper; assumption)|]). split.
  - unfold spans. rewrite !cube_norm, D' by assumption. lra.
  - repeat (split; [assumption|]). intros q Iq. apply cube_solid in So. pose proof (So q Iq) as W. unfold within in *.
    rewrite cube_norm in * by assumption. lra.
Qed.
Lemma three_points : forall (l : list (vec3 R)) a b c, In a l -> In b l -> In c l -> a <> b -> a <> c -> b <> c -> (3 <= length l)%nat.
Proof.
  intros l a b c A B C N1 N2 N3. change 3%nat with (length [a; b; c]). apply NoDup_incl_length.
  - repeat constructor; cbn; intuition.
  - intros x H. cbn in H. repeat destruct H as [<-|H]; try contradiction; assumption.
Qed.
End Cube.

Ltac near := let Z := fresh in intros Z; injection Z; intros; lra.
Ltac corner I E p q := apply (cube_has _ _ _ _ _ _ _ _ _ _ I E p q); [cbn; auto 10|cbn; auto 10|numbers; lra..].
Ltac corner2 I E p q := (corner I E p q) || (corner I E q p).
Lemma cube_three : forall parse cosine radians atan2 quat mat2 tx e plane f, In plane cube ->
  build_face (real_num parse cosine radians atan2 quat mat2) tx e cube plane = Ok f -> (3 <= length (f_vertices f))%nat.
Proof.
  intros parse cosine radians atan2 quat mat2 tx e plane f I E. rewrite <- (map_length vt_pos).
  pose proof I as K. cbn in K. destruct K as [P|[P|[P|[P|[P|[P|[]]]]]]]; subst plane.
  - apply (three_points _ (V3 0 0 1) (V3 0 1 1) (V3 1 0 1)); try near.
    + corner2 I E (panel o0 e3 e2) (panel o0 e1 e3).
    + corner2 I E (panel o0 e3 e2) (panel e2 e3 e1).
    + corner2 I E (panel e1 e2 e3) (panel o0 e1 e3).
  - apply (three_points _ (V3 0 0 0) (V3 0 1 0) (V3 1 0 0)); try near.
    + corner2 I E (panel o0 e3 e2) (panel o0 e1 e3).
    + corner2 I E (panel o0 e3 e2) (panel e2 e3 e1).
    + corner2 I E (panel e1 e2 e3) (panel o0 e1 e3).
  - apply (three_points _ (V3 1 0 0) (V3 1 1 0) (V3 1 0 1)); try near.
    + corner2 I E (panel o0 e2 e1) (panel o0 e1 e3).
    + corner2 I E (panel o0 e2 e1) (panel e2 e3 e1).
    + corner2 I E lid (panel o0 e1 e3).
  - apply (three_points _ (V3 0 0 0) (V3 0 1 0) (V3 0 0 1)); try near.
    + corner2 I E (panel o0 e2 e1) (panel o0 e1 e3).
    + corner2 I E (panel o0 e2 e1) (panel e2 e3 e1).
    + corner2 I E lid (panel o0 e1 e3).
  - apply (three_points _ (V3 0 1 0) (V3 1 1 0) (V3 0 1 1)); try near.
    + corner2 I E (panel o0 e3 e2) (panel o0 e2 e1).
    + corner2 I E (panel e1 e2 e3) (panel o0 e2 e1).
    + corner2 I E (panel o0 e3 e2) lid.
  - apply (three_points _ (V3 0 0 0) (V3 1 0 0) (V3 0 0 1)); try near.
    + corner2 I E (panel o0 e3 e2) (panel o0 e2 e1).
    + corner2 I E (panel e1 e2 e3) (panel o0 e2 e1).
    + corner2 I E (panel o0 e3 e2) lid.
Qed.

Lemma mapM_all : forall {A B} (g : A -> res B) l, (forall x, exists y, g x = Ok y) -> exists ys, mapM g l = Ok ys /\ length ys = length l.
Proof.
  intros A B g l H. induction l as [|x l (ys & E & L)]; [now exists []|]. destruct (H x) as (y & Ey). exists (y :: ys). cbn [mapM]. rewrite Ey. cbn [bind].
  rewrite E. cbn [bind length]. now rewrite L.
Qed.
(** All of C80 and C81's hypotheses hold of the cube. *)
Lemma cube_ready : forall parse cosine radians quat mat2 tx e, exists b,
  build_brush (real_num parse cosine radians real_atan2 quat mat2) tx e cube = Ok b /\ length (bg_faces b) = 6%nat /\
  polar_angle real_atan2 /\
  (forall plane f, In plane cube -> In f (bg_faces b) -> build_face (real_num parse cosine radians real_atan2 quat mat2) tx e cube plane = Ok f ->
     proper plane /\ crisp cube f /\ sharp cube plane /\ (3 <= length (f_vertices f))%nat) /\ bounded (solid cube).
Proof.
  intros parse cosine radians quat mat2 tx e. 
  destruct (mapM_all (build_face (real_num parse cosine radians real_atan2 quat mat2) tx e cube) cube (real_total _ _ _ _ _ _ _ _ _)) as (fs & E & L).
  unfold build_brush. rewrite E. cbn [bind]. eexists. split; [reflexivity|]. cbn [bg_faces]. split; [exact L|]. split; [exact real_polar|].
  split; [|exact cube_bounded]. intros plane f Ip _ Eb. split; [now apply cube_proper|]. split; [exact (cube_crisp _ _ _ _ _ _ _ _ _ _ Ip Eb)|].
  split; [now apply cube_sharp|]. exact (cube_three _ _ _ _ _ _ _ _ _ _ Ip Eb).
Qed.

(** A wedge one unit long and a two-thousandth of a unit high: the corners at its edge are lost, and with them its floor. *)
Definition floor : brush_plane R := panel o0 e2 e1.
Definition roof : brush_plane R := panel o0 (V3 1 0 (/ 2000)) e2.
Definition wedge : list (brush_plane R) := [floor; roof; panel e1 e2 e3; panel o0 e1 e3; panel e2 e3 e1].

Lemma roof_facing : facing roof = V3 (- / 2000) 0 1.
Proof. unfold roof. numbers. f_equal; ring. Qed.
Lemma roof_norm : 1 <= norm (facing roof).
Proof.
  rewrite roof_facing. unfold norm, inner. cbn [vx vy vz]. rewrite <- sqrt_1 at 1. apply sqrt_le_1_alt. lra.
Qed.
Lemma wedge_norm : forall p, In p wedge -> 1 <= norm (facing p).
Proof.
  intros p I. cbn in I. destruct I as [<-|[<-|I]].
  - rewrite cube_norm; [lra|cbn; auto].
  - exact roof_norm.
  - rewrite cube_norm; [lra|]. cbn. intuition.
Qed.
Lemma wedge_solid : forall x y z, solid wedge (V3 x y z) <-> x <= 1 /\ 0 <= y <= 1 /\ 0 <= z <= / 2000 * x.
Proof.
  intros x y z. rewrite solid_slack. split.
  - intros H. pose proof (H floor) as H1. pose proof (H roof) as H2. pose proof (H (panel e1 e2 e3)) as H3.
    pose proof (H (panel o0 e1 e3)) as H4. pose proof (H (panel e2 e3 e1)) as H5. clear H.
    specialize (H1 ltac:(cbn; auto 10)). specialize (H2 ltac:(cbn; auto 10)). specialize (H3 ltac:(cbn; auto 10)).
    specialize (H4 ltac:(cbn; auto 10)). specialize (H5 ltac:(cbn; auto 10)). unfold slack, floor in *. rewrite roof_facing in H2. unfold roof in H2.
    numbers. lra.
  - intros H q I. cbn in I. destruct I as [<-|[<-|I]]; unfold slack.
    + unfold floor. numbers. lra.
    + rewrite roof_facing. unfold roof. numbers. lra.
    + planes I; numbers; lra.
Qed.
Definition corner_at (x y z : R) : Prop := x = 1 /\ (y = 0 \/ y = 1) /\ z = 0.
Lemma wedge_meet : forall p1 p2 x y z, In p1 wedge -> In p2 wedge -> spans floor p1 p2 -> on_plane floor (V3 x y z) ->
  on_plane p1 (V3 x y z) -> on_plane p2 (V3 x y z) -> corner_at x y z.
Proof.
  intros p1 p2 x y z I1 I2 S A B C. unfold spans in S. pose proof (wedge_norm p1 I1) as N1. pose proof (wedge_norm p2 I2) as N2.
  rewrite (cube_norm floor) in S by (cbn; auto). assert (D : / 1000 <= inner (outer (facing floor) (facing p1)) (facing p2)) by nra. clear S N1 N2.
  assert (F : facing floor = V3 0 0 (-1)) by (unfold floor; numbers; f_equal; ring). rewrite F in D.
  assert (Z : z = 0) by (unfold on_plane in A; rewrite F in A; unfold floor in A; numbers; lra). clear A. unfold corner_at.
  cbn in I1, I2. destruct I1 as [<-|[<-|I1]]; [rewrite F in D; unfold inner, outer in D; cbn [vx vy vz] in D; lra|..];
    (destruct I2 as [<-|[<-|I2]]; [rewrite F in D; unfold inner, outer in D; cbn [vx vy vz] in D; lra|..]).
  - rewrite roof_facing in D. unfold inner, outer in D. cbn [vx vy vz] in D. lra.
  - rewrite roof_facing in D. clear B. planes I2; numbers; lra.
  - rewrite roof_facing in D. clear C. planes I1; numbers; lra.
  - planes I1; planes I2; numbers; try lra; (split; [lra|]; split; [(left; lra) || (right; lra)|lra]).
Qed.
Lemma wedge_floor : forall parse cosine radians atan2 quat mat2 tx e, exists f,
  build_face (real_num parse cosine radians atan2 quat mat2) tx e wedge floor = Ok f /\ proper floor /\ crisp wedge f /\ bounded (solid wedge) /\
  (forall x y, 0 <= x <= 1 -> 0 <= y <= 1 -> side wedge floor (V3 x y 0)) /\ (length (f_vertices f) <= 2)%nat /\
  ~ in_hull (map vt_pos (f_vertices f)) o0.
Proof.
  intros parse cosine radians atan2 quat mat2 tx e. destruct (real_total parse cosine radians atan2 quat mat2 tx e wedge floor) as (f & E). exists f.
  destruct (real_corners _ _ _ _ _ _ _ _ _ _ _ E) as (Nd & C).
  assert (K : forall v, In v (map vt_pos (f_vertices f)) -> corner_at (vx v) (vy v) (vz v)).
  { intros [x y z] I. apply C in I. destruct I as (p1 & p2 & I1 & I2 & _ & _ & _ & S & A & B & D & _). exact (wedge_meet p1 p2 x y z I1 I2 S A B D). }
  split; [exact E|]. split; [apply cube_proper; cbn; auto|]. split; [|split; [|split; [|split]]].
  - intros v q Iv. revert q. change (solid wedge (vt_pos v)). pose proof (K _ (in_map vt_pos _ _ Iv)) as Kv. destruct (vt_pos v) as [x y z].
    apply wedge_solid. cbn [vx vy vz] in Kv. destruct Kv as (-> & [-> | ->] & ->); lra.
  - exists 1. intros [x y z] H. apply wedge_solid in H. cbn. rewrite !Rabs_pos_eq by lra. lra.
  - intros x y X Y. split; [unfold floor; numbers; lra|]. apply wedge_solid. lra.
  - rewrite <- (map_length vt_pos). change 2%nat with (length [V3 1 0 0; V3 1 1 0]). apply NoDup_incl_length; [exact Nd|].
    intros [x y z] I. apply K in I. cbn [vx vy vz] in I. destruct I as (-> & [-> | ->] & ->); cbn; auto.
  - intros H. assert (B : on_plane (panel e1 e2 e3) o0).
    { eapply hull_on; [exact H|]. intros [x y z] I. apply K in I. cbn [vx vy vz] in I. destruct I as (-> & Y & ->). numbers. destruct Y as [-> | ->]; lra. }
    numbers. lra.
Qed.
