(** Lines through boxes, in single precision: proofs of C154. *)
From Coq Require Import Reals Lra Lia ZArith Permutation.
From Verif Require Import Prelude F32 Text MapModel GeoModel LayerModel GameDataModel SceneModel RunModel MapSpec Utf8Spec RunSpec InvarianceSpec RealSpec WindSpec SolidSpec EdgeSpec RaySpec ErrorSpec PointsSpec BoxSpec WoundSpec ShellSpec BrickSpec CartonSpec CladSpec TunnelSpec
  BaseProofs RealProofs WindProofs SolidProofs EdgeProofs RayProofs PierceProofs BrickProofs CladProofs.
Local Open Scope R_scope.

(** The box as planes. *)
Definition wall (v a b : vec3 R) : brush_plane R :=
  BrushPlane v (V3 (vx v + vx b) (vy v + vy b) (vz v + vz b)) (V3 (vx v + vx a) (vy v + vy a) (vz v + vz a)) [] (UVQuake 0 0) 0 (V2 0 0) ExNone.
Definition walls (lo hi : vec3 Z) : list (brush_plane R) :=
  let l := V3 (IZR (vx lo)) (IZR (vy lo)) (IZR (vz lo)) in let h := V3 (IZR (vx hi)) (IZR (vy hi)) (IZR (vz hi)) in
  let x := V3 1 0 0 in let y := V3 0 1 0 in let z := V3 0 0 1 in
  [wall h y z; wall l z y; wall h z x; wall l x z; wall h x y; wall l y x].
Lemma wall_slack : forall v a b q, slack (wall v a b) q = - inner (outer a b) (minus q v).
Proof. intros. unfold slack, wall, facing. cbn [bp_v0 bp_v1 bp_v2]. vectors. ring. Qed.
Lemma walls_slack : forall lo hi q (P : R -> Prop), (forall pl, In pl (walls lo hi) -> P (slack pl q)) <->
  P (IZR (vx hi) - vx q) /\ P (vx q - IZR (vx lo)) /\ P (IZR (vy hi) - vy q) /\ P (vy q - IZR (vy lo)) /\ P (IZR (vz hi) - vz q) /\ P (vz q - IZR (vz lo)).
Proof.
  intros lo hi q P.
  assert (E : map (fun pl => slack pl q) (walls lo hi) = [IZR (vx hi) - vx q; vx q - IZR (vx lo); IZR (vy hi) - vy q; vy q - IZR (vy lo); IZR (vz hi) - vz q; vz q - IZR (vz lo)]).
  { unfold walls. cbn [map]. rewrite !wall_slack. vectors. repeat (f_equal; try ring). }
  split.
  - intros H. assert (A : forall y, In y (map (fun pl => slack pl q) (walls lo hi)) -> P y) by (intros y I; apply in_map_iff in I; destruct I as (pl & <- & I); now apply H).
    rewrite E in A. repeat split; apply A; cbn [In]; tauto.
  - intros H pl I. assert (A : In (slack pl q) (map (fun pl => slack pl q) (walls lo hi))) by (apply in_map_iff; eauto). rewrite E in A. cbn [In] in A.
    destruct H as (H1 & H2 & H3 & H4 & H5 & H6). destruct A as [<-|[<-|[<-|[<-|[<-|[<-|[]]]]]]]; assumption.
Qed.
Lemma walls_solid : forall lo hi q, solid (walls lo hi) q <-> in_box lo hi q.
Proof. intros lo hi q. rewrite solid_slack, (walls_slack lo hi q (fun y => 0 <= y)). unfold in_box. split; intros; lra. Qed.
Lemma walls_deep : forall lo hi q, deep (walls lo hi) q <-> deep_in lo hi q.
Proof.
  intros lo hi q. assert (E : deep (walls lo hi) q <-> forall pl, In pl (walls lo hi) -> 0 < slack pl q) by (unfold deep, slack; split; intros H pl I; specialize (H pl I); lra).
  rewrite E, (walls_slack lo hi q (fun y => 0 < y)). unfold deep_in. split; intros; lra.
Qed.
Lemma walls_surface : forall lo hi q, surface_of (walls lo hi) q <-> on_box lo hi q.
Proof.
  intros lo hi q. unfold surface_of, on_box. rewrite walls_solid.
  assert (E : (exists pl, In pl (walls lo hi) /\ on_plane pl q) <-> ~ (forall pl, In pl (walls lo hi) -> slack pl q <> 0)).
  { split; [intros (pl & I & On) H; apply slack_on in On; exact (H pl I On)|]. intros N.
    assert (D : forall l, (forall pl, In pl l -> slack pl q <> 0) \/ exists pl, In pl l /\ slack pl q = 0).
    { induction l as [|pl l [IH|(p & I & Z)]]; [left; intros ? []| |right; exists p; split; [now right|exact Z]].
      destruct (Req_dec (slack pl q) 0) as [Z|Z]; [right; exists pl; split; [now left|exact Z]|left; intros p [<-|I]; auto]. }
    destruct (D (walls lo hi)) as [A|(pl & I & Z)]; [contradiction|]. exists pl. split; [exact I|now apply slack_on]. }
  rewrite E, (walls_slack lo hi q (fun y => y <> 0)). split; intros (I & H); (split; [exact I|]).
  - destruct (Req_dec (vx q) (IZR (vx lo))); [auto|]. destruct (Req_dec (vx q) (IZR (vx hi))); [auto|]. destruct (Req_dec (vy q) (IZR (vy lo))); [auto|].
    destruct (Req_dec (vy q) (IZR (vy hi))); [auto|]. destruct (Req_dec (vz q) (IZR (vz lo))); [auto 10|]. destruct (Req_dec (vz q) (IZR (vz hi))); [auto 10|]. exfalso. apply H. repeat split; lra.
  - intros (A1 & A2 & A3 & A4 & A5 & A6). destruct H as [H|[H|[H|[H|[H|H]]]]]; lra.
Qed.
Lemma walls_bounded : forall lo hi, bounded (solid (walls lo hi)).
Proof.
  intros lo hi. exists (Rabs (IZR (vx lo)) + Rabs (IZR (vx hi)) + Rabs (IZR (vy lo)) + Rabs (IZR (vy hi)) + Rabs (IZR (vz lo)) + Rabs (IZR (vz hi))).
  intros q S. apply walls_solid in S. destruct S as (A & B & C).
  assert (Q : forall l h y, l <= y <= h -> Rabs y <= Rabs l + Rabs h) by (intros l h y L; unfold Rabs; repeat destruct Rcase_abs; lra).
  pose proof (Q _ _ _ A). pose proof (Q _ _ _ B). pose proof (Q _ _ _ C).
  pose proof (Rabs_pos (IZR (vx lo))). pose proof (Rabs_pos (IZR (vx hi))). pose proof (Rabs_pos (IZR (vy lo))). pose proof (Rabs_pos (IZR (vy hi))). pose proof (Rabs_pos (IZR (vz lo))). pose proof (Rabs_pos (IZR (vz hi))).
  repeat split; lra.
Qed.

Lemma box_line : forall lo hi o w t, w <> V3 0 0 0 -> deep_in lo hi (onwards o w t) ->
  exists a c, a < t < c /\ (forall u, on_box lo hi (onwards o w u) <-> u = a \/ u = c) /\ forall u, in_box lo hi (onwards o w u) <-> a <= u <= c.
Proof.
  intros lo hi o w t N D. apply walls_deep in D. destruct (surface_line (walls lo hi) (walls_bounded lo hi) o w t N D) as (a & c & L & M & S).
  exists a, c. split; [exact L|]. split; intros u; [rewrite <- walls_surface; apply M|rewrite <- walls_solid; apply S].
Qed.
Lemma box_way : forall lo hi x y, deep_in lo hi x -> ~ in_box lo hi y -> exists s, 0 < s < 1 /\ forall u, 0 <= u <= 1 -> (on_box lo hi (towards x y u) <-> u = s).
Proof.
  intros lo hi x y D N. apply walls_deep in D. rewrite <- walls_solid in N. destruct (surface_way (walls lo hi) (walls_bounded lo hi) x y D N) as (s & S & M).
  exists s. split; [exact S|]. intros u U. rewrite <- walls_surface. now apply M.
Qed.

Section Run.
Context (p : platform) (r : Z) (a : R) (Rr : (1 <= r <= 40000)%Z) (Da : a <= / (3 * IZR r)) (AC : accurate_angle a (p_atan2 p)).
Local Notation O := (f32_num p).

Theorem line_box : forall tx e planes b lo hi, block p r (lo, hi) planes -> build_brush O tx e planes = Ok b -> forall o w t, w <> V3 0 0 0 -> deep_in lo hi (onwards o w t) ->
  exists t1 t2, t1 < t < t2 /\ (forall u, on_faces b (onwards o w u) <-> u = t1 \/ u = t2) /\ forall u, in_box lo hi (onwards o w u) <-> t1 <= u <= t2.
Proof.
  intros tx e planes b lo hi Bk E o w t N D. destruct (box_line lo hi o w t N D) as (t1 & t2 & L & M & S). exists t1, t2. split; [exact L|]. split; [|exact S].
  intros u. rewrite <- (M u). exact (box_clad p r a Rr Da AC tx e planes b lo hi Bk E (onwards o w u)).
Qed.
Theorem parity_box : forall tx e planes b lo hi, block p r (lo, hi) planes -> build_brush O tx e planes = Ok b -> forall o w t, w <> V3 0 0 0 -> deep_in lo hi (onwards o w t) -> ~ on_faces b o ->
  (in_box lo hi o <-> passes32 b o w 1) /\ (~ in_box lo hi o <-> passes32 b o w 0 \/ passes32 b o w 2).
Proof.
  intros tx e planes b lo hi Bk E o w t N D M. destruct (line_box tx e planes b lo hi Bk E o w t N D) as (t1 & t2 & L & Me & So).
  exact (parity (on_faces b) (in_box lo hi) o w t1 t2 ltac:(lra) Me So M).
Qed.
Section Map.
Context (order : hmap (list (brush_geo f32)) -> list (str * list (brush_geo f32))) (permutes : forall m, Permutation (order m) m).
Context (fuel : nat) (c : config) (text : str) (d : doc) (nodes : list (node f32)).
Context (Ft : file_text (cf_map c) text) (Td : text_document p text d) (Bd : block_document p r d) (Er : run p order fuel c = Ok nodes).
Lemma clad_holds : forall T, clads_boxes p r d T -> holds_boxes p r d T.
Proof.
  intros T (e & ch & boxes & I & S & N & F & C). exists e, ch, boxes. split; [exact I|]. split; [exact S|]. split; [exact N|]. split; [exact F|].
  intros lo hi x y Ib D Ny. destruct (box_way lo hi x y D Ny) as (s & Ss & M). exists s. split; [exact Ss|]. apply C. exists lo, hi. split; [exact Ib|]. apply M; lra.
Qed.
Theorem held_shapes : forall n0 o k T, In n0 nodes -> InvarianceSpec.within (NCollision o k) n0 -> In T (shells32 (NCollision o k)) -> holds_boxes p r d T.
Proof. intros n0 o k T I W IT. apply clad_holds. exact (clad_shapes p r a Rr Da AC order permutes fuel c text d nodes Ft Td Bd Er n0 o k T I W IT). Qed.
End Map.
End Run.
