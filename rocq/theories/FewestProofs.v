(** No superfluous points in convex shapes: lemmas for C150. *)
From Coq Require Import Reals Lra Lia Permutation.
From Verif Require Import Prelude F32 Text MapModel GeoModel LayerModel GameDataModel SceneModel GatherSpec SurfaceSpec LayerSpec InvarianceSpec GeoSpec RealSpec WindSpec SolidSpec RigidSpec EdgeSpec ShellSpec CutSpec CastSpec FewestSpec
  BaseProofs GatherProofs GeoProofs SurfaceProofs RealProofs WindProofs SolidProofs TriangleProofs FillProofs EdgeProofs ShellProofs ShellFinal CutProofs CastProofs.
Local Open Scope R_scope.

(** Where three planes meet in one point, no other point is on all of them. *)
Lemma pinned : forall a b c d : vec3 R, inner (outer a b) c <> 0 -> inner a d = 0 -> inner b d = 0 -> inner c d = 0 -> d = V3 0 0 0.
Proof.
  intros a b c d N A B C. unfold inner, outer in *. cbn [vx vy vz] in *.
  destruct a as [a1 a2 a3], b as [b1 b2 b3], c as [c1 c2 c3], d as [d1 d2 d3]. cbn [vx vy vz] in *.
  set (t := (a2 * b3 - a3 * b2) * c1 + (a3 * b1 - a1 * b3) * c2 + (a1 * b2 - a2 * b1) * c3) in *.
  assert (X : t * d1 = 0) by (replace (t * d1) with ((a1 * d1 + a2 * d2 + a3 * d3) * (b2 * c3 - b3 * c2) + (b1 * d1 + b2 * d2 + b3 * d3) * (c2 * a3 - c3 * a2) + (c1 * d1 + c2 * d2 + c3 * d3) * (a2 * b3 - a3 * b2)) by (unfold t; ring); rewrite A, B, C; ring).
  assert (Y : t * d2 = 0) by (replace (t * d2) with ((a1 * d1 + a2 * d2 + a3 * d3) * (b3 * c1 - b1 * c3) + (b1 * d1 + b2 * d2 + b3 * d3) * (c3 * a1 - c1 * a3) + (c1 * d1 + c2 * d2 + c3 * d3) * (a3 * b1 - a1 * b3)) by (unfold t; ring); rewrite A, B, C; ring).
  assert (Z : t * d3 = 0) by (replace (t * d3) with ((a1 * d1 + a2 * d2 + a3 * d3) * (b1 * c2 - b2 * c1) + (b1 * d1 + b2 * d2 + b3 * d3) * (c1 * a2 - c2 * a1) + (c1 * d1 + c2 * d2 + c3 * d3) * (a1 * b2 - a2 * b1)) by (unfold t; ring); rewrite A, B, C; ring).
  apply Rmult_integral in X, Y, Z. f_equal; tauto.
Qed.
Lemma spans_nonzero : forall a b c, proper a -> proper b -> proper c -> spans a b c -> inner (outer (facing a) (facing b)) (facing c) <> 0.
Proof. intros a b c A B C S. unfold spans, proper in *. apply norm_pos in A, B, C. assert (0 < norm (facing a) * norm (facing b) * norm (facing c)) by (repeat apply Rmult_lt_0_compat; assumption). lra. Qed.

Lemma extreme : forall planes p0 p1 p2 q l, In p0 planes -> In p1 planes -> In p2 planes -> proper p0 -> proper p1 -> proper p2 -> spans p0 p1 p2 ->
  on_plane p0 q -> on_plane p1 q -> on_plane p2 q -> (forall x, In x l -> solid planes x) -> in_hull l q -> In q l.
Proof.
  intros planes p0 p1 p2 q l I0 I1 I2 P0 P1 P2 S O0 O1 O2 A H. destruct (in_dec v3_dec q l) as [Y|N]; [exact Y|exfalso].
  set (g := plus (facing p0) (plus (facing p1) (facing p2))).
  assert (D : forall p x, on_plane p q -> inner (facing p) (minus x q) = - slack p x).
  { intros p x On. unfold on_plane, slack in *. revert On. destruct x, q, p as [[] ? ? ? ? ? ?]. vectors. intros On. lra. }
  assert (L : forall x, In x l -> inner g (minus x q) < 0).
  { intros x Ix. specialize (A x Ix). rewrite solid_slack in A. pose proof (A _ I0) as S0. pose proof (A _ I1) as S1. pose proof (A _ I2) as S2.
    assert (E : inner g (minus x q) = - (slack p0 x + slack p1 x + slack p2 x)).
    { pose proof (D p0 x O0). pose proof (D p1 x O1). pose proof (D p2 x O2).
      replace (inner g (minus x q)) with (inner (facing p0) (minus x q) + inner (facing p1) (minus x q) + inner (facing p2) (minus x q)) by (unfold g; vectors; ring). lra. }
    rewrite E. destruct (Rle_lt_dec (slack p0 x + slack p1 x + slack p2 x) 0) as [Le|Lt]; [exfalso|lra].
    assert (Z : minus x q = V3 0 0 0).
    { apply (pinned (facing p0) (facing p1) (facing p2)); [now apply spans_nonzero|rewrite (D _ _ O0); lra|rewrite (D _ _ O1); lra|rewrite (D _ _ O2); lra]. }
    apply minus_null in Z. subst x. contradiction. }
  destruct (weighted_below g q l 1 q H L) as (_ & _ & W). specialize (W Rlt_0_1). lra.
Qed.

Section Exact.
Context (parse : str -> option R) (cosine radians : R -> R) (atan2 : R -> R -> R)
  (quat : vec3 R -> R -> vec3 R -> vec3 R) (mat2 : R -> vec2 R -> vec2 R).
Local Notation O := (real_num parse cosine radians atan2 quat mat2).
Local Notation laws := (real_laws parse cosine radians atan2 quat mat2).

Lemma no_twice : forall l : list (vec3 R), pairwise_not (pos_eq O) l -> NoDup l.
Proof.
  intros l N. apply NoDup_nth_error. intros i j Li E. destruct (nth_error l i) as [x|] eqn:Ei; [|apply nth_error_None in Ei; lia]. symmetry in E.
  assert (Q : pos_eq O x x) by now apply (real_pos_eq parse cosine radians atan2 quat mat2).
  destruct (Nat.lt_trichotomy i j) as [L|[L|L]]; [exfalso; exact (N i j x x L Ei E Q)|exact L|exfalso; exact (N j i x x L E Ei Q)].
Qed.
Lemma convex_sorted : forall g, exists shapes, collision_of O CConvex g = Ok (ColConvex shapes)
  /\ Forall2 (fun b c => gathered (bg_faces b) (cx_points c) /\ NoDup (cx_points c)) (eg_brushes g) shapes.
Proof.
  intros g. destruct (convex_full O laws g) as (shapes & E & F). exists shapes. split; [exact E|]. eapply Forall2_impl; [|exact F]. cbv beta.
  intros b c (_ & _ & N & A & B). split; [|now apply no_twice]. split; [|exact B]. intros f v If Iv. destruct (A f v If Iv) as (q & Iq & [->|Eq]); [exact Iq|].
  apply (real_pos_eq parse cosine radians atan2 quat mat2) in Eq. now rewrite <- Eq.
Qed.

Theorem faces_fewest : forall tx e planes faces l, Forall2 (fun pl f => build_face O tx e planes pl = Ok f) planes faces -> fair_brush O tx e planes ->
  gathered faces l -> NoDup l -> fewest planes l.
Proof.
  intros tx e planes faces l F Fr G N. pose proof (faces_cast parse cosine radians atan2 quat mat2 tx e planes faces l F Fr G) as C. split; [exact C|]. split; [exact N|].
  intros l' C'. assert (I : incl l l'); [|split; [exact I|apply NoDup_incl_length; assumption]].
  intros q Iq. destruct (proj2 G q Iq) as (f & v & If & Iv & ->). destruct (Forall2_in_r _ _ _ _ _ _ F If) as (pl & Ip & E).
  destruct (proj1 (proj2 (real_corners parse cosine radians atan2 quat mat2 tx e planes pl f E) _) (in_map vt_pos _ _ Iv)) as (p1 & p2 & I1 & I2 & P0 & P1 & P2 & S & O0 & O1 & O2 & _).
  apply (extreme planes pl p1 p2 (vt_pos v) l'); try assumption.
  - intros x Ix. apply C', hull_corner, Ix.
  - apply C', C, hull_corner, Iq.
Qed.
Theorem brush_fewest : forall tx e planes g o bs k i, build_brush O tx e planes = Ok g -> fair_brush O tx e planes -> nth_error bs i = Some g -> collision_of O CConvex (EntityGeo o bs) = Ok k ->
  exists shapes shape, k = ColConvex shapes /\ nth_error shapes i = Some shape /\ fewest planes (cx_points shape).
Proof.
  intros tx e planes g o bs k i E Fr Hi Ek. destruct (convex_sorted (EntityGeo o bs)) as (shapes & E' & F). rewrite Ek in E'. injection E' as ->. cbn [eg_brushes] in F.
  destruct (TriangleProofs.Forall2_nth _ _ _ _ _ _ _ F Hi) as (shape & Hs & G & N). exists shapes, shape. split; [reflexivity|]. split; [exact Hs|].
  unfold build_brush in E. apply bind_ok in E. destruct E as (fs & Ef & E). injection E as <-. cbn [bg_faces] in G. apply mapM_ok in Ef. exact (faces_fewest tx e planes fs _ Ef Fr G N).
Qed.
Theorem scene_fewest : forall fuel gd fd bl tx es nodes, exact_scene O fuel gd fd bl tx es = Ok nodes ->
  (forall e planes, In e es -> In planes (e_brushes e) -> fair_brush O tx e planes) ->
  forall n0 c shapes shape, In n0 nodes -> InvarianceSpec.within (NCollision c (ColConvex shapes)) n0 -> In shape shapes ->
  exists e planes, In e es /\ In planes (e_brushes e) /\ fewest planes (cx_points shape).
Proof.
  intros fuel gd fd bl tx es nodes Run Good n0 c shapes shape I W Is.
  assert (K : forall g t, (forall b, In b (eg_brushes g) -> from_map parse cosine radians atan2 quat mat2 tx es b) -> collision_of O t g = Ok (ColConvex shapes) ->
    exists e planes, In e es /\ In planes (e_brushes e) /\ fewest planes (cx_points shape)).
  { intros g t F E. destruct t.
    - discriminate.
    - destruct (convex_sorted g) as (sh & E' & M). rewrite E in E'. injection E' as <-. destruct (Forall2_in_r _ _ _ _ _ _ M Is) as (b & Ib & G & N).
      destruct (F b Ib) as (e & planes & Ie & Ip & Eb). exists e, planes. split; [exact Ie|]. split; [exact Ip|].
      unfold build_brush in Eb. apply bind_ok in Eb. destruct Eb as (fs & Ef & Eb). injection Eb as <-. cbn [bg_faces] in G. apply mapM_ok in Ef.
      exact (faces_fewest tx e planes fs _ Ef (Good e planes Ie Ip) G N).
    - cbn [collision_of] in E. unfold concave_collision in E. apply bind_ok in E. destruct E as ([vs ix] & _ & E). destruct vs; discriminate. }
  destruct (run_parts parse cosine radians atan2 quat mat2 fuel gd fd bl tx es nodes Run) as (data & layers & E & D & L).
  destruct (scene_leaves _ _ _ _ _ _ _ _ _ _ _ _ _ E n0 _ I W) as [(e & g & Id & Ek)|(l & t & bs & Il & Ek)].
  - unfold entity_collision in Ek. destruct (get_property e (lit "classname")) as [cl|]; [|discriminate]. destruct (find_def gd cl) as [d|]; [|discriminate].
    destruct (ed_data d) as [pd|pd bd]; [discriminate|]. refine (K g _ _ Ek).
    intros b Ib. destruct (D e g Id) as (Ie & Db). destruct (Db b Ib) as (planes & Ip & Eb). exists e, planes. auto.
  - refine (K _ _ _ Ek). cbn [eg_brushes]. intros b Ib. exact (proj1 (L t bs b Il Ib)).
Qed.
End Exact.
