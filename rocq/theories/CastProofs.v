(** Convex shapes and solids in exact arithmetic: lemmas for C149. *)
From Coq Require Import Reals Lra Lia Permutation.
From Verif Require Import Prelude F32 Text MapModel GeoModel LayerModel GameDataModel SceneModel GatherSpec SurfaceSpec LayerSpec InvarianceSpec GeoSpec RealSpec WindSpec SolidSpec RigidSpec EdgeSpec ShellSpec CutSpec CastSpec
  BaseProofs GatherProofs GeoProofs SurfaceProofs RealProofs WindProofs SolidProofs TriangleProofs FillProofs ShellProofs ShellFinal CutProofs.
Local Open Scope R_scope.

Section Exact.
Context (parse : str -> option R) (cosine radians : R -> R) (atan2 : R -> R -> R)
  (quat : vec3 R -> R -> vec3 R -> vec3 R) (mat2 : R -> vec2 R -> vec2 R).
Local Notation O := (real_num parse cosine radians atan2 quat mat2).
Local Notation laws := (real_laws parse cosine radians atan2 quat mat2).

Definition gathered (faces : list (face R)) (l : list (vec3 R)) : Prop :=
  (forall f v, In f faces -> In v (f_vertices f) -> In (vt_pos v) l) /\ (forall q, In q l -> exists f v, In f faces /\ In v (f_vertices f) /\ q = vt_pos v).
Lemma equal_points : forall a b, pos_eq O a b -> a = b.
Proof.
  intros a b (A & B & C). apply v3_ext; [exact (proj1 (real_eq parse cosine radians atan2 quat mat2 _ _) A)|exact (proj1 (real_eq parse cosine radians atan2 quat mat2 _ _) B)|exact (proj1 (real_eq parse cosine radians atan2 quat mat2 _ _) C)].
Qed.
Lemma convex_gathered : forall g, exists shapes, collision_of O CConvex g = Ok (ColConvex shapes) /\ Forall2 (fun b c => gathered (bg_faces b) (cx_points c)) (eg_brushes g) shapes.
Proof.
  intros g. destruct (convex_full O laws g) as (shapes & E & F). exists shapes. split; [exact E|]. eapply Forall2_impl; [|exact F]. cbv beta.
  intros b c (_ & _ & _ & A & B). split; [|exact B]. intros f v If Iv. destruct (A f v If Iv) as (q & Iq & [->|Eq]); [exact Iq|]. now rewrite <- (equal_points _ _ Eq).
Qed.

Theorem faces_cast : forall tx e planes faces l, Forall2 (fun pl f => build_face O tx e planes pl = Ok f) planes faces -> fair_brush O tx e planes -> gathered faces l -> casts planes l.
Proof.
  intros tx e planes faces l F (Fr & Bd) (A & B).
  assert (S : forall pl f, In pl planes -> build_face O tx e planes pl = Ok f -> forall x, in_hull (map vt_pos (f_vertices f)) x <-> side planes pl x).
  { intros pl f Ip E. destruct (Fr pl f Ip E) as (P & K & Sh). apply (face_side parse cosine radians atan2 quat mat2 tx e planes pl f E P K Sh).
    destruct Bd as (m & Bd). exists m. intros x (_ & Sx). now apply Bd. }
  intros x. split.
  - intros H. apply solid_slack. intros q Iq. apply (hull_slack q l x H). intros y Iy. destruct (B y Iy) as (f & v & If & Iv & ->).
    destruct (Forall2_in_r _ _ _ _ _ _ F If) as (pl & Ip & E). assert (Sd : side planes pl (vt_pos v)) by (apply (S pl f Ip E), hull_corner, in_map, Iv).
    destruct Sd as (_ & So). rewrite solid_slack in So. now apply So.
  - apply (solid_hull planes l Bd). intros q y Iq Sd. destruct (Forall2_in_l _ _ _ _ _ _ F Iq) as (f & If & E). apply (S q f Iq E) in Sd.
    apply (weighted_within l (map vt_pos (f_vertices f)) 1 y Sd). intros z Iz. apply in_map_iff in Iz. destruct Iz as (v & <- & Iv). now apply (A f).
Qed.
Theorem brush_cast : forall tx e planes g o bs k i, build_brush O tx e planes = Ok g -> fair_brush O tx e planes -> nth_error bs i = Some g -> collision_of O CConvex (EntityGeo o bs) = Ok k ->
  exists shapes shape, k = ColConvex shapes /\ nth_error shapes i = Some shape /\ casts planes (cx_points shape).
Proof.
  intros tx e planes g o bs k i E Fr Hi Ek. destruct (convex_gathered (EntityGeo o bs)) as (shapes & E' & F). rewrite Ek in E'. injection E' as ->. cbn [eg_brushes] in F.
  destruct (TriangleProofs.Forall2_nth _ _ _ _ _ _ _ F Hi) as (shape & Hs & G). exists shapes, shape. split; [reflexivity|]. split; [exact Hs|].
  unfold build_brush in E. apply bind_ok in E. destruct E as (fs & Ef & E). injection E as <-. cbn [bg_faces] in G. apply mapM_ok in Ef. exact (faces_cast tx e planes fs _ Ef Fr G).
Qed.

(** The parts of a brush that is cut. *)
Theorem cut_cast : forall planes one two c c' l l1 l2, backs c c' -> adds c planes one -> adds c' planes two -> casts planes l -> casts one l1 -> casts two l2 ->
  (forall x, in_hull l x <-> in_hull l1 x \/ in_hull l2 x) /\ (forall x, in_hull l1 x -> in_hull l2 x -> on_plane c x).
Proof.
  intros planes one two c c' l l1 l2 B A1 A2 C C1 C2. split.
  - intros x. rewrite (C x), (C1 x), (C2 x). apply (solid_cut planes one two c c' x B A1 A2).
  - intros x I1 I2. apply C1 in I1. apply C2 in I2. apply (both_of_cut c c' x B); [apply I1|apply I2]; [apply A1|apply A2]; now left.
Qed.

(** Whole scenes. *)
Theorem scene_cast : forall fuel gd fd bl tx es nodes, exact_scene O fuel gd fd bl tx es = Ok nodes ->
  (forall e planes, In e es -> In planes (e_brushes e) -> fair_brush O tx e planes) ->
  forall n0 c shapes shape, In n0 nodes -> InvarianceSpec.within (NCollision c (ColConvex shapes)) n0 -> In shape shapes ->
  exists e planes, In e es /\ In planes (e_brushes e) /\ casts planes (cx_points shape).
Proof.
  intros fuel gd fd bl tx es nodes Run Good n0 c shapes shape I W Is.
  assert (K : forall g t, (forall b, In b (eg_brushes g) -> from_map parse cosine radians atan2 quat mat2 tx es b) -> collision_of O t g = Ok (ColConvex shapes) ->
    exists e planes, In e es /\ In planes (e_brushes e) /\ casts planes (cx_points shape)).
  { intros g t F E. destruct t.
    - discriminate.
    - destruct (convex_gathered g) as (sh & E' & M). rewrite E in E'. injection E' as <-. destruct (Forall2_in_r _ _ _ _ _ _ M Is) as (b & Ib & G).
      destruct (F b Ib) as (e & planes & Ie & Ip & Eb). exists e, planes. split; [exact Ie|]. split; [exact Ip|].
      unfold build_brush in Eb. apply bind_ok in Eb. destruct Eb as (fs & Ef & Eb). injection Eb as <-. cbn [bg_faces] in G. apply mapM_ok in Ef.
      exact (faces_cast tx e planes fs _ Ef (Good e planes Ie Ip) G).
    - cbn [collision_of] in E. unfold concave_collision in E. apply bind_ok in E. destruct E as ([vs ix] & _ & E). destruct vs; discriminate. }
  destruct (run_parts parse cosine radians atan2 quat mat2 fuel gd fd bl tx es nodes Run) as (data & layers & E & D & L).
  destruct (scene_leaves _ _ _ _ _ _ _ _ _ _ _ _ _ E n0 _ I W) as [(e & g & Id & Ek)|(l & t & bs & Il & Ek)].
  - unfold entity_collision in Ek. destruct (get_property e (lit "classname")) as [cl|]; [|discriminate]. destruct (find_def gd cl) as [d|]; [|discriminate].
    destruct (ed_data d) as [pd|pd bd]; [discriminate|]. refine (K g _ _ Ek).
    intros b Ib. destruct (D e g Id) as (Ie & Db). destruct (Db b Ib) as (planes & Ip & Eb). exists e, planes. auto.
  - refine (K _ _ _ Ek). cbn [eg_brushes]. intros b Ib. exact (proj1 (L t bs b Il Ib)).
Qed.
End Exact.
