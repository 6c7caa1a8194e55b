(** An entity made of the unit cube, to try C156 on. *)
From Coq Require Import Reals Lra Lia.
From Verif Require Import Prelude F32 Text MapModel GeoModel LayerModel GameDataModel SceneModel GatherSpec SurfaceSpec GeoSpec RealSpec WindSpec SolidSpec RigidSpec EdgeSpec RaySpec ShellSpec CladSpec CastSpec AgreeSpec
  BaseProofs GeoProofs SurfaceProofs RealProofs WindProofs SolidProofs EdgeProofs EdgeProofs RayProofs WindWitness SolidWitness RigidWitness EdgeWitness ShellProofs ShellWitness PierceWitness CastProofs AgreeProofs.
Local Open Scope R_scope.

Definition block1 : entity R := Entity [(lit "classname", lit "func_wall")] [cube].
Section Block.
Context (parse : str -> option R) (cosine radians : R -> R) (quat : vec3 R -> R -> vec3 R -> vec3 R) (mat2 : R -> vec2 R -> vec2 R).
Local Notation O := (real_num parse cosine radians real_atan2 quat mat2).
Lemma deep_core : forall planes l, bounded (solid planes) -> casts planes l -> forall x, deep planes x -> core l x.
Proof.
  intros planes l Bd C x D. split; [apply C; exact (deep_solid _ _ D)|]. intros w. destruct (v3_dec w (V3 0 0 0)) as [->|N].
  - exists 1. split; [lra|]. apply C. replace (onwards x (V3 0 0 0) 1) with x; [exact (deep_solid _ _ D)|]. unfold onwards. apply v3_ext; cbn [vx vy vz]; ring.
  - destruct (leaves planes x Bd D w N) as (t & Ht & _ & _ & L). exists t. split; [exact Ht|]. apply C. apply L; lra.
Qed.
Theorem block_agrees : forall tx, (forall planes, In planes (e_brushes block1) -> good_brush O tx block1 planes) /\ exists g shapes k T shape,
  build_entity_geo O tx block1 = Ok g /\ collision_of O CConvex g = Ok (ColConvex shapes) /\ collision_of O CConcave g = Ok k /\ In T (shells (NCollision (eg_center g) k))
  /\ In shape shapes /\ core (cx_points shape) middle /\ ~ in_hull (cx_points shape) away.
Proof.
  intros tx. assert (Gd : forall planes, In planes (e_brushes block1) -> good_brush O tx block1 planes) by (intros planes [<-|[]]; apply cube_good). split; [exact Gd|].
  destruct (cube_closed parse cosine radians quat mat2 tx block1) as (b & _ & _ & _ & E & _).
  assert (Eg : exists ce, build_entity_geo O tx block1 = Ok (EntityGeo ce [b])).
  { unfold build_entity_geo, block1. cbn [e_brushes mapM]. fold block1. rewrite E. cbn [bind]. eexists. reflexivity. }
  destruct Eg as (ce & Eg). set (g := EntityGeo ce [b]) in *. destruct (convex_gathered parse cosine radians real_atan2 quat mat2 g) as (shapes & Ex & F).
  assert (Eb := E). unfold build_brush in Eb. apply bind_ok in Eb. destruct Eb as (fs & Ef & Eb). injection Eb as Eb. apply mapM_ok in Ef.
  assert (Bd : geometry_in_bounds g).
  { intros b' f' [<-|[]] If'. rewrite <- Eb in If'. cbn [bg_faces] in If'. destruct (Forall2_in_r _ _ _ _ _ _ Ef If') as (pl & _ & Eq). exact (proj1 (proj2 (face_fan _ _ _ _ _ _ Eq))). }
  destruct (concave_full O (real_laws parse cosine radians real_atan2 quat mat2) g Bd) as (kept & vs & ix & Ek & _ & _ & _ & Nk).
  destruct vs as [|p vs].
  { exfalso. destruct (Forall2_in_l _ _ _ _ _ _ Ef (or_introl eq_refl : In lid cube)) as (f & If & Eq).
    pose proof (cube_three _ _ _ _ _ _ _ _ _ _ (or_introl eq_refl : In lid cube) Eq) as L. rewrite (proj1 Nk eq_refl b f (or_introl eq_refl)) in L; [cbn in L; lia|]. now rewrite <- Eb. }
  destruct (Forall2_in_l _ _ _ _ _ _ (cast_shapes parse cosine radians real_atan2 quat mat2 tx block1 g Eg Gd shapes Ex) (or_introl eq_refl : In cube (e_brushes block1))) as (shape & Is & _ & C & B & _).
  exists g, shapes, (ColConcave [Concave (eg_center g) (p :: vs) ix]), (drawn_triangles (p :: vs) ix), shape.
  split; [exact Eg|]. split; [exact Ex|]. split; [exact Ek|]. split; [now left|]. split; [exact Is|]. split; [exact (deep_core cube _ B C middle cube_deep)|].
  intros H. apply C in H. exact (away_outside H).
Qed.
End Block.
