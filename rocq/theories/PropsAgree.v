(** C156: concave and convex collision of an entity stop the same things. *)
From Coq Require Import Reals.
From Verif Require Import Prelude F32 Text MapModel GeoModel GameDataModel SceneModel GeoSpec RealSpec WindSpec SolidSpec EdgeSpec RaySpec ShellSpec CladSpec AgreeSpec
  RealProofs WindWitness EdgeWitness PierceWitness AgreeProofs AgreeWitness.
Local Open Scope R_scope.

(** C156: the triangles of the concave shape of an entity are exactly the skins of its convex shapes ... *)
Theorem C156_skin : forall parse cosine radians atan2 quat mat2, polar_angle atan2 -> forall tx e g,
  build_entity_geo (real_num parse cosine radians atan2 quat mat2) tx e = Ok g ->
  (forall planes, In planes (e_brushes e) -> good_brush (real_num parse cosine radians atan2 quat mat2) tx e planes) ->
  forall shapes, collision_of (real_num parse cosine radians atan2 quat mat2) CConvex g = Ok (ColConvex shapes) ->
  forall k c T, collision_of (real_num parse cosine radians atan2 quat mat2) CConcave g = Ok k -> In T (shells (NCollision c k)) ->
  forall x, covered T x <-> exists shape, In shape shapes /\ skin (cx_points shape) x.
Proof. exact shapes_agree. Qed.
Print Assumptions C156_skin.

(** ... and every straight way out of a convex shape meets the concave one. *)
Theorem C156_ways : forall parse cosine radians atan2 quat mat2, polar_angle atan2 -> forall tx e g,
  build_entity_geo (real_num parse cosine radians atan2 quat mat2) tx e = Ok g ->
  (forall planes, In planes (e_brushes e) -> good_brush (real_num parse cosine radians atan2 quat mat2) tx e planes) ->
  forall shapes, collision_of (real_num parse cosine radians atan2 quat mat2) CConvex g = Ok (ColConvex shapes) ->
  forall k c T, collision_of (real_num parse cosine radians atan2 quat mat2) CConcave g = Ok k -> In T (shells (NCollision c k)) ->
  forall shape x y, In shape shapes -> core (cx_points shape) x -> ~ in_hull (cx_points shape) y -> exists s, 0 < s < 1 /\ covered T (towards x y s).
Proof. exact shapes_stop. Qed.
Print Assumptions C156_ways.

(** An entity made of the unit cube. *)
Example C156_example : polar_angle real_atan2 /\ forall parse cosine radians quat mat2, let O := real_num parse cosine radians real_atan2 quat mat2 in forall tx,
  (forall planes, In planes (e_brushes block1) -> good_brush O tx block1 planes) /\ exists g shapes k T shape,
  build_entity_geo O tx block1 = Ok g /\ collision_of O CConvex g = Ok (ColConvex shapes) /\ collision_of O CConcave g = Ok k /\ In T (shells (NCollision (eg_center g) k))
  /\ In shape shapes /\ core (cx_points shape) middle /\ ~ in_hull (cx_points shape) away.
Proof. exact (conj real_polar block_agrees). Qed.
