(** C152: lines through a brush. *)
From Coq Require Import Reals.
From Verif Require Import Prelude F32 Text MapModel GeoModel GeoSpec RealSpec WindSpec SolidSpec EdgeSpec RaySpec PierceSpec
  WindWitness EdgeWitness PierceProofs PierceWitness.
Local Open Scope R_scope.

(** C152: the triangles of a brush separate its inside from its outside: a point of the solid is either strictly behind all planes or on a triangle. *)
Theorem C152_inside : forall parse cosine radians atan2 quat mat2 tx e planes b,
  build_brush (real_num parse cosine radians atan2 quat mat2) tx e planes = Ok b -> polar_angle atan2 ->
  (forall plane f, In plane planes -> In f (bg_faces b) -> build_face (real_num parse cosine radians atan2 quat mat2) tx e planes plane = Ok f ->
     proper plane /\ crisp planes f /\ sharp planes plane) ->
  bounded (solid planes) -> forall d, deep planes d ->
  forall x, (solid planes x <-> deep planes x \/ on_mesh b x) /\ ~ (deep planes x /\ on_mesh b x).
Proof. exact inside_or_on. Qed.
Print Assumptions C152_inside.

(** A line that passes the inside meets the triangles at exactly two points, and the solid exactly between them. *)
Theorem C152_line : forall parse cosine radians atan2 quat mat2 tx e planes b,
  build_brush (real_num parse cosine radians atan2 quat mat2) tx e planes = Ok b -> polar_angle atan2 ->
  (forall plane f, In plane planes -> In f (bg_faces b) -> build_face (real_num parse cosine radians atan2 quat mat2) tx e planes plane = Ok f ->
     proper plane /\ crisp planes f /\ sharp planes plane) ->
  bounded (solid planes) -> forall o w t, w <> V3 0 0 0 -> deep planes (onwards o w t) ->
  exists a c, a < t < c /\ (forall u, on_mesh b (onwards o w u) <-> u = a \/ u = c) /\ forall u, solid planes (onwards o w u) <-> a <= u <= c.
Proof. exact line_through. Qed.
Print Assumptions C152_line.

(** So a point is inside exactly if such a ray from it passes the triangles an odd number of times. *)
Theorem C152_even_odd : forall parse cosine radians atan2 quat mat2 tx e planes b,
  build_brush (real_num parse cosine radians atan2 quat mat2) tx e planes = Ok b -> polar_angle atan2 ->
  (forall plane f, In plane planes -> In f (bg_faces b) -> build_face (real_num parse cosine radians atan2 quat mat2) tx e planes plane = Ok f ->
     proper plane /\ crisp planes f /\ sharp planes plane) ->
  bounded (solid planes) -> forall o w t, w <> V3 0 0 0 -> deep planes (onwards o w t) -> ~ on_mesh b o ->
  (solid planes o <-> passes b o w 1) /\ (~ solid planes o <-> passes b o w 0 \/ passes b o w 2).
Proof. exact even_odd. Qed.
Print Assumptions C152_even_odd.

(** Whoever walks straight from inside to outside meets the triangles exactly once. *)
Theorem C152_wall : forall parse cosine radians atan2 quat mat2 tx e planes b,
  build_brush (real_num parse cosine radians atan2 quat mat2) tx e planes = Ok b -> polar_angle atan2 ->
  (forall plane f, In plane planes -> In f (bg_faces b) -> build_face (real_num parse cosine radians atan2 quat mat2) tx e planes plane = Ok f ->
     proper plane /\ crisp planes f /\ sharp planes plane) ->
  bounded (solid planes) -> forall x y, deep planes x -> ~ solid planes y ->
  exists s, 0 < s < 1 /\ forall u, 0 <= u <= 1 -> (on_mesh b (towards x y u) <-> u = s).
Proof. exact wall_between. Qed.
Print Assumptions C152_wall.

(** A unit cube and a line through it meet all of this. *)
Example C152_example : forall parse cosine radians quat mat2 tx e, let O := real_num parse cosine radians real_atan2 quat mat2 in exists b,
  build_brush O tx e cube = Ok b /\ polar_angle real_atan2
  /\ (forall plane f, In plane cube -> In f (bg_faces b) -> build_face O tx e cube plane = Ok f -> proper plane /\ crisp cube f /\ sharp cube plane)
  /\ bounded (solid cube) /\ deep cube middle /\ way <> V3 0 0 0 /\ deep cube (onwards away way 1) /\ ~ on_mesh b away /\ ~ solid cube away.
Proof. exact cube_pierced. Qed.
