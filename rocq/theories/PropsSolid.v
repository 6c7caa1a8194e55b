(** Brushes as solids, in exact arithmetic (C80, C81).
    Statements use the vocabulary of [RealSpec], [WindSpec] and [SolidSpec]. *)
From Coq Require Import Reals.
From Verif Require Import Prelude F32 Text MapModel GeoModel RealSpec WindSpec SolidSpec SolidProofs WindWitness SolidWitness TouchProofs TouchWitness.
Local Close Scope R_scope.
Local Open Scope nat_scope.

(** C80: a bounded face is the convex hull of the corners found, if none is too flat to be found. *)
Theorem C80_side : forall parse cosine radians atan2 quat mat2 tx e planes plane f,
  build_face (real_num parse cosine radians atan2 quat mat2) tx e planes plane = Ok f ->
  proper plane -> crisp planes f -> sharp planes plane -> bounded (side planes plane) ->
  forall x, in_hull (map vt_pos (f_vertices f)) x <-> side planes plane x.
Proof. exact face_side. Qed.
Print Assumptions C80_side.

(** The condition is needed: a thin wedge loses two corners of its floor, which is left with none of its triangles. *)
Theorem C80_wedge : forall parse cosine radians atan2 quat mat2 tx e, exists f,
  build_face (real_num parse cosine radians atan2 quat mat2) tx e wedge floor = Ok f /\ proper floor /\ crisp wedge f /\ bounded (solid wedge) /\
  (forall x y, (0 <= x <= 1)%R -> (0 <= y <= 1)%R -> side wedge floor (V3 x y 0%R)) /\ length (f_vertices f) <= 2 /\
  ~ in_hull (map vt_pos (f_vertices f)) o0.
Proof. exact wedge_floor. Qed.
Print Assumptions C80_wedge.

(** C81: under the same conditions on each face, the triangles of a bounded brush are exactly its surface: no gaps, nothing sticking out. *)
Theorem C81_surface : forall parse cosine radians atan2 quat mat2 tx e planes b,
  build_brush (real_num parse cosine radians atan2 quat mat2) tx e planes = Ok b -> polar_angle atan2 ->
  (forall plane f, In plane planes -> In f (bg_faces b) -> build_face (real_num parse cosine radians atan2 quat mat2) tx e planes plane = Ok f ->
     proper plane /\ crisp planes f /\ sharp planes plane /\ 3 <= length (f_vertices f)) ->
  bounded (solid planes) ->
  forall x, surface_of planes x <-> exists f i p q r, In f (bg_faces b) /\ triangle f i p q r /\ in_triangle p q r x.
Proof. exact brush_surface. Qed.
Print Assumptions C81_surface.

Example C80_C81_example : forall parse cosine radians quat mat2 tx e, exists b,
  build_brush (real_num parse cosine radians real_atan2 quat mat2) tx e cube = Ok b /\ length (bg_faces b) = 6 /\
  polar_angle real_atan2 /\
  (forall plane f, In plane cube -> In f (bg_faces b) -> build_face (real_num parse cosine radians real_atan2 quat mat2) tx e cube plane = Ok f ->
     proper plane /\ crisp cube f /\ sharp cube plane /\ 3 <= length (f_vertices f)) /\ bounded (solid cube).
Proof. exact cube_ready. Qed.

(** With a point strictly inside, planes that touch the brush in an edge or a corner only, and so have no triangles, do no harm. *)
Theorem C81_touching : forall parse cosine radians atan2 quat mat2 tx e planes b,
  build_brush (real_num parse cosine radians atan2 quat mat2) tx e planes = Ok b -> polar_angle atan2 ->
  (forall plane f, In plane planes -> In f (bg_faces b) -> build_face (real_num parse cosine radians atan2 quat mat2) tx e planes plane = Ok f ->
     proper plane /\ crisp planes f /\ sharp planes plane) ->
  bounded (solid planes) -> (exists o, forall q, In q planes -> (inner (facing q) (minus o (bp_v0 q)) < 0)%R) ->
  forall x, surface_of planes x <-> exists f i p q r, In f (bg_faces b) /\ triangle f i p q r /\ in_triangle p q r x.
Proof. exact touching_surface. Qed.
Print Assumptions C81_touching.
Example C81_touching_example : forall parse cosine radians quat mat2 tx e, let O := real_num parse cosine radians real_atan2 quat mat2 in exists b f,
  build_brush O tx e ridged = Ok b /\ polar_angle real_atan2
  /\ (forall plane f, In plane ridged -> In f (bg_faces b) -> build_face O tx e ridged plane = Ok f -> proper plane /\ crisp ridged f /\ sharp ridged plane)
  /\ bounded (solid ridged) /\ (exists o, forall q, In q ridged -> (inner (facing q) (minus o (bp_v0 q)) < 0)%R)
  /\ In f (bg_faces b) /\ length (f_vertices f) <= 2.
Proof. exact ridged_ready. Qed.
