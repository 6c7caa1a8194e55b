(** C145: cutting a brush in two. *)
From Coq Require Import Reals Permutation.
From Verif Require Import Prelude F32 Text MapModel GeoModel SceneModel GeoSpec RealSpec WindSpec SolidSpec RestateSpec CutSpec WindWitness CutProofs CutWitness.
Local Open Scope R_scope.

(** C145: cut a brush by a plane, seen from either side in the two parts. The two new faces have the same corners and centre and as many triangles, and their corners
    come in opposite orders, beginning anywhere ... *)
Theorem C145_cut : forall parse cosine radians atan2 quat mat2 planes one two c c' tx tx' e e' f, backs c c' -> adds c planes one -> adds c' planes two ->
  build_face (real_num parse cosine radians atan2 quat mat2) tx e one c = Ok f ->
  exists f', build_face (real_num parse cosine radians atan2 quat mat2) tx' e' two c' = Ok f' /\ touching f f'
    /\ (crisp one f -> polar_angle atan2 -> begun_elsewhere (rev (map vt_pos (f_vertices f))) (map vt_pos (f_vertices f'))).
Proof. exact faces_touch. Qed.
Print Assumptions C145_cut.

(** ... every other side is covered by its two parts, nothing more, and these meet only along the cut. *)
Theorem C145_sides : forall parse cosine radians atan2 quat mat2 planes one two c c' tx e plane f f1 f2, backs c c' -> adds c planes one -> adds c' planes two ->
  build_face (real_num parse cosine radians atan2 quat mat2) tx e planes plane = Ok f ->
  build_face (real_num parse cosine radians atan2 quat mat2) tx e one plane = Ok f1 ->
  build_face (real_num parse cosine radians atan2 quat mat2) tx e two plane = Ok f2 ->
  proper plane -> crisp planes f -> sharp planes plane -> crisp one f1 -> sharp one plane -> crisp two f2 -> sharp two plane -> bounded (side planes plane) ->
  (forall x, in_hull (map vt_pos (f_vertices f)) x <-> in_hull (map vt_pos (f_vertices f1)) x \/ in_hull (map vt_pos (f_vertices f2)) x)
  /\ (forall x, in_hull (map vt_pos (f_vertices f1)) x -> in_hull (map vt_pos (f_vertices f2)) x -> on_plane c x).
Proof. exact side_cut. Qed.
Print Assumptions C145_sides.

Example C145_example : backs cut other /\ adds cut cube (cut :: cube) /\ adds other cube (other :: cube) /\ polar_angle real_atan2 /\
  (solid (cut :: cube) (V3 (/ 4) 0 0) /\ ~ solid (other :: cube) (V3 (/ 4) 0 0)) /\ (solid (other :: cube) (V3 1 0 0) /\ ~ solid (cut :: cube) (V3 1 0 0)) /\
  forall parse cosine radians quat mat2 tx e, let O := real_num parse cosine radians real_atan2 quat mat2 in
    (exists f, build_face O tx e (cut :: cube) cut = Ok f /\ crisp (cut :: cube) f /\ In half (map vt_pos (f_vertices f)))
    /\ (exists f f1 f2, build_face O tx e cube lid = Ok f /\ build_face O tx e (cut :: cube) lid = Ok f1 /\ build_face O tx e (other :: cube) lid = Ok f2 /\
      proper lid /\ crisp cube f /\ sharp cube lid /\ crisp (cut :: cube) f1 /\ sharp (cut :: cube) lid /\ crisp (other :: cube) f2 /\ sharp (other :: cube) lid /\ bounded (side cube lid)).
Proof. exact cube_cut. Qed.
