(** Sorting the corners of a face (C133). *)
From Coq Require Import SpecFloat ZArith.
From Verif Require Import Prelude F32 Text MapModel GeoModel GeoSpec ErrorSpec StableSpec StableProofs StableWitness Witness GeoWitness PointsWitness.

(** C133: where all angles are numbers, or all are NaN, the comparison orders the corners, and the vertices are the corners
    in the one order every stable sorting algorithm gives. *)
Theorem C133_stable : forall p tx e planes plane f, build_face (f32_num p) tx e planes plane = Ok f ->
  exists centred, gathered p planes plane f centred
    /\ ((forall v, In v centred -> angle_of (f32_num p) plane v <> S754_nan) \/ (forall v, In v centred -> angle_of (f32_num p) plane v = S754_nan) ->
        total_order (ahead p plane) centred
        /\ exists sorted, stably_sorted (ahead p plane) centred sorted
             /\ Forall2 (displaced (fun x => v3_add (f32_num p) x (f_center f))) sorted (f_vertices f)
             /\ forall s, stably_sorted (ahead p plane) centred s -> s = sorted).
Proof. exact corners_stable. Qed.
Print Assumptions C133_stable.

(** This is so for every face of a brush of at most 4000 planes as written by editors. *)
Theorem C133_written : forall p tx e planes plane f, build_face (f32_num p) tx e planes plane = Ok f ->
  (forall q, In q (plane :: planes) -> grid_plane q) -> (Z.of_nat (length planes) <= 4000)%Z -> total_angle (p_atan2 p) ->
  exists centred sorted, gathered p planes plane f centred /\ total_order (ahead p plane) centred /\ stably_sorted (ahead p plane) centred sorted
    /\ Forall2 (displaced (fun x => v3_add (f32_num p) x (f_center f))) sorted (f_vertices f) /\ forall s, stably_sorted (ahead p plane) centred s -> s = sorted.
Proof. exact written_stable. Qed.
Print Assumptions C133_written.

(** A platform with such angles, a brush of such planes, and the angles of the vertices of its upper side. *)
Example C133_example : forall simd, total_angle (p_atan2 (quartered simd)) /\ (forall q, In q (crate standard_uv) -> grid_plane q)
  /\ match build_brush (f32_num (quartered simd)) textures (world []) (crate standard_uv) with
     | Ok g => map (fun f => map (fun v => angle_of (f32_num (quartered simd)) (nth 4 (crate standard_uv) lid)
         (Vertex (v3_sub (f32_num (quartered simd)) (vt_pos v) (f_center f)) (vt_normal v) (vt_tangent v) (vt_uv v) (vt_color v))) (f_vertices f)) (firstn 1 (skipn 4 (bg_faces g)))
         = [[fz 3; fz 1; fz 0; fz (-3)]]
     | _ => False
     end.
Proof. intros simd. split; [exact quarters_total|]. split; [exact crate_grid|]. destruct simd; vm_compute; reflexivity. Qed.

(** With coordinates near the largest number, the comparison need not order the corners: one of them is tied with two others
    of which one comes before the other. *)
Theorem C133_huge : forall p, usual_angle (p_atan2 p) -> exists planes plane tx e f centred x y z, In plane planes
  /\ build_face (f32_num p) tx e planes plane = Ok f /\ gathered p planes plane f centred /\ In x centred /\ In y centred /\ In z centred
  /\ tied (ahead p plane) x y /\ tied (ahead p plane) y z /\ ahead p plane x z.
Proof. exact huge_unsorted. Qed.
Print Assumptions C133_huge.

Example C133_usual : usual_angle (p_atan2 (quartered true)).
Proof. exact quarters_usual. Qed.
