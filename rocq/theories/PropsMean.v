(** Rounding errors of centres (C104). *)
From Coq Require Import Reals.
From Verif Require Import Prelude F32 Text MapModel GeoModel Witness GeoSpec NumberSpec RealSpec GeoWitness ErrorSpec CornerWitness MeanSpec MeanProofs.
Local Open Scope R_scope.

(** C104: the centre of a face is finite and the mean of the positions of its vertices, up to (n + 12) / 2^23 times their distance [m]
    from the origin, where n is their number. *)
Theorem C104_face : forall p tx e planes plane f m, build_face (f32_num p) tx e planes plane = Ok f ->
  (forall q, In q (plane :: planes) -> grid_plane q) -> (Z.of_nat (length planes) <= 4000)%Z ->
  f_vertices f <> [] -> (forall v, In v (f_vertices f) -> norm (point_of (vt_pos v)) <= m) ->
  finite_point (f_center f)
  /\ norm (minus (point_of (f_center f)) (average (map (fun v => point_of (vt_pos v)) (f_vertices f)))) <= drift (length (f_vertices f)) m.
Proof. exact face_centre_accurate. Qed.
Print Assumptions C104_face.

(** Likewise the centre of a brush and the centres of its faces. *)
Theorem C104_brush : forall p tx e b g m, build_brush (f32_num p) tx e b = Ok g ->
  (forall q, In q b -> grid_plane q) -> b <> [] -> (Z.of_nat (length b) <= 4000)%Z ->
  (forall f, In f (bg_faces g) -> norm (point_of (f_center f)) <= m) ->
  finite_point (bg_center g)
  /\ norm (minus (point_of (bg_center g)) (average (map (fun f => point_of (f_center f)) (bg_faces g)))) <= drift (length b) m.
Proof. exact brush_centre. Qed.
Print Assumptions C104_brush.

(** Likewise the centre of an entity without "origin" and the centres of its brushes. *)
Theorem C104_entity : forall p tx e g m, build_entity_geo (f32_num p) tx e = Ok g -> hget (e_props e) (lit "origin") = None -> e_brushes e <> [] ->
  (forall b, In b (e_brushes e) -> b <> [] /\ (Z.of_nat (length b) <= 4000)%Z /\ forall q, In q b -> grid_plane q) ->
  (Z.of_nat (length (e_brushes e)) < 2 ^ 24)%Z ->
  (forall b, In b (eg_brushes g) -> norm (point_of (bg_center b)) <= m) ->
  finite_point (eg_center g)
  /\ norm (minus (point_of (eg_center g)) (average (map (fun b => point_of (bg_center b)) (eg_brushes g)))) <= drift (length (e_brushes e)) m.
Proof. exact entity_centre_accurate. Qed.
Print Assumptions C104_entity.

(** A pyramid, at whose tip every slanted face has two vertices (C93), and a tetrahedron. *)
Definition pair : entity f32 := Entity [(lit "classname", lit "func_wall")] [roof; wedge].
Example C104_example : hget (e_props pair) (lit "origin") = None
  /\ (forall b, In b (e_brushes pair) -> b <> [] /\ (Z.of_nat (length b) <= 4000)%Z /\ forall q, In q b -> grid_plane q)
  /\ forall simd, match build_entity_geo (f32_num (polar simd)) textures pair with
       | Ok g => map (fun b => map (fun f => length (f_vertices f)) (bg_faces b)) (eg_brushes g)
       | _ => []
       end = [[4; 4; 4; 4; 4]%nat; [3; 3; 3; 3]%nat].
Proof.
  split; [reflexivity|]. split.
  - intros b [<-|[<-|[]]]; (split; [discriminate|split; [vm_compute; discriminate|]]); intros q H; [apply roof_grid|apply wedge_grid]; exact H.
  - intros []; vm_compute; reflexivity.
Qed.
