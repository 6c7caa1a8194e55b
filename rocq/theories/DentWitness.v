(** A brush with a triangle that is turned over: the hypotheses of C105 and C106 are needed. *)
From Coq Require Import SpecFloat Lia Reals Lra.
From Flocq Require Import Core.
From Verif Require Import Prelude F32 Text MapModel GeoModel Witness GatherSpec GeoSpec RealSpec WindSpec ArithProofs FloatProofs ExactProofs BoxSpec NumberSpec GeoWitness ErrorSpec ErrorProofs ErrorFinal ErrorWitness CornerWitness TriangleSpec.
Local Open Scope R_scope.

(** A thin wedge whose end is cut off twice, at angles that differ by a five-hundredth. *)
Definition d0 : vec3 Z := V3 0%Z 0%Z 0%Z.
Definition d3 : vec3 Z := V3 0%Z 0%Z 1%Z.
Definition d1 : vec3 Z := V3 1%Z 0%Z 0%Z.
Definition d13 : vec3 Z := V3 1%Z 0%Z 1%Z.
Definition dent_lid : brush_plane f32 := tri d3 (V3 1000%Z 1201%Z 1%Z) d13.
Definition dent : list (brush_plane f32) :=
  [dent_lid; tri d0 d1 (V3 0%Z 1%Z 0%Z); tri d1 d13 (V3 1%Z 1%Z 0%Z); tri d1 d13 (V3 0%Z 500%Z 0%Z); tri d0 d3 (V3 (-5)%Z (-1)%Z 0%Z); tri d0 d3 (V3 5%Z (-1)%Z 0%Z)].
Definition dent_face (simd : bool) : face f32 := face_of (build_face (f32_num (polar simd)) textures (world []) dent dent_lid).

Lemma dent_grid : forall q, In q dent -> grid_plane q /\ extent 1201 (bp_v0 (plane_of q)) /\ extent 1201 (bp_v1 (plane_of q)) /\ extent 1201 (bp_v2 (plane_of q)).
Proof.
  intros q H. cbn [In dent] in H.
  assert (X : forall k, coords (fun c => Z.abs c <= 1201)%Z k -> extent 1201 (point_of (fvz k))).
  { intros k K. assert (G : on_grid k) by (destruct K as (? & ? & ?); unfold on_grid, coords; lia). destruct (point_fvz k G) as [_ ->].
    destruct K as (? & ? & ?). unfold extent, reals. cbn [vx vy vz]. rewrite <- !abs_IZR. repeat split; apply IZR_le; assumption. }
  repeat (destruct H as [<-|H]; [split; [apply (tri_grid _ _ _ 1201 1201); [grid|grid|grid|znum|znum|znum|lia]|cbn [plane_of bp_v0 bp_v1 bp_v2 dent_lid tri wall_at]; repeat split; apply X; znum]|]). destruct H.
Qed.

Theorem turned_over : forall simd, exists p tx e planes plane f k u v w, p_simd p = simd
  /\ build_face (f32_num p) tx e planes plane = Ok f /\ In plane planes
  /\ (forall q, In q planes -> grid_plane q /\ extent 1201 (bp_v0 (plane_of q)) /\ extent 1201 (bp_v1 (plane_of q)) /\ extent 1201 (bp_v2 (plane_of q)))
  /\ kth_triangle (map vt_pos (f_vertices f)) (f_indices f) k u v w /\ clockwise (facing (plane_of plane)) (point_of u) (point_of w) (point_of v).
Proof.
  intros simd. set (u := V3 (S754_finite false 8388608 (-23)) (S754_finite false 13421773 (-26)) (S754_finite false 8388608 (-23))).
  set (v := V3 (S754_finite false 8388608 (-23)) (S754_zero false) (S754_finite false 8388608 (-23))).
  set (w := V3 (S754_finite false 8391965 (-23)) (S754_finite true 13427143 (-26)) (S754_finite false 8388608 (-23))).
  exists (polar simd), textures, (world []), dent, dent_lid, (dent_face simd), 0%nat, u, v, w.
  split; [reflexivity|]. split; [unfold dent_face; destruct simd; vm_compute; reflexivity|]. split; [now left|]. split; [exact dent_grid|]. split.
  - exists 0%nat, 1%nat, 2%nat. destruct simd; vm_compute; repeat split.
  - unfold clockwise. assert (facing (plane_of dent_lid) = V3 0 0 1201) as ->.
    { unfold dent_lid. rewrite tri_facing by grid. reflexivity. }
    unfold inner, outer, minus, point_of, u, v, w. cbn [vx vy vz]. rewrite !val_small, !val_nought. cbn [cond_Zopp Z.opp].
    replace (2 ^ 23)%Z with 8388608%Z by reflexivity. replace (2 ^ 26)%Z with 67108864%Z by reflexivity. lra.
Qed.
