(** Examples and counterexamples of C103: a corner at the origin, one of whose sides is painted in several ways. *)
From Coq Require Import Reals Lra List.
From Verif Require Import Prelude F32 Text MapModel GeoModel RealSpec UvSpec TangentSpec RealProofs RealAttributes GeoWitness TangentProofs.
Import ListNotations.
Local Open Scope R_scope.

Definition painted (uv : uv R) (rotation : R) (scale : vec2 R) : brush_plane R := BrushPlane (V3 0 0 0) ey ex (lit "brick") uv rotation scale ExNone.
Definition corner_of (p : brush_plane R) : list (brush_plane R) := [p; through ez ey; through ex ez].

Section Painted.
Context (parse : str -> option R) (cosine : R -> R) (atan2 : R -> R -> R).
Local Notation O := (exactly parse cosine atan2).

Lemma painted_face : forall uv r s, exists f v, build_face O textures (Entity [] [corner_of (painted uv r s)]) (corner_of (painted uv r s)) (painted uv r s) = Ok f
  /\ In v (f_vertices f) /\ hget textures (bp_texture (painted uv r s)) = Some (64, 64)%N /\ proper (painted uv r s) /\ along (facing (painted uv r s)).
Proof.
  intros uv r s. destruct (real_total parse cosine true_radians atan2 true_quat true_mat2 textures (Entity [] [corner_of (painted uv r s)]) (corner_of (painted uv r s)) (painted uv r s)) as [f E].
  destruct room_corner as (A & B & C & D & F & G & H & I).
  assert (X : In (V3 0 0 0) (map vt_pos (f_vertices f))).
  { apply (proj2 (real_corners _ _ _ _ _ _ _ _ _ _ _ E)). exists (through ez ey), (through ex ez).
    split; [cbn; auto|]. split; [cbn; auto|]. split; [exact A|]. split; [exact B|]. split; [exact C|]. split; [exact D|]. split; [exact F|]. split; [exact G|]. split; [exact H|].
    intros q [<-|Hq]; [apply (I (through ey ex)); cbn; auto|apply I; cbn in *; tauto]. }
  apply in_map_iff in X. destruct X as (v & _ & Hv). exists f, v. split; [exact E|]. split; [exact Hv|]. split; [reflexivity|]. split; [exact A|].
  unfold along, facing, outer, minus. cbn. split; [|left; split; ring]. intros K. injection K. lra.
Qed.

Lemma textured_64 : textured (64, 64)%N.
Proof. split; reflexivity. Qed.

(** Turned by a right angle, u gets smaller along the tangent. *)
Lemma rotated : exists tx e planes plane f v size uo vo, build_face O tx e planes plane = Ok f /\ In v (f_vertices f) /\ hget tx (bp_texture plane) = Some size
  /\ textured size /\ proper plane /\ bp_uv plane = UVQuake uo vo /\ 0 < ux (bp_scale plane) /\ 0 < uy (bp_scale plane) /\ ~ follows plane size (vt_tangent v).
Proof.
  destruct (painted_face (UVQuake 0 0) 90 (V2 1 1)) as (f & v & E & Hv & Hs & Pr & Al).
  do 9 eexists. split; [exact E|]. split; [exact Hv|]. split; [exact Hs|]. split; [exact textured_64|]. split; [exact Pr|]. split; [reflexivity|]. split; [cbn; lra|]. split; [cbn; lra|].
  intros (b & du & dv & du' & dv' & _ & H & P & _).
  pose proof (standard_turned _ _ _ _ _ _ _ _ _ (64, 64)%N 0 0 E Hv eq_refl Al) as K.
  destruct (shifts_fun _ _ _ _ _ _ _ H K) as [Ed _]. cbn [bp_rotation painted bp_scale ux fst] in Ed.
  replace (2 * true_radians 90) with PI in Ed by (unfold true_radians; field). rewrite cos_PI in Ed. cbn [Z.of_N] in Ed. lra.
Qed.
(** So it does for a texture mirrored along u. *)
Lemma mirrored : exists tx e planes plane f v size uo vo, build_face O tx e planes plane = Ok f /\ In v (f_vertices f) /\ hget tx (bp_texture plane) = Some size
  /\ textured size /\ proper plane /\ bp_uv plane = UVQuake uo vo /\ bp_rotation plane = 0 /\ ux (bp_scale plane) <> 0 /\ 0 < uy (bp_scale plane) /\ ~ follows plane size (vt_tangent v).
Proof.
  destruct (painted_face (UVQuake 0 0) 0 (V2 (-1) 1)) as (f & v & E & Hv & Hs & Pr & Al).
  do 9 eexists. split; [exact E|]. split; [exact Hv|]. split; [exact Hs|]. split; [exact textured_64|]. split; [exact Pr|]. split; [reflexivity|]. split; [reflexivity|]. split; [cbn; lra|]. split; [cbn; lra|].
  intros (b & du & dv & du' & dv' & _ & H & P & _).
  pose proof (standard_turned _ _ _ _ _ _ _ _ _ (64, 64)%N 0 0 E Hv eq_refl Al) as K.
  destruct (shifts_fun _ _ _ _ _ _ _ H K) as [Ed _]. cbn [bp_rotation painted bp_scale ux fst] in Ed.
  replace (2 * true_radians 0) with 0 in Ed by (unfold true_radians; field). rewrite cos_0 in Ed. cbn [Z.of_N] in Ed. lra.
Qed.
(** Valve coordinates mirrored along v: the handedness does not look at the scale. *)
Lemma flipped : exists tx e planes plane f v size ua uo va vo, build_face O tx e planes plane = Ok f /\ In v (f_vertices f) /\ hget tx (bp_texture plane) = Some size
  /\ textured size /\ bp_uv plane = UVValve ua uo va vo /\ inner (outer (facing plane) ua) va <> 0 /\ 0 < ux (bp_scale plane) /\ uy (bp_scale plane) <> 0
  /\ ~ follows plane size (vt_tangent v).
Proof.
  destruct (painted_face (UVValve ex 0 (V3 0 (-1) 0) 0) 0 (V2 1 (-1))) as (f & v & E & Hv & Hs & Pr & Al).
  do 11 eexists. split; [exact E|]. split; [exact Hv|]. split; [exact Hs|]. split; [exact textured_64|]. split; [reflexivity|].
  assert (Fc : facing (painted (UVValve ex 0 (V3 0 (-1) 0) 0) 0 (V2 1 (-1))) = V3 0 0 1).
  { unfold facing, outer, minus. cbn. f_equal; ring. }
  split; [rewrite Fc; unfold inner, outer; cbn [vx vy vz ex]; lra|]. split; [cbn; lra|]. split; [cbn; lra|].
  intros (b & du & dv & du' & dv' & (u & U & Eb) & _ & _ & H & P).
  pose proof (real_tangent _ _ _ _ _ _ _ _ _ _ _ _ E Hv) as T. unfold tangent_of in T. cbn [bp_uv painted] in T. destruct T as (Et & Sg).
  destruct (vt_tangent v) as [t w]. cbn [fst snd] in *. subst t. rewrite Fc in *.
  assert (N1 : norm (V3 0 0 1) = 1) by (unfold norm, inner; cbn [vx vy vz]; rewrite Rmult_0_l, Rmult_1_l, !Rplus_0_l; apply sqrt_1).
  destruct U as [[N0 _]|[_ ->]]; [lra|]. rewrite N1 in Eb. cbn [vx vy vz] in Eb.
  assert (W : w = 1) by (destruct Sg as [[A B]|[A B]]; [exfalso; revert A; unfold inner, outer; cbn [vx vy vz ex]; lra|lra]). subst w.
  pose proof (shifts_valve (painted (UVValve ex 0 (V3 0 (-1) 0) 0) 0 (V2 1 (-1))) (64, 64)%N b ex 0 (V3 0 (-1) 0) 0 eq_refl) as K.
  destruct (shifts_fun _ _ _ _ _ _ _ H K) as [_ Ed]. subst b. revert Ed. unfold inner, outer. cbn [vx vy vz ex bp_scale painted uy snd Z.of_N]. lra.
Qed.

(** Examples. *)
Lemma valve_example : exists tx e planes plane f v size ua uo va vo, build_face O tx e planes plane = Ok f /\ In v (f_vertices f) /\ textured size
  /\ bp_uv plane = UVValve ua uo va vo /\ 0 < ux (bp_scale plane) /\ 0 < uy (bp_scale plane) /\ inner (outer (facing plane) ua) va <> 0.
Proof.
  destruct (painted_face (UVValve (V3 1 1 0) 3 (V3 1 (-1) 0) 5) 0 (V2 2 (/ 2))) as (f & v & E & Hv & Hs & Pr & Al).
  do 11 eexists. split; [exact E|]. split; [exact Hv|]. split; [exact textured_64|]. split; [reflexivity|]. split; [cbn; lra|]. split; [cbn; lra|].
  unfold facing, inner, outer, minus. cbn. lra.
Qed.
Lemma standard_example : exists tx e planes plane f v size uo vo, build_face O tx e planes plane = Ok f /\ In v (f_vertices f) /\ textured size
  /\ bp_uv plane = UVQuake uo vo /\ bp_rotation plane = 0 /\ 0 < ux (bp_scale plane) /\ uy (bp_scale plane) <> 0 /\ proper plane.
Proof.
  destruct (painted_face (UVQuake 3 5) 0 (V2 2 (- / 2))) as (f & v & E & Hv & Hs & Pr & Al).
  do 9 eexists. split; [exact E|]. split; [exact Hv|]. split; [exact textured_64|]. split; [reflexivity|]. split; [reflexivity|]. split; [cbn; lra|]. split; [cbn; lra|]. exact Pr.
Qed.
Lemma turned_example : exists tx e planes plane f v uo vo, build_face O tx e planes plane = Ok f /\ In v (f_vertices f)
  /\ bp_uv plane = UVQuake uo vo /\ bp_rotation plane = 30 /\ along (facing plane).
Proof.
  destruct (painted_face (UVQuake 3 5) 30 (V2 2 (- / 2))) as (f & v & E & Hv & Hs & Pr & Al).
  do 8 eexists. split; [exact E|]. split; [exact Hv|]. split; [reflexivity|]. split; [reflexivity|]. exact Al.
Qed.
End Painted.
