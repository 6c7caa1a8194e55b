(** A map with a box whose sides are well shaped, to try C106 on. *)
From Coq Require Import Reals Lra Lia ZArith Permutation.
From Flocq Require Import Core.
From Verif Require Import Prelude F32 Text MapModel GeoModel LayerModel GameDataModel SceneModel RunModel Witness SceneWitness
  MapSpec Utf8Spec RunSpec InvarianceSpec NumberSpec RealSpec WindSpec ErrorSpec PointsSpec CornerSpec MeanSpec WoundSpec MeshSpec TriangleSpec
  BaseProofs PlaneProofs MapProofs RunProofs PrintProofs FloatProofs ArithProofs ExactProofs BoxSpec ErrorProofs ErrorFinal
  GeoWitness RunWitness PointsWitness ErrorWitness CornerWitness WindWitness WoundWitness.
Local Open Scope R_scope.

(** ** Angles that can be computed with *)
Definition eighth : f32 := f32_div (fz 25) (fz 32).
Definition three_eighths : f32 := f32_div (fz 75) (fz 32).

(** Coarse in the directions of the diagonals, the best elsewhere. *)
Definition diagonal_atan2 (y x : f32) : f32 :=
  match f32_cmp y x, f32_cmp y (f32_neg x), f32_cmp y f32_zero with
  | Some Eq, Some Gt, Some Gt => eighth
  | Some Eq, Some Lt, Some Lt => f32_neg three_eighths
  | Some Gt, Some Eq, Some Gt => three_eighths
  | Some Lt, Some Eq, Some Lt => f32_neg eighth
  | _, _, _ => best_atan2 y x
  end.
Definition squared : platform := {|
  p_simd := true; p_modern_parse := true; p_neg_zero := true; p_keep_bare_cr := true; p_overflow_checks := true;
  p_cos := p_cos demo; p_atan2 := diagonal_atan2; p_to_radians := p_to_radians demo; p_quat_rotate := p_quat_rotate demo;
  p_mat2_rotate := p_mat2_rotate demo; p_lower := p_lower demo |}.

Lemma pi_bounds : 3 < PI < 33 / 10.
Proof.
  pose proof PI2_3_2 as L. pose proof PI_4 as U. split; [lra|]. apply Rnot_le_lt. intros H.
  assert (S : sin (55 / 100) <= sin (PI / 6)) by (apply sin_incr_1; lra). rewrite sin_PI6 in S.
  destruct (SIN (55 / 100)) as [B _]; [lra|lra|]. unfold sin_lb, sin_approx, sin_term in B. cbn in B. lra.
Qed.

Lemma diagonal_accurate : accurate_angle (/ 3) diagonal_atan2.
Proof.
  assert (F0 : finite f32_zero /\ val f32_zero = 0) by (split; [split; reflexivity|reflexivity]). destruct F0 as [F0 V0].
  assert (H1 : finite eighth) by (split; vm_compute; reflexivity). assert (H2 : finite three_eighths) by (split; vm_compute; reflexivity).
  assert (H3 : finite (f32_neg eighth)) by (split; vm_compute; reflexivity). assert (H4 : finite (f32_neg three_eighths)) by (split; vm_compute; reflexivity).
  assert (V1 : val eighth = 25 / 32) by (replace eighth with (SpecFloat.S754_finite false 13107200 (-24)) by (vm_compute; reflexivity); rewrite val_small; cbn [cond_Zopp]; change (2 ^ 24)%Z with 16777216%Z; lra).
  assert (V2 : val three_eighths = 75 / 32) by (replace three_eighths with (SpecFloat.S754_finite false 9830400 (-22)) by (vm_compute; reflexivity); rewrite val_small; cbn [cond_Zopp]; change (2 ^ 22)%Z with 4194304%Z; lra).
  assert (Vn : forall z, finite z -> val (f32_neg z) = - val z) by (intros z Fz; apply (neg_real z Fz)).
  pose proof pi_bounds as PI0. assert (S2 : 0 < sqrt 2) by (apply sqrt_lt_R0; lra).
  assert (Is : forall a, a = a * sqrt 2 * (1 / sqrt 2)) by (intros a; field; lra).
  assert (Js : forall a, a = - a * sqrt 2 * (-1 / sqrt 2)) by (intros a; field; lra).
  intros y x Fy Fx N. destruct (best_accurate y x Fy Fx N) as (BF & r & t & R0 & X & Y & T & D).
  assert (Gen : finite (best_atan2 y x) /\ exists r t, 0 < r /\ val x = r * cos t /\ val y = r * sin t /\ - PI <= t <= PI /\ Rabs (val (best_atan2 y x) - t) <= / 3).
  { split; [exact BF|]. exists r, t. repeat (split; [assumption|]). lra. }
  assert (Fx' : finite (f32_neg x)) by apply (neg_real x Fx).
  unfold diagonal_atan2. rewrite !cmp_real, V0, (Vn x Fx) by assumption.
  destruct (Rcompare_spec (val y) (val x)) as [E1|E1|E1]; destruct (Rcompare_spec (val y) (- val x)) as [E2|E2|E2]; destruct (Rcompare_spec (val y) 0) as [E3|E3|E3]; try exact Gen.
  - split; [exact H3|]. exists (val x * sqrt 2), (- (PI / 4)). rewrite cos_neg, sin_neg, cos_PI4, sin_PI4, (Vn _ H1), V1. split; [nra|]. split; [apply Is|].
    split; [rewrite E2; rewrite (Is (val x)) at 1; ring|]. split; [lra|]. apply Rabs_le. lra.
  - split; [exact H4|]. exists (- val x * sqrt 2), (- (3 * (PI / 4))). rewrite cos_neg, sin_neg, cos_3PI4, sin_3PI4, (Vn _ H2), V2. split; [nra|]. split; [apply Js|].
    split; [rewrite E1; rewrite (Js (val x)) at 1; field; lra|]. split; [lra|]. apply Rabs_le. lra.
  - split; [exact H1|]. exists (val x * sqrt 2), (PI / 4). rewrite cos_PI4, sin_PI4, V1. split; [nra|]. split; [apply Is|].
    split; [rewrite E1; apply Is|]. split; [lra|]. apply Rabs_le. lra.
  - split; [exact H2|]. exists (- val x * sqrt 2), (3 * (PI / 4)). rewrite cos_3PI4, sin_3PI4, V2. split; [nra|]. split; [apply Js|].
    split; [rewrite E2; field; lra|]. split; [lra|]. apply Rabs_le. lra.
Qed.

(** ** The top of the box *)
Definition b0 : vec3 Z := V3 (-16)%Z (-8)%Z 32%Z.
Definition b1 : vec3 Z := V3 16%Z (-8)%Z 32%Z.
Definition b2 : vec3 Z := V3 16%Z 24%Z 32%Z.
Definition b3 : vec3 Z := V3 (-16)%Z 24%Z 32%Z.
Definition east := tri (V3 16 (-8) 0)%Z (V3 16 (-8) 8)%Z (V3 16 0 0)%Z.
Definition west := tri (V3 (-16) (-8) 0)%Z (V3 (-16) 0 0)%Z (V3 (-16) (-8) 8)%Z.
Definition north := tri (V3 (-16) 24 0)%Z (V3 (-8) 24 0)%Z (V3 (-16) 24 8)%Z.
Definition south := tri (V3 (-16) (-8) 0)%Z (V3 (-16) (-8) 8)%Z (V3 (-8) (-8) 0)%Z.
Definition lid := tri (V3 (-16) (-8) 32)%Z (V3 (-16) 0 32)%Z (V3 (-8) (-8) 32)%Z.
Definition ground := tri (V3 (-16) (-8) 0)%Z (V3 (-8) (-8) 0)%Z (V3 (-16) 0 0)%Z.
Definition box6 : list (brush_plane f32) := [east; west; north; south; lid; ground].
Lemma box6_crate : crate standard_uv = box6.
Proof. reflexivity. Qed.

Ltac sides := unfold east, west, north, south, lid, ground in *.
Lemma lid_cases : forall p1 p2 x, In p1 box6 -> In p2 box6 -> crossing lid p1 p2 x ->
  (p1 = east /\ p2 = north /\ x = reals b2) \/ (p1 = north /\ p2 = west /\ x = reals b3) \/ (p1 = west /\ p2 = south /\ x = reals b0) \/ (p1 = south /\ p2 = east /\ x = reals b1).
Proof.
  intros p1 p2 x I1 I2 (A & B & C & D). cbn [In box6] in I1, I2. sides.
  destruct I1 as [<-|[<-|[<-|[<-|[<-|[<-|[]]]]]]]; destruct I2 as [<-|[<-|[<-|[<-|[<-|[<-|[]]]]]]]; turning D; try discriminate; clear D; equations.
  all: first [left; split; [reflexivity|]; split; [reflexivity|]; apply vec_eq; unfold reals; cbn [vx vy vz b0 b1 b2 b3]; lra
             | right; left; split; [reflexivity|]; split; [reflexivity|]; apply vec_eq; unfold reals; cbn [vx vy vz b0 b1 b2 b3]; lra
             | right; right; left; split; [reflexivity|]; split; [reflexivity|]; apply vec_eq; unfold reals; cbn [vx vy vz b0 b1 b2 b3]; lra
             | right; right; right; split; [reflexivity|]; split; [reflexivity|]; apply vec_eq; unfold reals; cbn [vx vy vz b0 b1 b2 b3]; lra].
Qed.

Ltac cases H := destruct H as [(-> & -> & ->)|[(-> & -> & ->)|[(-> & -> & ->)|(-> & -> & ->)]]].
Lemma lid_blur : forall p1 p2 x, In p1 box6 -> In p2 box6 -> crossing lid p1 p2 x ->
  1 <= openness (plane_of lid) (plane_of p1) (plane_of p2) /\ blur lid p1 p2 x <= / 1000 * (4 / 10) /\ in_solid box6 x.
Proof.
  intros p1 p2 x I1 I2 X. pose proof (lid_cases p1 p2 x I1 I2 X) as K.
  assert (OP : 1 <= openness (plane_of lid) (plane_of p1) (plane_of p2)).
  { cases K; sides; (apply (tri_open _ _ _ _ _ _ _ _ _ 64 64 64); try grid; try lia; try (vm_compute; split; reflexivity || discriminate); [lra|];
     match goal with |- _ <= IZR ?z => replace z with 262144%Z by (vm_compute; reflexivity) end; replace (64 * 64 * 64)%Z with 262144%Z by reflexivity; lra). }
  split; [exact OP|]. split.
  - assert (D : distances (plane_of lid) (plane_of p1) (plane_of p2) x <= 180).
    { assert (N : forall k, on_grid k -> (zinner k k <= 45 * 45)%Z -> norm (point_of (fvz k)) <= 45).
      { intros k G0 Hk. destruct (point_fvz k G0) as [_ ->]. apply (norm_reals k 45); lia. }
      unfold distances. cases K; sides; cbn [plane_of bp_v0 tri wall_at];
      repeat match goal with |- context [norm (point_of (fvz ?k))] => let h := fresh in assert (h := N k ltac:(grid) ltac:(znum)); revert h; generalize (norm (point_of (fvz k))); intros ? ? end;
      match goal with |- context [norm (reals ?k)] => pose proof (norm_reals k 45 ltac:(lia) ltac:(znum)) end; lra. }
    unfold blur. set (o := openness _ _ _) in *. set (d := distances _ _ _ _) in *.
    assert (D0 : d / o <= 180) by (apply Rmult_le_reg_r with o; [lra|]; unfold Rdiv; rewrite Rmult_assoc, Rinv_l, Rmult_1_r by lra; nra).
    replace (2 ^ 19) with 524288 by ring. lra.
  - intros q H. cbn [In box6] in H. cases K; sides; repeat (destruct H as [<-|H]; [apply tri_within; [grid|grid|grid|znum]|]); destruct H.
Qed.

Lemma lid_clear : clear box6 lid /\ simple box6 lid.
Proof.
  split.
  - intros p1 p2 x I1 I2 X. left. destruct (lid_blur p1 p2 x I1 I2 X) as (OP & BL & T). split; [exact T|]. split; [lra|]. intros q H. unfold slack.
    assert (Q : norm (bp_v0 (plane_of q)) <= 45).
    { assert (N : forall k, on_grid k -> (zinner k k <= 45 * 45)%Z -> norm (point_of (fvz k)) <= 45) by (intros k G K; destruct (point_fvz k G) as [_ ->]; apply (norm_reals k 45); lia).
      cbn [In box6] in H. sides. repeat (destruct H as [<-|H]; [cbn [plane_of bp_v0 tri wall_at]; apply N; [grid|znum]|]). destruct H. }
    replace (2 ^ 20) with 1048576 by ring. lra.
  - intros p1 p2 x p1' p2' x' I1 I2 I1' I2' X X' _ _.
    destruct (lid_blur p1 p2 x I1 I2 X) as (_ & BL & _). destruct (lid_blur p1' p2' x' I1' I2' X') as (_ & BL' & _).
    pose proof (lid_cases p1 p2 x I1 I2 X) as K. pose proof (lid_cases p1' p2' x' I1' I2' X') as K'.
    assert (E30 : / 10 ^ 30 <= / 1000) by (apply Rinv_le_contravar; [lra|]; replace (10 ^ 30) with 1000000000000000000000000000000 by ring; lra).
    assert (F : forall a b, (32 <= Z.abs (vx a - vx b) \/ 32 <= Z.abs (vy a - vy b))%Z -> 32 <= norm (minus (reals a) (reals b))).
    { intros a b H. rewrite minus_reals. destruct (coord_norm (reals (zminus a b))) as (N1 & N2 & _). set (m := norm _) in *. clearbody m. unfold reals, zminus in N1, N2. cbn [vx vy vz] in N1, N2. rewrite <- abs_IZR in N1, N2.
      destruct H as [H|H]; apply IZR_le in H; lra. }
    cases K; cases K'; try (left; split; reflexivity); right;
    match goal with |- _ < norm (minus (reals ?a) (reals ?b)) => assert (32 <= norm (minus (reals a) (reals b))) by (apply F; vm_compute; (left; discriminate) || (right; discriminate)) end; lra.
Qed.

Definition lid_corners : list (vec3 R) := map reals [b0; b1; b2; b3].
Lemma lid_true : forall x, In x lid_corners <-> true_corner box6 lid x.
Proof.
  intros x. split.
  - assert (H : forall p1 p2, In p1 box6 -> In p2 box6 -> crossing lid p1 p2 x -> true_corner box6 lid x) by (intros p1 p2 A B X; split; [eauto|apply (lid_blur p1 p2 x A B X)]).
    intros [<-|[<-|[<-|[<-|[]]]]]; [apply (H west south)|apply (H south east)|apply (H east north)|apply (H north west)]; try (cbn; tauto);
    (sides; split; [apply tri_on; [grid|grid|grid|reflexivity]|]; split; [apply tri_on; [grid|grid|grid|reflexivity]|]; split; [apply tri_on; [grid|grid|grid|reflexivity]|];
     eapply Rlt_le_trans with 1; [lra|]; apply (tri_open _ _ _ _ _ _ _ _ _ 64 64 64); try grid; try lia; try (vm_compute; split; reflexivity || discriminate); [lra|];
     match goal with |- _ <= IZR ?z => replace z with 262144%Z by (vm_compute; reflexivity) end; replace (64 * 64 * 64)%Z with 262144%Z by reflexivity; lra).
  - intros [(p1 & p2 & A & B & X) _]. pose proof (lid_cases p1 p2 x A B X) as K. cases K; cbn; auto.
Qed.

Lemma lid_shaped : well_shaped squared box6 lid.
Proof.
  split; [apply lid_clear|]. split; [apply lid_clear|]. exists (/ 3), 1, 22, (/ 1000 * (4 / 10)), lid_corners.
  split; [exact diagonal_accurate|]. split.
  { repeat constructor; cbn [In lid_corners map]; intros H; repeat destruct H as [H|H]; try contradiction; unfold reals in H; cbn [vx vy vz b0 b1 b2 b3] in H; injection H; intros; lra. }
  split; [exact lid_true|]. split.
  { assert (G : average lid_corners = V3 0 8 32) by (unfold average, lid_corners, reals; cbn; f_equal; field). unfold spread. rewrite G. cbn zeta. split.
    - intros x [<-|[<-|[<-|[<-|[]]]]]; (apply Rle_trans with (sqrt (22 * 22)); [rewrite sqrt_square; lra|]); unfold norm; apply sqrt_le_1_alt; unfold inner, minus, reals; cbn [vx vy vz b0 b1 b2 b3]; lra.
    - intros x y [<-|[<-|[<-|[<-|[]]]]] [<-|[<-|[<-|[<-|[]]]]] N; try (now elim N); left; unfold inner, minus, reals; cbn [vx vy vz b0 b1 b2 b3]; lra. }
  split; [intros p1 p2 x A B X _; apply (lid_blur p1 p2 x A B X)|]. split; [lra|]. split; [lra|]. split.
  { cbn [length lid_corners map INR]. replace (10 ^ 20) with 100000000000000000000 by ring. lra. }
  assert (N : forall a b, In a lid_corners -> In b lid_corners -> norm (minus a b) <= 46).
  { intros a b A B. apply norm_le; [lra|]. destruct A as [<-|[<-|[<-|[<-|[]]]]], B as [<-|[<-|[<-|[<-|[]]]]]; unfold inner, minus, reals; cbn [vx vy vz b0 b1 b2 b3]; lra. }
  intros x y z A B C X Y Z. pose proof (N y x B A). pose proof (N z x C A).
  assert (1024 <= norm (outer (minus y x) (minus z x))).
  { apply Rle_trans with (sqrt (1024 * 1024)); [rewrite sqrt_square; lra|]. unfold norm. apply sqrt_le_1_alt.
    destruct A as [<-|[<-|[<-|[<-|[]]]]], B as [<-|[<-|[<-|[<-|[]]]]]; try (now elim X); destruct C as [<-|[<-|[<-|[<-|[]]]]]; try (now elim Y); try (now elim Z); unfold inner, outer, minus, reals; cbn [vx vy vz b0 b1 b2 b3]; lra. }
  set (h := 4 * (/ 1000 * (4 / 10) + / 10 ^ 20)). assert (0 <= h <= / 100) by (unfold h; replace (10 ^ 20) with 100000000000000000000 by ring; lra). nra.
Qed.

(** ** The map *)
Local Notation P := squared.
Lemma castle_squared : printable P castle.
Proof. exact castle_printable. Qed.
Definition castle_doc : doc := source_doc P castle.

Lemma squared_grid : grid_document P castle_doc.
Proof. exact castle_grid. Qed.

Lemma printed_self : forall pl, In pl box6 -> reads_as P (plane_line P pl) pl.
Proof.
  intros pl H. assert (K : exact_plane P pl /\ word (bp_texture pl) /\ Forall scalar (bp_texture pl)).
  { rewrite <- box6_crate in H. destruct (crate_exact pl H) as (A & B & C & _). auto. }
  destruct K as (G & W & S). pose proof (plane_line_written P pl W S) as Wr.
  assert (R : parse_plane (f32_num P) (to_lowercase P) (plane_line P pl)
    = Ok (BrushPlane (bp_v0 pl) (bp_v1 pl) (bp_v2 pl) (to_lowercase P (bp_texture pl)) (bp_uv pl) (bp_rotation pl) (bp_scale pl) (bp_extra pl)))
    by (apply plane_round_trip_f32; [now apply exact_good|exact Wr]).
  assert (L : BrushPlane (bp_v0 pl) (bp_v1 pl) (bp_v2 pl) (to_lowercase P (bp_texture pl)) (bp_uv pl) (bp_rotation pl) (bp_scale pl) (bp_extra pl) = pl)
    by (cbn [In box6] in H; repeat (destruct H as [<-|H]; [reflexivity|]); destruct H).
  rewrite L in R. eexists. split; [apply written_iff; reflexivity|]. apply (parse_plane_ok (f32_num P)) in R. exact R.
Qed.

Lemma lid_written : exists e, side_of P castle_doc e box6 lid.
Proof.
  exists [DProp (lit "classname") (lit "worldspawn"); DBrush (map (plane_line P) box6)], (map (plane_line P) box6).
  split; [right; left; reflexivity|]. split; [left; reflexivity|]. split; [|cbn; auto 6].
  pose proof printed_self as S. induction box6 as [|q l IH]; [constructor|]. cbn [map]. constructor; [apply S; now left|apply IH; intros; apply S; now right].
Qed.

Theorem castle_triangles : exists text, file_text (cf_map castle_config) text /\ text_document P text castle_doc /\ grid_document P castle_doc
  /\ (exists e, side_of P castle_doc e box6 lid) /\ well_shaped P box6 lid
  /\ exists nodes n0 n points ix, run P given 4 castle_config = Ok nodes /\ In n0 nodes /\ InvarianceSpec.within n n0
     /\ In (points, ix, Some (Some (lit "brick"))) (drawings n) /\ length ix = 36%nat /\ kth_triangle points ix 8 (fv (-16) (-8) 32) (fv (-16) 24 32) (fv 16 24 32).
Proof.
  exists (map_text P castle). split; [exists (map_bytes (polar true) castle); split; [reflexivity|exact (printed_encodes (polar true) castle castle_printable)]|]. split; [apply printed_document, castle_squared|].
  split; [exact squared_grid|]. split; [exact lid_written|]. split; [exact lid_shaped|].
  assert (E : exists o a ov v l ch nodes, run P given 4 castle_config = Ok (NActor o a (NVisual ov (VisMesh (v :: l)) :: ch) :: nodes) /\ length (s_indices v) = 36%nat
    /\ s_texture v = Some (lit "brick") /\ nth_error (s_indices v) 24 = Some 16%nat /\ nth_error (s_indices v) 25 = Some 17%nat /\ nth_error (s_indices v) 26 = Some 18%nat
    /\ nth_error (s_vertices v) 16 = Some (fv (-16) (-8) 32) /\ nth_error (s_vertices v) 17 = Some (fv (-16) 24 32) /\ nth_error (s_vertices v) 18 = Some (fv 16 24 32))
    by (do 7 eexists; split; [vm_compute; reflexivity|repeat split; vm_compute; reflexivity]).
  destruct E as (o & a & ov & v & l & ch & nodes & E & L & T & I0 & I1 & I2 & V0 & V1 & V2). do 5 eexists. split; [exact E|]. split; [now left|].
  split; [apply WithinChild with (NVisual ov (VisMesh (v :: l))); [now left|apply Within]|]. split; [left; rewrite T; reflexivity|]. split; [exact L|].
  exists 16%nat, 17%nat, 18%nat. repeat split; assumption.
Qed.
