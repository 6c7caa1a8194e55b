(** A pyramid whose sides have a corner twice, a tetrahedron with gaps, and one where all corners are clear. *)
From Coq Require Import Reals Lra Lia ZArith.
From Flocq Require Import Core BinarySingleNaN.
From Verif Require Import Prelude F32 Text MapModel GeoModel Witness GatherSpec GeoSpec NumberSpec RealSpec ArithProofs FloatProofs ExactProofs BoxSpec GeoWitness ErrorSpec ErrorProofs ErrorFinal ErrorWitness CornerSpec CornerProofs.
Local Open Scope R_scope.

(** ** Planes through whole points as equations *)
Lemma tri_on_eq : forall a b c x, on_grid a -> on_grid b -> on_grid c -> on_plane (plane_of (tri a b c)) x ->
  IZR (vx (zfacing a b c)) * vx x + IZR (vy (zfacing a b c)) * vy x + IZR (vz (zfacing a b c)) * vz x = IZR (zinner (zfacing a b c) a).
Proof.
  intros a b c x A B C H. unfold on_plane in H. rewrite tri_facing in H by assumption. cbn [plane_of bp_v0 tri wall_at] in H. destruct (point_fvz a A) as [_ E]. rewrite E in H.
  unfold inner, minus, reals, zinner in *. cbn [vx vy vz] in H. rewrite !plus_IZR, !mult_IZR. lra.
Qed.
Lemma tri_within_le : forall a b c x, on_grid a -> on_grid b -> on_grid c -> within 0 (plane_of (tri a b c)) x ->
  IZR (vx (zfacing a b c)) * vx x + IZR (vy (zfacing a b c)) * vy x + IZR (vz (zfacing a b c)) * vz x <= IZR (zinner (zfacing a b c) a).
Proof.
  intros a b c x A B C H. unfold within in H. rewrite tri_facing in H by assumption. cbn [plane_of bp_v0 tri wall_at] in H. destruct (point_fvz a A) as [_ E]. rewrite E in H.
  unfold inner, minus, reals, zinner in *. cbn [vx vy vz] in H. rewrite !plus_IZR, !mult_IZR. lra.
Qed.
Lemma tri_turning : forall a b c a' b' c' a'' b'' c'', on_grid a -> on_grid b -> on_grid c -> on_grid a' -> on_grid b' -> on_grid c' -> on_grid a'' -> on_grid b'' -> on_grid c'' ->
  0 < openness (plane_of (tri a b c)) (plane_of (tri a' b' c')) (plane_of (tri a'' b'' c'')) ->
  (0 < zinner (zouter (zfacing a b c) (zfacing a' b' c')) (zfacing a'' b'' c''))%Z.
Proof.
  intros a b c a' b' c' a'' b'' c'' A B C A' B' C' A'' B'' C'' H. unfold openness in H. rewrite !tri_facing in H by assumption. rewrite outer_reals, inner_reals in H.
  apply lt_IZR. apply Rnot_le_lt. intros L.
  set (m := norm _ * norm _ * norm _) in H.
  assert (P : 0 <= m) by (apply Rmult_le_pos; [apply Rmult_le_pos|]; apply norm_pos). unfold Rdiv in H.
  destruct (Req_dec m 0) as [Z0|NZ]; [rewrite Z0, Rinv_0, Rmult_0_r in H; lra|].
  assert (I : 0 < / m) by (apply Rinv_0_lt_compat; lra).
  pose proof (Rmult_le_compat_r (/ m) _ 0 (Rlt_le _ _ I) L). lra.
Qed.

(** Replaces facts about planes through whole points by equations and inequalities with numerals. *)
Ltac as_number z := let n := eval vm_compute in z in change z with n in *.
Ltac equations :=
  repeat match goal with
  | H : on_plane (plane_of (tri ?a ?b ?c)) ?x |- _ =>
      apply tri_on_eq in H; [|grid|grid|grid]; let n := eval vm_compute in (zfacing a b c) in let m := eval vm_compute in (zinner (zfacing a b c) a) in
      change (zfacing a b c) with n in H; change (zinner n a) with m in H; cbn [vx vy vz] in H
  | H : within 0 (plane_of (tri ?a ?b ?c)) ?x |- _ =>
      apply tri_within_le in H; [|grid|grid|grid]; let n := eval vm_compute in (zfacing a b c) in let m := eval vm_compute in (zinner (zfacing a b c) a) in
      change (zfacing a b c) with n in H; change (zinner n a) with m in H; cbn [vx vy vz] in H
  end.
Ltac turning H := apply tri_turning in H; [|grid|grid|grid|grid|grid|grid|grid|grid|grid]; vm_compute in H.

Lemma vec_eq : forall (a b : vec3 R), vx a = vx b -> vy a = vy b -> vz a = vz b -> a = b.
Proof. intros [a1 a2 a3] [b1 b2 b3]. cbn [vx vy vz]. congruence. Qed.

(** ** A pyramid on a square *)
Definition r0 : vec3 Z := V3 (-2)%Z (-2)%Z 0%Z.
Definition r1 : vec3 Z := V3 2%Z (-2)%Z 0%Z.
Definition r2 : vec3 Z := V3 2%Z 2%Z 0%Z.
Definition r3 : vec3 Z := V3 (-2)%Z 2%Z 0%Z.
Definition top : vec3 Z := V3 0%Z 0%Z 3%Z.
Definition side : brush_plane f32 := tri r0 top r1.
Definition roof : list (brush_plane f32) := [tri r0 r1 r2; side; tri r1 top r2; tri r2 top r3; tri r3 top r0].
Definition side_face (simd : bool) : face f32 := face_of (build_face (f32_num (polar simd)) textures (world []) roof side).

Lemma roof_grid : forall q, In q roof -> grid_plane q /\ extent 4 (bp_v0 (plane_of q)) /\ extent 4 (bp_v1 (plane_of q)) /\ extent 4 (bp_v2 (plane_of q)).
Proof.
  intros q H. cbn [In roof] in H.
  assert (X : forall k, coords (fun c => Z.abs c <= 4)%Z k -> extent 4 (point_of (fvz k))).
  { intros k K. assert (G : on_grid k) by (destruct K as (? & ? & ?); unfold on_grid, coords; lia). destruct (point_fvz k G) as [_ ->].
    destruct K as (? & ? & ?). unfold extent, reals. cbn [vx vy vz]. rewrite <- !abs_IZR. repeat split; apply IZR_le; assumption. }
  repeat (destruct H as [<-|H]; [split; [apply (tri_grid _ _ _ 8 8); [grid|grid|grid|znum|znum|znum|lia]|cbn [plane_of bp_v0 bp_v1 bp_v2 side tri wall_at]; repeat split; apply X; znum]|]). destruct H.
Qed.

Lemma roof_in : forall x, In x (map reals [r0; r1; top]) -> in_solid roof x.
Proof.
  intros x Hx q H. cbn [In roof] in H. cbn [map In] in Hx. destruct Hx as [<-|[<-|[<-|[]]]];
  repeat (destruct H as [<-|H]; [apply tri_within; [grid|grid|grid|znum]|]); destruct H.
Qed.

Lemma roof_corners : forall x, true_corner roof side x <-> In x (map reals [r0; r1; top]).
Proof.
  intros x. split.
  - intros ((p1 & p2 & I1 & I2 & A & B & C & D) & T).
    assert (T0 := T (tri r0 r1 r2) ltac:(cbn; tauto)). assert (T1 := T side ltac:(cbn; tauto)). assert (T2 := T (tri r1 top r2) ltac:(cbn; tauto)).
    assert (T3 := T (tri r2 top r3) ltac:(cbn; tauto)). assert (T4 := T (tri r3 top r0) ltac:(cbn; tauto)). clear T. unfold side in *.
    cbn [In roof side] in I1, I2.
    destruct I1 as [<-|[<-|[<-|[<-|[<-|[]]]]]]; destruct I2 as [<-|[<-|[<-|[<-|[<-|[]]]]]]; turning D; try discriminate; clear D; equations;
    cbn [map In];
    first [left; apply vec_eq; unfold reals; cbn [vx vy vz r0 r1 top]; lra | right; left; apply vec_eq; unfold reals; cbn [vx vy vz r0 r1 top]; lra
          | right; right; left; apply vec_eq; unfold reals; cbn [vx vy vz r0 r1 top]; lra | exfalso; lra].
  - intros Hx. split; [|apply roof_in; exact Hx]. cbn [map In] in Hx.
    assert (OP : forall a b c a' b' c' a'' b'' c'' i j k, on_grid a -> on_grid b -> on_grid c -> on_grid a' -> on_grid b' -> on_grid c' -> on_grid a'' -> on_grid b'' -> on_grid c'' ->
      (0 < zinner (zfacing a b c) (zfacing a b c) <= i * i)%Z -> (0 < zinner (zfacing a' b' c') (zfacing a' b' c') <= j * j)%Z -> (0 < zinner (zfacing a'' b'' c'') (zfacing a'' b'' c'') <= k * k)%Z ->
      (0 <= i)%Z -> (0 <= j)%Z -> (0 <= k)%Z -> (i * j * k <= 100000 * zinner (zouter (zfacing a b c) (zfacing a' b' c')) (zfacing a'' b'' c''))%Z ->
      0 < openness (plane_of (tri a b c)) (plane_of (tri a' b' c')) (plane_of (tri a'' b'' c''))).
    { intros. apply Rlt_le_trans with (/ 100000); [lra|]. apply (tri_open _ _ _ _ _ _ _ _ _ i j k); try assumption; [lra|].
      match goal with H : (_ <= 100000 * _)%Z |- _ => apply IZR_le in H; rewrite (mult_IZR 100000) in H end. lra. }
    destruct Hx as [<-|[<-|[<-|[]]]];
    [exists (tri r3 top r0), (tri r0 r1 r2) | exists (tri r0 r1 r2), (tri r1 top r2) | exists (tri r1 top r2), (tri r2 top r3)];
    (split; [cbn; tauto|]; split; [cbn; tauto|]; split; [apply tri_on; [grid|grid|grid|reflexivity]|]; split; [apply tri_on; [grid|grid|grid|reflexivity]|]; split; [apply tri_on; [grid|grid|grid|reflexivity]|]).
    all: apply (OP _ _ _ _ _ _ _ _ _ 16%Z 16%Z 16%Z); try grid; try lia; try (vm_compute; split; reflexivity || discriminate).
Qed.

Lemma side_built : forall simd, build_face (f32_num (polar simd)) textures (world []) roof side = Ok (side_face simd).
Proof. intros []; vm_compute; reflexivity. Qed.

(** The value of a literal below one unit. *)
Lemma val_small : forall s m e, val (SpecFloat.S754_finite s m (Zneg e)) = IZR (cond_Zopp s (Zpos m)) / IZR (2 ^ Zpos e).
Proof. intros s m e. reflexivity. Qed.

Lemma near_coords : forall a b d, 0 <= d -> Rabs (vx a - vx b) <= d -> Rabs (vy a - vy b) <= d -> Rabs (vz a - vz b) <= d -> norm (minus a b) <= 2 * d.
Proof.
  intros a b d D X Y Z. pose proof (norm_cube (minus a b) d) as H. unfold minus in H at 1 2 3. cbn [vx vy vz] in H. specialize (H X Y Z). lra.
Qed.

Lemma val_nought : forall s, val (SpecFloat.S754_zero s) = 0.
Proof. reflexivity. Qed.

Theorem twice : forall simd, exists p tx e planes plane f xs v w x, p_simd p = simd
  /\ build_face (f32_num p) tx e planes plane = Ok f /\ In plane planes
  /\ (forall q, In q planes -> grid_plane q /\ extent 4 (bp_v0 (plane_of q)) /\ extent 4 (bp_v1 (plane_of q)) /\ extent 4 (bp_v2 (plane_of q)))
  /\ (forall x, true_corner planes plane x <-> In x xs) /\ length xs = 3%nat /\ length (f_vertices f) = 4%nat
  /\ f_indices f = [0; 1; 2; 0; 2; 3]%nat
  /\ In v (f_vertices f) /\ In w (f_vertices f) /\ In x xs /\ vt_pos v <> vt_pos w
  /\ norm (minus (point_of (vt_pos v)) x) <= / 100000 /\ norm (minus (point_of (vt_pos w)) x) <= / 100000.
Proof.
  intros simd. set (f := side_face simd). exists (polar simd), textures, (world []), roof, side, f, (map reals [r0; r1; top]).
  assert (L : exists a b v w, f_vertices f = [a; b; v; w] /\ f_indices f = [0; 1; 2; 0; 2; 3]%nat
    /\ vt_pos v = V3 (SpecFloat.S754_zero false) (SpecFloat.S754_zero false) (SpecFloat.S754_finite false 12582913 (-22))
    /\ vt_pos w = V3 (SpecFloat.S754_zero false) (SpecFloat.S754_zero false) (SpecFloat.S754_finite false 12582914 (-22))).
  { unfold f. destruct simd; vm_compute; do 4 eexists; repeat split. }
  destruct L as (a & b & v & w & V & I & Pv & Pw). exists v, w, (reals top). rewrite V, Pv, Pw.
  split; [reflexivity|]. split; [apply side_built|]. split; [cbn; tauto|]. split; [apply roof_grid|]. split; [apply roof_corners|].
  split; [reflexivity|]. split; [reflexivity|]. split; [exact I|]. split; [cbn; tauto|]. split; [cbn; tauto|]. split; [cbn; tauto|]. split; [discriminate|].
  unfold point_of, reals. cbn [vx vy vz top]. rewrite !val_small, !val_nought. cbn [cond_Zopp].
  replace (2 ^ 22)%Z with 4194304%Z by reflexivity.
  split; (eapply Rle_trans; [apply (near_coords _ _ (/ 1000000)); [lra|..]; cbn [vx vy vz]; apply Rabs_le; lra|lra]).
Qed.

(** ** A tetrahedron with gaps *)
Definition u0 : vec3 Z := V3 16%Z 16%Z 16%Z.
Definition u1 : vec3 Z := V3 32%Z 16%Z 16%Z.
Definition u2 : vec3 Z := V3 16%Z 48%Z 16%Z.
Definition u3 : vec3 Z := V3 16%Z 16%Z 64%Z.
Definition front : brush_plane f32 := tri u1 u3 u2.
Definition back_side : brush_plane f32 := tri u0 u2 u3.
Definition wedge : list (brush_plane f32) := [front; back_side; tri u0 u3 u1; tri u0 u1 u2].
Definition wedge_face (simd : bool) (q : brush_plane f32) : face f32 := face_of (build_face (f32_num (polar simd)) textures (world []) wedge q).

Lemma wedge_built : forall simd q, In q wedge -> build_face (f32_num (polar simd)) textures (world []) wedge q = Ok (wedge_face simd q).
Proof. intros simd q H. cbn [In wedge] in H. destruct simd; repeat (destruct H as [<-|H]; [vm_compute; reflexivity|]); destruct H. Qed.

Lemma wedge_grid : forall q, In q wedge -> grid_plane q /\ extent 64 (bp_v0 (plane_of q)) /\ extent 64 (bp_v1 (plane_of q)) /\ extent 64 (bp_v2 (plane_of q)).
Proof.
  intros q H. cbn [In wedge] in H.
  assert (X : forall k, coords (fun c => Z.abs c <= 64)%Z k -> extent 64 (point_of (fvz k))).
  { intros k K. assert (G : on_grid k) by (destruct K as (? & ? & ?); unfold on_grid, coords; lia). destruct (point_fvz k G) as [_ ->].
    destruct K as (? & ? & ?). unfold extent, reals. cbn [vx vy vz]. rewrite <- !abs_IZR. repeat split; apply IZR_le; assumption. }
  repeat (destruct H as [<-|H]; [split; [apply (tri_grid _ _ _ 64 64); [grid|grid|grid|znum|znum|znum|lia]|cbn [plane_of bp_v0 bp_v1 bp_v2 front back_side tri wall_at]; repeat split; apply X; znum]|]). destruct H.
Qed.

Lemma wedge_crossing : crossing front (tri u0 u1 u2) back_side (reals u2) /\ in_solid wedge (reals u2)
  /\ 42 / 100 <= openness (plane_of front) (plane_of (tri u0 u1 u2)) (plane_of back_side).
Proof.
  assert (OP : 42 / 100 <= openness (plane_of front) (plane_of (tri u0 u1 u2)) (plane_of back_side)).
  { apply (tri_open _ _ _ _ _ _ _ _ _ 1793 512 1536); try grid; try lia; try (vm_compute; split; reflexivity || discriminate); [lra|].
    match goal with |- _ <= IZR ?z => let n := eval vm_compute in z in replace z with n by (vm_compute; reflexivity) end.
    replace (1793 * 512 * 1536)%Z with 1410072576%Z by reflexivity. lra. }
  split; [|split; [|exact OP]].
  - split; [apply tri_on; [grid|grid|grid|reflexivity]|]. split; [apply tri_on; [grid|grid|grid|reflexivity]|]. split; [apply tri_on; [grid|grid|grid|reflexivity]|lra].
  - intros q H. cbn [In wedge] in H. repeat (destruct H as [<-|H]; [apply tri_within; [grid|grid|grid|znum]|]). destruct H.
Qed.

Theorem gaps : forall simd, exists p tx e planes plane other f f' v x, p_simd p = simd
  /\ build_face (f32_num p) tx e planes plane = Ok f /\ build_face (f32_num p) tx e planes other = Ok f' /\ In plane planes /\ In other planes
  /\ (forall q, In q planes -> grid_plane q /\ extent 64 (bp_v0 (plane_of q)) /\ extent 64 (bp_v1 (plane_of q)) /\ extent 64 (bp_v2 (plane_of q)))
  /\ true_corner planes plane x /\ true_corner planes other x
  /\ In v (f_vertices f) /\ norm (minus (point_of (vt_pos v)) x) <= / 10000
  /\ forall w, In w (f_vertices f') -> point_of (vt_pos w) <> point_of (vt_pos v).
Proof.
  intros simd. exists (polar simd), textures, (world []), wedge, front, back_side, (wedge_face simd front), (wedge_face simd back_side).
  assert (L : exists v, In v (f_vertices (wedge_face simd front))
    /\ vt_pos v = V3 (SpecFloat.S754_finite false 8388608 (-19)) (SpecFloat.S754_finite false (if simd then 12582911 else 12582912) (-18)) (SpecFloat.S754_finite false 8388608 (-19))).
  { destruct simd; vm_compute; eexists; (split; [left; reflexivity|reflexivity]). }
  assert (M : forall w, In w (f_vertices (wedge_face simd back_side)) -> vy (vt_pos w) = SpecFloat.S754_finite false 8388608 (-19)
    \/ vy (vt_pos w) = SpecFloat.S754_finite false (if simd then 12582912 else 12582913) (-18)).
  { intros w H. destruct simd; vm_compute in H; (destruct H as [<-|[<-|[<-|[]]]]; vm_compute; auto). }
  destruct L as (v & Hv & Ev). exists v, (reals u2). destruct wedge_crossing as (X & T & _).
  split; [reflexivity|]. split; [apply wedge_built; cbn; tauto|]. split; [apply wedge_built; cbn; tauto|]. split; [cbn; tauto|]. split; [cbn; tauto|].
  split; [apply wedge_grid|]. split; [split; [exists (tri u0 u1 u2), back_side; split; [cbn; tauto|]; split; [cbn; tauto|exact X]|exact T]|].
  split; [split; [exists front, (tri u0 u1 u2); split; [cbn; tauto|]; split; [cbn; tauto|apply turned, turned; exact X]|exact T]|].
  split; [exact Hv|]. assert (P18 : (2 ^ 18 = 262144)%Z) by reflexivity. assert (P19 : (2 ^ 19 = 524288)%Z) by reflexivity. rewrite Ev. split.
  - unfold point_of, reals. cbn [vx vy vz u2]. rewrite !val_small, P18, P19. cbn [cond_Zopp].
    eapply Rle_trans; [apply (near_coords _ _ (/ 100000)); [lra|..]; cbn [vx vy vz]; apply Rabs_le; destruct simd; lra|lra].
  - intros w Hw E. apply (f_equal vy) in E. cbn [point_of vy] in E. destruct (M w Hw) as [My|My]; rewrite My, !val_small, ?P18, ?P19 in E; cbn [cond_Zopp] in E; destruct simd; lra.
Qed.

(** ** A tetrahedron without close calls *)
Lemma slope_cases : forall p1 p2 x, In p1 pyramid -> In p2 pyramid -> crossing slope p1 p2 x ->
  (p1 = tri s0 s2 s3 /\ p2 = tri s0 s3 s1 /\ x = reals s3) \/ (p1 = tri s0 s3 s1 /\ p2 = tri s0 s1 s2 /\ x = reals s1) \/ (p1 = tri s0 s1 s2 /\ p2 = tri s0 s2 s3 /\ x = reals s2).
Proof.
  intros p1 p2 x I1 I2 (A & B & C & D). unfold slope in *. cbn [In pyramid slope] in I1, I2.
  destruct I1 as [<-|[<-|[<-|[<-|[]]]]]; destruct I2 as [<-|[<-|[<-|[<-|[]]]]]; turning D; try discriminate; clear D; equations.
  all: first [left; split; [reflexivity|]; split; [reflexivity|]; apply vec_eq; unfold reals; cbn [vx vy vz s1 s2 s3]; lra
             | right; left; split; [reflexivity|]; split; [reflexivity|]; apply vec_eq; unfold reals; cbn [vx vy vz s1 s2 s3]; lra
             | right; right; split; [reflexivity|]; split; [reflexivity|]; apply vec_eq; unfold reals; cbn [vx vy vz s1 s2 s3]; lra].
Qed.

Lemma slope_blur : forall p1 p2 x, In p1 pyramid -> In p2 pyramid -> crossing slope p1 p2 x ->
  57 / 100 <= openness (plane_of slope) (plane_of p1) (plane_of p2) /\ blur slope p1 p2 x <= / 10000 /\ in_solid pyramid x /\ (x = reals s1 \/ x = reals s2 \/ x = reals s3).
Proof.
  intros p1 p2 x I1 I2 X.
  assert (OP : 57 / 100 <= openness (plane_of slope) (plane_of p1) (plane_of p2)).
  { destruct (slope_cases p1 p2 x I1 I2 X) as [(-> & -> & ->)|[(-> & -> & ->)|(-> & -> & ->)]];
    (apply (tri_open _ _ _ _ _ _ _ _ _ 28 16 16); try grid; try lia; try (vm_compute; split; reflexivity || discriminate); [lra|];
     match goal with |- _ <= IZR ?z => replace z with 4096%Z by (vm_compute; reflexivity) end; replace (28 * 16 * 16)%Z with 7168%Z by reflexivity; lra). }
  split; [exact OP|]. split; [|split].
  - assert (N : forall k, on_grid k -> (zinner k k <= 16)%Z -> norm (point_of (fvz k)) <= 4).
    { intros k G K. destruct (point_fvz k G) as [_ ->]. apply (norm_reals k 4); lia. }
    assert (D : distances (plane_of slope) (plane_of p1) (plane_of p2) x <= 16).
    { unfold distances. destruct (slope_cases p1 p2 x I1 I2 X) as [(-> & -> & ->)|[(-> & -> & ->)|(-> & -> & ->)]]; cbn [plane_of bp_v0 slope tri wall_at];
      pose proof (N s1 ltac:(grid) ltac:(znum)); pose proof (N s0 ltac:(grid) ltac:(znum)); pose proof (norm_reals s1 4 ltac:(lia) ltac:(znum));
      pose proof (norm_reals s2 4 ltac:(lia) ltac:(znum)); pose proof (norm_reals s3 4 ltac:(lia) ltac:(znum)); lra. }
    unfold blur. set (o := openness _ _ _) in *. set (d := distances _ _ _ _) in *.
    assert (D0 : d / o <= 32) by (apply Rmult_le_reg_r with o; [lra|]; unfold Rdiv; rewrite Rmult_assoc, Rinv_l, Rmult_1_r by lra; lra).
    replace (2 ^ 19) with 524288 by ring. lra.
  - intros q H. cbn [In pyramid] in H. destruct (slope_cases p1 p2 x I1 I2 X) as [(-> & -> & ->)|[(-> & -> & ->)|(-> & -> & ->)]];
    repeat (destruct H as [<-|H]; [apply tri_within; [grid|grid|grid|znum]|]); destruct H.
  - destruct (slope_cases p1 p2 x I1 I2 X) as [(_ & _ & ->)|[(_ & _ & ->)|(_ & _ & ->)]]; auto.
Qed.

Theorem slope_clear : clear pyramid slope /\ simple pyramid slope.
Proof.
  split.
  - intros p1 p2 x I1 I2 X. left. destruct (slope_blur p1 p2 x I1 I2 X) as (OP & BL & T & _). split; [exact T|]. split; [lra|]. intros q H. unfold slack.
    assert (Q : norm (bp_v0 (plane_of q)) <= 4).
    { assert (N : forall k, on_grid k -> (zinner k k <= 16)%Z -> norm (point_of (fvz k)) <= 4) by (intros k G K; destruct (point_fvz k G) as [_ ->]; apply (norm_reals k 4); lia).
      cbn [In pyramid] in H. repeat (destruct H as [<-|H]; [cbn [plane_of bp_v0 slope tri wall_at]; apply N; [grid|znum]|]). destruct H. }
    replace (2 ^ 20) with 1048576 by ring. lra.
  - intros p1 p2 x p1' p2' x' I1 I2 I1' I2' X X' _ _.
    destruct (slope_blur p1 p2 x I1 I2 X) as (_ & BL & _). destruct (slope_blur p1' p2' x' I1' I2' X') as (_ & BL' & _).
    assert (E30 : / 10 ^ 30 <= / 1000) by (apply Rinv_le_contravar; [lra|]; replace (10 ^ 30) with 1000000000000000000000000000000 by ring; lra).
    assert (F : forall a b, (4 <= Z.abs (vx a - vx b) \/ 4 <= Z.abs (vy a - vy b))%Z -> 4 <= norm (minus (reals a) (reals b))).
    { intros a b H. rewrite minus_reals. destruct (coord_norm (reals (zminus a b))) as (N1 & N2 & _). set (m := norm _) in *. clearbody m. unfold reals, zminus in N1, N2. cbn [vx vy vz] in N1, N2. rewrite <- abs_IZR in N1, N2.
      destruct H as [H|H]; apply IZR_le in H; lra. }
    destruct (slope_cases p1 p2 x I1 I2 X) as [(-> & -> & ->)|[(-> & -> & ->)|(-> & -> & ->)]];
    destruct (slope_cases p1' p2' x' I1' I2' X') as [(-> & -> & ->)|[(-> & -> & ->)|(-> & -> & ->)]];
    try (left; split; reflexivity); right;
    match goal with |- _ < norm (minus (reals ?a) (reals ?b)) => assert (4 <= norm (minus (reals a) (reals b))) by (apply F; vm_compute; (left; discriminate) || (right; discriminate)) end; lra.
Qed.
