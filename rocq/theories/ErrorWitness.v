(** Brushes to try the accuracy theorems on, and one that loses a corner. *)
From Coq Require Import Reals Lra Lia ZArith.
From Flocq Require Import Core.
From Verif Require Import Prelude F32 Text MapModel GeoModel Witness GatherSpec GeoSpec NumberSpec RealSpec ArithProofs FloatProofs ExactProofs BoxSpec GeoWitness ErrorSpec ErrorProofs ErrorFinal.
Local Open Scope R_scope.

(** Planes through whole points. *)
Definition fvz (k : vec3 Z) : vec3 f32 := fv (vx k) (vy k) (vz k).
Definition tri (a b c : vec3 Z) : brush_plane f32 := wall_at (fvz a) (fvz b) (fvz c) standard_uv.
Definition zfacing (a b c : vec3 Z) : vec3 Z := zouter (zminus c a) (zminus b a).
Definition on_grid (k : vec3 Z) : Prop := coords (fun c => Z.abs c <= 2 ^ 20)%Z k.

Lemma point_fvz : forall k, on_grid k -> fins (fvz k) /\ point_of (fvz k) = reals k.
Proof.
  intros k (A & B & C). destruct (fv_ints (vx k) (vy k) (vz k)) as ((F1 & V1) & (F2 & V2) & (F3 & V3)); try lia. split; [split; [|split]; assumption|].
  unfold point_of, reals. unfold fvz. cbn [vx vy vz] in *. rewrite V1, V2, V3. reflexivity.
Qed.

Lemma fvz_grid : forall k, on_grid k -> grid_point (fvz k).
Proof.
  intros k H. destruct (point_fvz k H) as [F E]. split; [apply finite_fins; exact F|]. exists (vx k), (vy k), (vz k). split; [exact E|]. exact H.
Qed.

Lemma tri_facing : forall a b c, on_grid a -> on_grid b -> on_grid c -> facing (plane_of (tri a b c)) = reals (zfacing a b c).
Proof.
  intros a b c A B C. unfold facing, plane_of. cbn [bp_v0 bp_v1 bp_v2 tri wall_at].
  destruct (point_fvz a A) as [_ ->]. destruct (point_fvz b B) as [_ ->]. destruct (point_fvz c C) as [_ ->].
  unfold zfacing, outer, minus, reals, zouter, zminus. cbn [vx vy vz]. rewrite !minus_IZR, !mult_IZR, !minus_IZR. reflexivity.
Qed.

Lemma inner_reals : forall a b, inner (reals a) (reals b) = IZR (zinner a b).
Proof. intros a b. unfold inner, reals, zinner. cbn [vx vy vz]. rewrite !plus_IZR, !mult_IZR. reflexivity. Qed.
Lemma minus_reals : forall a b, minus (reals a) (reals b) = reals (zminus a b).
Proof. intros a b. unfold minus, reals, zminus. cbn [vx vy vz]. rewrite !minus_IZR. reflexivity. Qed.
Lemma outer_reals : forall a b, outer (reals a) (reals b) = reals (zouter a b).
Proof. intros a b. unfold outer, reals, zouter. cbn [vx vy vz]. rewrite !minus_IZR, !mult_IZR. reflexivity. Qed.

Lemma tri_grid : forall a b c m n, on_grid a -> on_grid b -> on_grid c -> (0 < zinner (zfacing a b c) (zfacing a b c))%Z ->
  coords (fun k => Z.abs k <= m)%Z (zminus c a) -> coords (fun k => Z.abs k <= n)%Z (zminus b a) -> (m * n < 2 ^ 23)%Z -> grid_plane (tri a b c).
Proof.
  intros a b c m n A B C N M1 M2 MN. split; [now apply fvz_grid|]. split; [now apply fvz_grid|]. split; [now apply fvz_grid|]. split.
  - unfold proper. rewrite tri_facing by assumption. unfold norm. rewrite inner_reals. apply Rgt_not_eq, sqrt_lt_R0. apply (IZR_lt 0). exact N.
  - exists m, n. cbn [bp_v0 bp_v1 bp_v2 tri wall_at]. destruct (point_fvz a A) as [_ ->]. destruct (point_fvz b B) as [_ ->]. destruct (point_fvz c C) as [_ ->].
    rewrite !minus_reals. unfold extent, reals. cbn [vx vy vz]. rewrite <- !abs_IZR. destruct M1 as (? & ? & ?), M2 as (? & ? & ?).
    split; [|split; [|exact MN]]; repeat split; apply IZR_le; assumption.
Qed.

Lemma tri_on : forall a b c x, on_grid a -> on_grid b -> on_grid c -> zinner (zfacing a b c) (zminus x a) = 0%Z -> on_plane (plane_of (tri a b c)) (reals x).
Proof.
  intros a b c x A B C H. unfold on_plane. rewrite tri_facing by assumption. cbn [plane_of bp_v0 tri wall_at]. destruct (point_fvz a A) as [_ ->].
  rewrite minus_reals, inner_reals, H. reflexivity.
Qed.

Lemma tri_within : forall a b c x, on_grid a -> on_grid b -> on_grid c -> (zinner (zfacing a b c) (zminus x a) <= 0)%Z -> within 0 (plane_of (tri a b c)) (reals x).
Proof.
  intros a b c x A B C H. unfold within. rewrite tri_facing by assumption. cbn [plane_of bp_v0 tri wall_at]. destruct (point_fvz a A) as [_ ->].
  rewrite minus_reals, inner_reals, Rmult_0_l. apply (IZR_le _ 0). exact H.
Qed.

Lemma norm_reals : forall k s, (0 <= s)%Z -> (zinner k k <= s * s)%Z -> norm (reals k) <= IZR s.
Proof. intros k s S H. apply norm_le; [apply (IZR_le 0); exact S|]. rewrite inner_reals, <- mult_IZR. apply IZR_le. exact H. Qed.

(** A lower bound of the openness from upper bounds of the lengths. *)
Lemma tri_open : forall a b c a' b' c' a'' b'' c'' i j k r, on_grid a -> on_grid b -> on_grid c -> on_grid a' -> on_grid b' -> on_grid c' -> on_grid a'' -> on_grid b'' -> on_grid c'' ->
  (0 < zinner (zfacing a b c) (zfacing a b c) <= i * i)%Z -> (0 < zinner (zfacing a' b' c') (zfacing a' b' c') <= j * j)%Z -> (0 < zinner (zfacing a'' b'' c'') (zfacing a'' b'' c'') <= k * k)%Z ->
  (0 <= i)%Z -> (0 <= j)%Z -> (0 <= k)%Z -> 0 <= r ->
  r * IZR (i * j * k) <= IZR (zinner (zouter (zfacing a b c) (zfacing a' b' c')) (zfacing a'' b'' c'')) ->
  r <= openness (plane_of (tri a b c)) (plane_of (tri a' b' c')) (plane_of (tri a'' b'' c'')).
Proof.
  intros a b c a' b' c' a'' b'' c'' i j k r A B C A' B' C' A'' B'' C'' I J K Pi Pj Pk R0 H. unfold openness. rewrite !tri_facing by assumption. rewrite outer_reals, inner_reals.
  assert (Hn : forall z, (0 < zinner z z)%Z -> 0 < norm (reals z)) by (intros z Z0; unfold norm; apply sqrt_lt_R0; rewrite inner_reals; apply (IZR_lt 0); exact Z0).
  pose proof (Hn _ (proj1 I)) as P1. pose proof (Hn _ (proj1 J)) as P2. pose proof (Hn _ (proj1 K)) as P3.
  pose proof (norm_reals _ _ Pi (proj2 I)) as Q1. pose proof (norm_reals _ _ Pj (proj2 J)) as Q2. pose proof (norm_reals _ _ Pk (proj2 K)) as Q3.
  set (n1 := norm (reals (zfacing a b c))) in *. set (n2 := norm (reals (zfacing a' b' c'))) in *. set (n3 := norm (reals (zfacing a'' b'' c''))) in *.
  assert (P : 0 < n1 * n2 * n3) by (apply Rmult_lt_0_compat; [apply Rmult_lt_0_compat|]; assumption).
  set (m := n1 * n2 * n3) in *. apply Rmult_le_reg_r with m; [exact P|]. unfold Rdiv. rewrite Rmult_assoc, Rinv_l, Rmult_1_r by lra. unfold m.
  eapply Rle_trans; [|exact H]. apply Rmult_le_compat_l; [exact R0|]. rewrite !mult_IZR.
  apply Rmult_le_compat; try lra; [apply Rlt_le, Rmult_lt_0_compat; assumption|]. apply Rmult_le_compat; lra.
Qed.

Ltac grid := vm_compute; repeat split; discriminate.
Ltac znum := vm_compute; repeat split; (reflexivity || discriminate).

(** ** A tetrahedron that loses a corner *)
Definition t0 : vec3 Z := V3 (-1613)%Z (-3690)%Z 3703%Z.
Definition t1 : vec3 Z := V3 (-1601)%Z (-3645)%Z 3625%Z.
Definition t2 : vec3 Z := V3 (-1468)%Z (-3591)%Z 3718%Z.
Definition t3 : vec3 Z := V3 (-1620)%Z (-3509)%Z 3755%Z.
Definition shard_floor : brush_plane f32 := tri t0 t2 t1.
Definition shard : list (brush_plane f32) := [tri t1 t2 t3; tri t0 t3 t2; tri t0 t1 t3; shard_floor].
Definition shard_face (simd : bool) : face f32 := face_of (build_face (f32_num (polar simd)) textures (world []) shard shard_floor).


Lemma shard_grid : forall q, In q (shard_floor :: shard) -> grid_plane q.
Proof.
  intros q H. cbn [In shard] in H.
  repeat (destruct H as [<-|H]; [apply (tri_grid _ _ _ 200 200); [grid|grid|grid|znum|znum|znum|lia]|]). destruct H.
Qed.

Lemma shard_inside : forall q, In q shard -> within 0 (plane_of q) (reals t2).
Proof.
  intros q H. cbn [In shard] in H. repeat (destruct H as [<-|H]; [apply tri_within; [grid|grid|grid|znum]|]). destruct H.
Qed.

Lemma shard_far : forall simd v, In v (f_vertices (shard_face simd)) -> 100 <= norm (minus (point_of (vt_pos v)) (reals t2)).
Proof.
  intros simd v H.
  assert (C : f32_cmp (vx (vt_pos v)) (fz (-1568)) = Some Lt /\ f32_valid (vx (vt_pos v)) = true /\ f32_finite (vx (vt_pos v)) = true).
  { destruct simd; vm_compute in H; (destruct H as [<-|[<-|[]]]; vm_compute; repeat split). }
  destruct C as (C & F). destruct (fz_int (-1568) ltac:(lia)) as [F1 V1].
  rewrite cmp_real in C by (apply fin_finite; assumption). assert (L : Rcompare (val (vx (vt_pos v))) (val (fz (-1568))) = Lt) by congruence.
  apply Rcompare_Lt_inv in L. rewrite V1 in L.
  destruct (coord_norm (minus (point_of (vt_pos v)) (reals t2))) as (N & _). set (m := norm _) in *. clearbody m. unfold minus, reals, t2 in N. cbn [vx vy vz point_of] in N.
  rewrite Rabs_left in N by lra. lra.
Qed.

Lemma shard_built : forall simd, build_face (f32_num (polar simd)) textures (world []) shard shard_floor = Ok (shard_face simd).
Proof. intros []; vm_compute; reflexivity. Qed.

Theorem corners_lost : forall simd, exists p tx e planes plane p1 p2 x f, p_simd p = simd
  /\ build_face (f32_num p) tx e planes plane = Ok f /\ In plane planes /\ In p1 planes /\ In p2 planes
  /\ (forall q, In q planes -> grid_plane q /\ extent 4096 (bp_v0 (plane_of q)) /\ extent 4096 (bp_v1 (plane_of q)) /\ extent 4096 (bp_v2 (plane_of q)))
  /\ on_plane (plane_of plane) x /\ on_plane (plane_of p1) x /\ on_plane (plane_of p2) x
  /\ 49 / 100 <= openness (plane_of plane) (plane_of p1) (plane_of p2) /\ (forall q, In q planes -> within 0 (plane_of q) x)
  /\ f_indices f = [] /\ forall v, In v (f_vertices f) -> 100 <= norm (minus (point_of (vt_pos v)) x).
Proof.
  intros simd. exists (polar simd), textures, (world []), shard, shard_floor, (tri t1 t2 t3), (tri t0 t3 t2), (reals t2), (shard_face simd).
  split; [reflexivity|]. split; [apply shard_built|]. split; [cbn; tauto|]. split; [cbn; tauto|]. split; [cbn; tauto|]. split.
  - intros q Hq. split; [apply shard_grid; now right|]. cbn [In shard] in Hq.
    assert (X : forall k, coords (fun c => Z.abs c <= 4096)%Z k -> extent 4096 (point_of (fvz k))).
    { intros k K. assert (G : on_grid k) by (destruct K as (? & ? & ?); unfold on_grid, coords; lia). destruct (point_fvz k G) as [_ ->].
      destruct K as (? & ? & ?). unfold extent, reals. cbn [vx vy vz]. rewrite <- !abs_IZR. repeat split; apply IZR_le; assumption. }
    repeat (destruct Hq as [<-|Hq]; [cbn [plane_of bp_v0 bp_v1 bp_v2 shard_floor tri wall_at]; repeat split; apply X; znum|]). destruct Hq.
  - split; [apply tri_on; [grid|grid|grid|reflexivity]|]. split; [apply tri_on; [grid|grid|grid|reflexivity]|]. split; [apply tri_on; [grid|grid|grid|reflexivity]|].
    split; [|split; [apply shard_inside|split; [destruct simd; vm_compute; reflexivity|apply shard_far]]].
    apply (tri_open _ _ _ _ _ _ _ _ _ 15200 27572 28108); try grid; try lia; try (vm_compute; split; reflexivity || discriminate); [lra|].
    match goal with |- _ <= IZR ?z => replace z with 5837022176049%Z by (vm_compute; reflexivity) end.
    replace (15200 * 27572 * 28108)%Z with 11779905395200%Z by reflexivity. lra.
Qed.

(** ** A small pyramid to which the accuracy theorems apply *)
Definition s0 : vec3 Z := V3 0%Z 0%Z 0%Z.
Definition s1 : vec3 Z := V3 4%Z 0%Z 0%Z.
Definition s2 : vec3 Z := V3 0%Z 4%Z 0%Z.
Definition s3 : vec3 Z := V3 0%Z 0%Z 4%Z.
Definition slope : brush_plane f32 := tri s1 s3 s2.
Definition pyramid : list (brush_plane f32) := [tri s0 s1 s2; tri s0 s2 s3; tri s0 s3 s1; slope].
Definition slope_face (simd : bool) : face f32 := face_of (build_face (f32_num (polar simd)) textures (world []) pyramid slope).

Lemma pyramid_grid : forall q, In q (slope :: pyramid) -> grid_plane q.
Proof.
  intros q H. cbn [In pyramid] in H.
  repeat (destruct H as [<-|H]; [apply (tri_grid _ _ _ 8 8); [grid|grid|grid|znum|znum|znum|lia]|]). destruct H.
Qed.

Lemma pyramid_built : forall simd, build_face (f32_num (polar simd)) textures (world []) pyramid slope = Ok (slope_face simd).
Proof. intros []; vm_compute; reflexivity. Qed.

Lemma pyramid_corner : let p1 := tri s0 s3 s1 in let p2 := tri s0 s1 s2 in let x := reals s1 in
  In p1 pyramid /\ In p2 pyramid /\ on_plane (plane_of slope) x /\ on_plane (plane_of p1) x /\ on_plane (plane_of p2) x
  /\ 57 / 100 <= openness (plane_of slope) (plane_of p1) (plane_of p2) /\ (forall q, In q pyramid -> within 0 (plane_of q) x)
  /\ forall q, In q pyramid -> / 2 ^ 19 * (distances (plane_of slope) (plane_of p1) (plane_of p2) x / openness (plane_of slope) (plane_of p1) (plane_of p2))
       + / 2 ^ 20 * norm (bp_v0 (plane_of q)) <= 999 / 1000000.
Proof.
  cbn zeta. split; [cbn; tauto|]. split; [cbn; tauto|]. split; [apply tri_on; [grid|grid|grid|reflexivity]|]. split; [apply tri_on; [grid|grid|grid|reflexivity]|]. split; [apply tri_on; [grid|grid|grid|reflexivity]|].
  assert (OP : 57 / 100 <= openness (plane_of slope) (plane_of (tri s0 s3 s1)) (plane_of (tri s0 s1 s2))).
  { apply (tri_open _ _ _ _ _ _ _ _ _ 28 16 16); try grid; try lia; try (vm_compute; split; reflexivity || discriminate); [lra|].
    match goal with |- _ <= IZR ?z => replace z with 4096%Z by (vm_compute; reflexivity) end.
    replace (28 * 16 * 16)%Z with 7168%Z by reflexivity. lra. }
  split; [exact OP|]. split.
  - intros q H. cbn [In pyramid] in H. repeat (destruct H as [<-|H]; [apply tri_within; [grid|grid|grid|znum]|]). destruct H.
  - assert (N : forall k, on_grid k -> (zinner k k <= 16)%Z -> norm (point_of (fvz k)) <= 4).
    { intros k G K. destruct (point_fvz k G) as [_ ->]. apply (norm_reals k 4); lia. }
    intros q H. set (o := openness _ _ _) in *. set (d := distances _ _ _ _).
    assert (D : d <= 16).
    { unfold d, distances. cbn [plane_of bp_v0 slope tri wall_at]. pose proof (N s1 ltac:(grid) ltac:(znum)). pose proof (N s0 ltac:(grid) ltac:(znum)).
      pose proof (norm_reals s1 4 ltac:(lia) ltac:(znum)). lra. }
    assert (D0 : d / o <= 32).
    { apply Rmult_le_reg_r with o; [lra|]. unfold Rdiv. rewrite Rmult_assoc, Rinv_l, Rmult_1_r by lra. lra. }
    assert (Q : norm (bp_v0 (plane_of q)) <= 4).
    { cbn [In pyramid] in H. repeat (destruct H as [<-|H]; [cbn [plane_of bp_v0 slope tri wall_at]; apply N; [grid|znum]|]). destruct H. }
    replace (2 ^ 19) with 524288 by ring. replace (2 ^ 20) with 1048576 by ring. lra.
Qed.
