(** Exact-arithmetic correctness of face corners (C16). *)
From Coq Require Import Reals Lra Psatz Permutation Sorted.
From Flocq Require Import Core.
From Verif Require Import Prelude F32 Text MapModel GeoModel GatherSpec GeoSpec RealSpec BaseProofs GeoProofs.
Local Open Scope R_scope.

Section RealGeo.
Context (parse : str -> option R) (cosine radians : R -> R) (atan2 : R -> R -> R)
  (quat : vec3 R -> R -> vec3 R -> vec3 R) (mat2 : R -> vec2 R -> vec2 R).
Local Notation O := (real_num parse cosine radians atan2 quat mat2).

Lemma real_eq : forall a b, n_cmp O a b = Some Eq <-> a = b.
Proof. intros a b. simpl. split; [intros H; injection H as H; now apply Rcompare_Eq_inv|intros ->; now rewrite Rcompare_Eq]. Qed.
Lemma real_laws : eq_laws O.
Proof. split; [intros a b|intros a b c]; rewrite !real_eq; congruence. Qed.
Lemma real_pos_eq : forall a b, pos_eq O a b <-> a = b.
Proof.
  intros [x y z] [x' y' z']. unfold pos_eq, num_eq. rewrite !real_eq. cbn [vx vy vz]. split; [intros (-> & -> & ->); reflexivity|].
  intros E. injection E as -> -> ->. auto.
Qed.

Lemma norm_pos : forall a, norm a <> 0 -> 0 < norm a.
Proof. intros a H. pose proof (sqrt_pos (inner a a)). unfold norm in *. lra. Qed.
Lemma norm_sq : forall a, norm a * norm a = inner a a.
Proof. intros [x y z]. unfold norm. apply sqrt_sqrt. unfold inner. cbn. nra. Qed.
Lemma norm_zero : forall a, norm a = 0 -> a = V3 0 0 0.
Proof.
  intros [x y z] H. pose proof (norm_sq (V3 x y z)) as E. rewrite H in E. unfold inner in E. cbn in E.
  assert (x = 0) by nra. assert (y = 0) by nra. assert (z = 0) by nra. subst. reflexivity.
Qed.

(** The computed normal is the direction over its length; a degenerate plane has a null normal. *)
Lemma normal_real : forall pl, plane_normal O pl =
  V3 (vx (facing pl) / norm (facing pl)) (vy (facing pl) / norm (facing pl)) (vz (facing pl) / norm (facing pl)).
Proof. intros pl. reflexivity. Qed.

Lemma dot_real : forall a b, v3_dot O a b = inner a b.
Proof. reflexivity. Qed.
Lemma cross_real : forall a b, v3_cross O a b = outer a b.
Proof. reflexivity. Qed.

Lemma normal_scaled : forall pl x, inner (plane_normal O pl) x = inner (facing pl) x / norm (facing pl).
Proof. intros pl x. rewrite normal_real. unfold inner. cbn [vx vy vz]. unfold Rdiv. ring. Qed.

Lemma dist_real : forall pl, plane_dist O pl = inner (facing pl) (bp_v0 pl) / norm (facing pl).
Proof. intros pl. unfold plane_dist. rewrite dot_real. apply normal_scaled. Qed.

Lemma inner_minus : forall a x y, inner a (minus x y) = inner a x - inner a y.
Proof. intros. unfold inner, minus. cbn. ring. Qed.

Lemma on_plane_iff : forall pl x, proper pl -> (on_plane pl x <-> inner (plane_normal O pl) x = plane_dist O pl).
Proof.
  intros pl x P. unfold on_plane. rewrite inner_minus, normal_scaled, dist_real. pose proof (norm_pos _ P) as N. split; intros H.
  - replace (inner (facing pl) x) with (inner (facing pl) (bp_v0 pl)) by lra. reflexivity.
  - apply (Rmult_eq_compat_r (norm (facing pl))) in H. unfold Rdiv in H. rewrite !Rmult_assoc, !Rinv_l, !Rmult_1_r in H by exact P. lra.
Qed.

Lemma within_iff : forall d pl x, 0 <= d -> proper pl ->
  (within d pl x <-> inner (plane_normal O pl) x - plane_dist O pl <= d).
Proof.
  intros d pl x D P. unfold within. rewrite inner_minus, normal_scaled, dist_real. pose proof (norm_pos _ P) as N.
  replace (inner (facing pl) x / norm (facing pl) - inner (facing pl) (bp_v0 pl) / norm (facing pl))
    with ((inner (facing pl) x - inner (facing pl) (bp_v0 pl)) / norm (facing pl)) by (field; exact P).
  split; intros H.
  - apply (Rmult_le_reg_r (norm (facing pl))); [exact N|]. unfold Rdiv. rewrite Rmult_assoc, Rinv_l, Rmult_1_r by exact P. exact H.
  - apply (Rmult_le_compat_r (norm (facing pl))) in H; [|lra]. unfold Rdiv in H. rewrite Rmult_assoc, Rinv_l, Rmult_1_r in H by exact P. exact H.
Qed.

Lemma greater_real : forall a b, greater O a b <-> b < a.
Proof.
  intros a b. unfold greater. simpl. split; [intros H; injection H as H; now apply Rcompare_Gt_inv|].
  intros H. now rewrite Rcompare_Gt.
Qed.

Lemma behind_iff : forall pl x, behind O x pl <-> within (/ 1000) pl x.
Proof.
  intros pl x. destruct (Req_dec (norm (facing pl)) 0) as [Z|P].
  - unfold behind, within. rewrite !greater_real, dot_real, normal_scaled, dist_real. cbn [n_sub n_eps real_num].
    rewrite (norm_zero _ Z). unfold norm, inner. cbn [vx vy vz].
    replace (0 * 0 + 0 * 0 + 0 * 0) with 0 by ring. rewrite sqrt_0. split; [intros _; lra|]. intros _ [A _].
    unfold Rdiv in A. rewrite !Rmult_0_l, !Rplus_0_r, !Rmult_0_l in A. lra.
  - rewrite within_iff by (auto; lra). unfold behind. rewrite !greater_real, dot_real. cbn [n_sub n_eps real_num]. split.
    + intros H. apply Rnot_lt_le. intros L. apply H. split; lra.
    + intros H [_ A]. lra.
Qed.

Lemma inside_iff : forall planes x, inside O planes x <-> forall q, In q planes -> within (/ 1000) q x.
Proof. intros planes x. unfold inside. split; intros H q Hq; apply behind_iff; auto. Qed.

(** The determinant. *)
Lemma det_scaled : forall p0 p1 p2, proper p0 -> proper p1 -> proper p2 ->
  inner (outer (plane_normal O p0) (plane_normal O p1)) (plane_normal O p2)
  = inner (outer (facing p0) (facing p1)) (facing p2) / (norm (facing p0) * norm (facing p1) * norm (facing p2)).
Proof. intros p0 p1 p2 A B C. rewrite !normal_real. unfold inner, outer. cbn [vx vy vz]. unfold proper in *. field. auto. Qed.

Lemma spans_iff : forall p0 p1 p2, proper p0 -> proper p1 -> proper p2 ->
  (spans p0 p1 p2 <-> / 1000 <= inner (outer (plane_normal O p0) (plane_normal O p1)) (plane_normal O p2)).
Proof.
  intros p0 p1 p2 A B C. rewrite det_scaled by assumption. unfold spans.
  pose proof (norm_pos _ A). pose proof (norm_pos _ B). pose proof (norm_pos _ C).
  set (m := norm (facing p0) * norm (facing p1) * norm (facing p2)).
  assert (M : 0 < m) by (unfold m; repeat apply Rmult_lt_0_compat; assumption). split; intros L.
  - apply (Rmult_le_reg_r m); [exact M|]. unfold Rdiv. rewrite Rmult_assoc, Rinv_l, Rmult_1_r by lra. exact L.
  - apply (Rmult_le_compat_r m) in L; [|lra]. unfold Rdiv in L. rewrite Rmult_assoc, Rinv_l, Rmult_1_r in L by lra. exact L.
Qed.

(** A determinant above the threshold needs three proper planes. *)
Lemma det_proper : forall p0 p1 p2, / 1000 <= inner (outer (plane_normal O p0) (plane_normal O p1)) (plane_normal O p2) ->
  proper p0 /\ proper p1 /\ proper p2.
Proof.
  assert (Z : forall pl, norm (facing pl) = 0 -> plane_normal O pl = V3 0 0 0).
  { intros pl H. rewrite normal_real, (norm_zero _ H). cbn [vx vy vz]. unfold Rdiv. now rewrite Rmult_0_l. }
  intros p0 p1 p2 L. unfold proper. repeat split; intros H; apply Z in H; rewrite H in L; unfold inner, outer in L; cbn [vx vy vz] in L; lra.
Qed.

Lemma v3_ext : forall a b : vec3 R, vx a = vx b -> vy a = vy b -> vz a = vz b -> a = b.
Proof. intros [x y z] [x' y' z'] A B C. cbn in *. subst. reflexivity. Qed.

(** The intersection formula solves the three equations and only it does. *)
Lemma solve : forall n0 n1 n2 d0 d1 d2 x, inner (outer n0 n1) n2 <> 0 ->
  (x = v3_divs O (v3_add O (v3_add O (v3_scale O (outer n1 n2) d0) (v3_scale O (outer n2 n0) d1)) (v3_scale O (outer n0 n1) d2))
         (inner (outer n0 n1) n2)
   <-> inner n0 x = d0 /\ inner n1 x = d1 /\ inner n2 x = d2).
Proof.
  intros [a b c] [d e f] [g h i] d0 d1 d2 [x y z] N. unfold inner, outer in *. cbn [vx vy vz] in *.
  unfold v3_divs, v3_add, v3_scale. cbn [vx vy vz n_add n_mul n_div real_num]. split.
  - intros E. injection E as -> -> ->. repeat split; field; exact N.
  - intros (A & B & C). subst. f_equal; field; exact N.
Qed.

Lemma intersect_iff : forall p0 p1 p2 x, intersect_planes O p0 p1 p2 = Some x <->
  proper p0 /\ proper p1 /\ proper p2 /\ spans p0 p1 p2 /\ on_plane p0 x /\ on_plane p1 x /\ on_plane p2 x.
Proof.
  intros p0 p1 p2 x. unfold intersect_planes, n_ltb. rewrite !cross_real, dot_real. cbn [n_cmp n_eps real_num].
  set (D := inner (outer (plane_normal O p0) (plane_normal O p1)) (plane_normal O p2)).
  assert (K : / 1000 <= D -> (Some (v3_divs O (v3_add O (v3_add O (v3_scale O (outer (plane_normal O p1) (plane_normal O p2)) (plane_dist O p0))
      (v3_scale O (outer (plane_normal O p2) (plane_normal O p0)) (plane_dist O p1)))
      (v3_scale O (outer (plane_normal O p0) (plane_normal O p1)) (plane_dist O p2))) D) = Some x <->
      proper p0 /\ proper p1 /\ proper p2 /\ spans p0 p1 p2 /\ on_plane p0 x /\ on_plane p1 x /\ on_plane p2 x)).
  { intros L. destruct (det_proper p0 p1 p2 L) as (P0 & P1 & P2).
    assert (N : D <> 0) by lra.
    rewrite !on_plane_iff by assumption. rewrite spans_iff by assumption. fold D. split.
    - intros E. injection E as E. symmetry in E. apply (solve _ _ _ _ _ _ _ N) in E. tauto.
    - intros (_ & _ & _ & _ & E). f_equal. symmetry. apply (solve _ _ _ _ _ _ _ N). exact E. }
  destruct (Rcompare_spec D (/ 1000)) as [L|E|G].
  - split; [discriminate|]. intros (P0 & P1 & P2 & S & _). apply spans_iff in S; auto. fold D in S. lra.
  - apply K. lra.
  - apply K. lra.
Qed.

Lemma meeting_iff : forall planes plane x, meeting_point O planes plane x <->
  exists p1 p2, In p1 planes /\ In p2 planes /\ proper plane /\ proper p1 /\ proper p2 /\ spans plane p1 p2
    /\ on_plane plane x /\ on_plane p1 x /\ on_plane p2 x /\ forall q, In q planes -> within (/ 1000) q x.
Proof.
  intros planes plane x. unfold meeting_point, meets. split; intros (p1 & p2 & H); exists p1, p2.
  - destruct H as (A & B & C & D). apply intersect_iff in C. pose proof (proj1 (inside_iff planes x) D) as D'. tauto.
  - rewrite intersect_iff, inside_iff. tauto.
Qed.

(** Faces. *)
Theorem real_corners : forall tx e planes plane f, build_face O tx e planes plane = Ok f ->
  NoDup (map vt_pos (f_vertices f))
  /\ forall x, In x (map vt_pos (f_vertices f)) <->
     exists p1 p2, In p1 planes /\ In p2 planes /\ proper plane /\ proper p1 /\ proper p2 /\ spans plane p1 p2
       /\ on_plane plane x /\ on_plane p1 x /\ on_plane p2 x /\ forall q, In q planes -> within (/ 1000) q x.
Proof.
  intros tx e planes plane f E.
  destruct (face_corners_built O real_laws tx e planes plane f E) as (raw & centred & sorted & (M1 & M2 & M3) & _ & F1 & P & F2 & _).
  assert (Pos : Permutation (map vt_pos raw) (map vt_pos (f_vertices f))).
  { assert (A : map vt_pos centred = map (fun x => minus x (f_center f)) (map vt_pos raw)).
    { clear - F1. induction F1 as [|a b l l' H F IH]; [reflexivity|]. cbn [map]. rewrite IH. f_equal. apply H. }
    assert (B : map vt_pos (f_vertices f) = map (fun x => v3_add O x (f_center f)) (map vt_pos sorted)).
    { clear - F2. induction F2 as [|a b l l' H F IH]; [reflexivity|]. cbn [map]. rewrite IH. f_equal. apply H. }
    rewrite B. assert (C : map vt_pos raw = map (fun x => v3_add O x (f_center f)) (map vt_pos centred)).
    { rewrite A, map_map. rewrite <- (map_id (map vt_pos raw)) at 1. apply map_ext. intros x. apply v3_ext; cbn; ring. }
    rewrite C. apply Permutation_map, Permutation_map. exact P. }
  split.
  - apply (Permutation_NoDup Pos). rewrite NoDup_nth_error. intros i j Hi Hij. rewrite !nth_error_map in Hij.
    rewrite map_length in Hi. destruct (nth_error raw i) as [a|] eqn:Ea; [|apply nth_error_None in Ea; lia].
    destruct (nth_error raw j) as [b|] eqn:Eb; [|discriminate]. injection Hij as Hij.
    destruct (Nat.lt_trichotomy i j) as [Lt|[Eq|Gt]]; [|exact Eq|].
    + exfalso. apply (M3 i j a b Lt Ea Eb). apply real_pos_eq. exact Hij.
    + exfalso. apply (M3 j i b a Gt Eb Ea). apply real_pos_eq. symmetry. exact Hij.
  - intros x. rewrite <- meeting_iff. split.
    + intros H. apply (Permutation_in _ (Permutation_sym Pos)) in H. apply in_map_iff in H. destruct H as (v & <- & Hv). auto.
    + intros H. destruct (M2 x H) as (v & Hv & C). apply (Permutation_in _ Pos). apply in_map_iff. exists v. split; [|exact Hv].
      destruct C as [C|C]; [exact C|]. apply real_pos_eq in C. congruence.
Qed.

Theorem real_total : forall tx e planes plane, exists f, build_face O tx e planes plane = Ok f.
Proof.
  intros tx e planes plane.
  assert (Geb : forall a b, n_geb O a b = false -> n_geb O b a = true).
  { intros a b. unfold n_geb. cbn [n_cmp real_num]. destruct (Rcompare_spec a b), (Rcompare_spec b a); try discriminate; try reflexivity; lra. }
  assert (Tr : forall a b c, n_geb O a b = true -> n_geb O b c = true -> n_geb O a c = true).
  { intros a b c. unfold n_geb. cbn [n_cmp real_num].
    destruct (Rcompare_spec a b), (Rcompare_spec b c), (Rcompare_spec a c); try discriminate; try reflexivity; lra. }
  assert (Lg : forall a b c, n_geb O a b && n_geb O a c = true \/ n_geb O b a && n_geb O b c = true \/ n_geb O c a && n_geb O c b = true).
  { intros a b c. destruct (n_geb O a b) eqn:E1, (n_geb O a c) eqn:E2; auto; right.
    - right. apply Geb in E2. rewrite E2. simpl. eapply Tr; eauto.
    - left. apply Geb in E1. rewrite E1. simpl. eapply Tr; eauto.
    - apply Geb in E1. apply Geb in E2. rewrite E1, E2. simpl. destruct (n_geb O b c) eqn:E3; auto. }
  assert (Tg : exists t, vertex_tangent O plane = Ok t).
  { unfold vertex_tangent. destruct (bp_uv plane); [|eauto]. unfold standard_tangent.
    match goal with |- context [n_geb O ?a ?b && n_geb O ?a ?c] => destruct (Lg a b c) as [H|[H|H]]; rewrite H end.
    - eexists; reflexivity.
    - match goal with |- context [if ?b then _ else _] => destruct b end; eexists; reflexivity.
    - match goal with |- context [if ?b then _ else _] => destruct b end; [eexists; reflexivity|].
      match goal with |- context [if ?b then _ else _] => destruct b end; eexists; reflexivity. }
  assert (Uv : forall v t, exists r, vertex_uv O v plane t = Ok r).
  { intros v t. unfold vertex_uv. destruct (bp_uv plane); [|eauto].
    match goal with |- context [n_geb O ?a ?b && n_geb O ?a ?c] => destruct (Lg a b c) as [H|[H|H]]; rewrite H end.
    - eexists; reflexivity.
    - match goal with |- context [if ?b then _ else _] => destruct b end; eexists; reflexivity.
    - match goal with |- context [if ?b then _ else _] => destruct b end; [eexists; reflexivity|].
      match goal with |- context [if ?b then _ else _] => destruct b end; eexists; reflexivity. }
  unfold build_face, plane_vertices.
  destruct (mapM_total _ _ (fun pq => build_plane_vertex O (hget tx (bp_texture plane)) e planes plane (fst pq) (snd pq)) (list_prod planes planes)) as [r ->].
  - intros [p1 p2] _. cbn [fst snd]. unfold build_plane_vertex. destruct (intersect_planes O plane p1 p2); [|eauto].
    destruct (vertex_in_hull O v planes); [|eauto]. destruct Tg as [t ->]. simpl. destruct (hget tx (bp_texture plane)) as [size|]; [|simpl; eauto].
    destruct (Uv v size) as [r ->]. simpl. eauto.
  - simpl. eauto.
Qed.
End RealGeo.
