(** Enlarging a brush: lemmas for C122. *)
From Coq Require Import Reals Lra Psatz.
From Flocq Require Import Core.
From Verif Require Import Prelude F32 Text MapModel GeoModel SceneModel GatherSpec GeoSpec RealSpec WindSpec RigidSpec ScaleSpec BaseProofs GeoProofs RealProofs WindProofs ShiftProofs ReworkProofs
  InvarianceProofs RigidProofs.
Local Open Scope R_scope.

(** An angle depends on the direction only. *)
Lemma cos_one : forall d, 0 < d < 2 * PI -> cos d <> 1.
Proof.
  intros d H E. replace d with (2 * (d / 2)) in E by lra. rewrite cos_2a_sin in E.
  assert (0 < sin (d / 2)) by (apply sin_gt_0; lra). nra.
Qed.
Lemma angle_grown : forall atan2, polar_angle atan2 -> forall k y x, 0 < k -> atan2 (k * y) (k * x) = atan2 y x.
Proof.
  intros atan2 P k y x K. assert (D : (x = 0 /\ y = 0) \/ (x <> 0 \/ y <> 0)) by (destruct (Req_dec x 0), (Req_dec y 0); tauto).
  destruct D as [(-> & ->)|D]; [now rewrite !Rmult_0_r|].
  destruct (P x y D) as (A & r & R0 & X & Y). destruct (P (k * x) (k * y)) as (A' & r' & R0' & X' & Y'); [destruct D; [left|right]; apply Rmult_integral_contrapositive_currified; lra|].
  assert (C : cos (atan2 (k * y) (k * x) - atan2 y x) = 1).
  { rewrite cos_minus. set (a := atan2 y x) in *. set (b := atan2 (k * y) (k * x)) in *. pose proof (sin2_cos2 a) as S. pose proof (sin2_cos2 b) as S'. unfold Rsqr in S, S'.
    clearbody a b. assert (Kr : 0 < k * r) by (apply Rmult_lt_0_compat; assumption). assert (Eq : r' = k * r).
    { assert (Q : r' * r' = k * r * (k * r)).
      { replace (r' * r') with (r' * r' * (sin b * sin b + cos b * cos b)) by (rewrite S'; ring). replace (k * r * (k * r)) with (k * r * (k * r) * (sin a * sin a + cos a * cos a)) by (rewrite S; ring).
        replace (r' * r' * (sin b * sin b + cos b * cos b)) with ((r' * sin b) * (r' * sin b) + (r' * cos b) * (r' * cos b)) by ring. rewrite <- X', <- Y', X, Y. ring. }
      nra. }
    subst r'. assert (Cb : cos b = cos a) by (apply (Rmult_eq_reg_l (k * r)); [rewrite <- X', X; ring|lra]).
    assert (Sb : sin b = sin a) by (apply (Rmult_eq_reg_l (k * r)); [rewrite <- Y', Y; ring|lra]). rewrite Cb, Sb. lra. }
  destruct (Rtotal_order (atan2 (k * y) (k * x)) (atan2 y x)) as [L|[E|L]]; [|exact E|]; exfalso.
  - rewrite <- cos_neg in C. revert C. apply cos_one. lra.
  - revert C. apply cos_one. lra.
Qed.

Section Scale.
Context (parse : str -> option R) (cosine radians : R -> R) (atan2 : R -> R -> R)
  (quat : vec3 R -> R -> vec3 R -> vec3 R) (mat2 : R -> vec2 R -> vec2 R).
Local Notation O := (real_num parse cosine radians atan2 quat mat2).
Context (k : R) (K : 0 < k) (Angle : polar_angle atan2) (Linear : homogeneous mat2).
Local Notation go := (grow k).
Local Notation kin := (grown_vertex k).

Lemma grow_inj : forall a b, go a = go b -> a = b.
Proof.
  intros [a1 a2 a3] [b1 b2 b3] H. unfold grow in H. cbn [vx vy vz] in H. injection H as H1 H2 H3.
  apply Rmult_eq_reg_l in H1, H2, H3; try lra. congruence.
Qed.
Lemma grow_onto : forall y, exists x, go x = y.
Proof. intros [y1 y2 y3]. exists (V3 (/ k * y1) (/ k * y2) (/ k * y3)). unfold grow. cbn [vx vy vz]. f_equal; field; lra. Qed.
Lemma inner_grow : forall n x, inner n (go x) = k * inner n x.
Proof. intros n x. unfold grow. vectors. ring. Qed.
Lemma minus_grow : forall a b, minus (go a) (go b) = go (minus a b).
Proof. intros a b. unfold grow. vectors. f_equal; ring. Qed.
Lemma facing_grow : forall pl, facing (grown_plane k pl) = grow (k * k) (facing pl).
Proof.
  intros pl. unfold facing. cbn [grown_plane bp_v0 bp_v1 bp_v2]. rewrite !minus_grow. generalize (minus (bp_v2 pl) (bp_v0 pl)) (minus (bp_v1 pl) (bp_v0 pl)).
  intros a b. unfold grow. vectors. f_equal; ring.
Qed.
Lemma norm_grow : forall h a, 0 < h -> norm (grow h a) = h * norm a.
Proof.
  intros h [x y z] H. unfold norm, inner, grow. cbn [vx vy vz]. replace (h * x * (h * x) + h * y * (h * y) + h * z * (h * z)) with ((h * h) * (x * x + y * y + z * z)) by ring.
  rewrite sqrt_mult_alt by nra. rewrite sqrt_square by lra. reflexivity.
Qed.
Lemma norm_facing : forall pl, norm (facing (grown_plane k pl)) = k * k * norm (facing pl).
Proof. intros pl. rewrite facing_grow. apply norm_grow. nra. Qed.
Lemma unit_grow : forall h a, 0 < h -> V3 (vx (grow h a) / norm (grow h a)) (vy (grow h a) / norm (grow h a)) (vz (grow h a) / norm (grow h a)) = V3 (vx a / norm a) (vy a / norm a) (vz a / norm a).
Proof.
  intros h a H. rewrite (norm_grow h a H). generalize (norm a); intros m. unfold grow. cbn [vx vy vz]. unfold Rdiv. rewrite Rinv_mult.
  assert (Q : forall c, h * c * (/ h * / m) = c * / m).
  { intros c. replace (h * c * (/ h * / m)) with ((h * / h) * (c * / m)) by ring. rewrite Rinv_r by lra. ring. }
  now rewrite !Q.
Qed.
Lemma normal_grow : forall pl, plane_normal O (grown_plane k pl) = plane_normal O pl.
Proof. intros pl. rewrite !normal_real, facing_grow. apply unit_grow. nra. Qed.
Lemma on_plane_grow : forall pl x, on_plane (grown_plane k pl) (go x) <-> on_plane pl x.
Proof.
  intros pl x. unfold on_plane. rewrite facing_grow. cbn [grown_plane bp_v0]. rewrite minus_grow, inner_grow.
  generalize (facing pl) (minus x (bp_v0 pl)). intros a b. replace (inner (grow (k * k) a) b) with (k * k * inner a b) by (unfold grow; vectors; ring).
  split; intros H; [|rewrite H; ring]. apply (Rmult_eq_reg_l (k * (k * k))); [nra|]. assert (0 < k * k) by nra. nra.
Qed.
Lemma within_grow : forall d pl x, within d (grown_plane k pl) (go x) <-> within (d / k) pl x.
Proof.
  intros d pl x. unfold within. rewrite norm_facing, facing_grow. cbn [grown_plane bp_v0]. rewrite minus_grow, inner_grow.
  generalize (facing pl) (minus x (bp_v0 pl)) (norm (facing pl)). intros a b m. replace (inner (grow (k * k) a) b) with (k * k * inner a b) by (unfold grow; vectors; ring).
  generalize (inner a b). intros c. assert (H : 0 < k * k * k) by (apply Rmult_lt_0_compat; nra). replace (k * (k * k * c)) with (k * k * k * c) by ring.
  replace (d * (k * k * m)) with (k * k * k * (d / k * m)) by (field; lra). split; intros L; [now apply (Rmult_le_reg_l (k * k * k))|apply Rmult_le_compat_l; [lra|exact L]].
Qed.
Lemma spans_grow : forall p0 p1 p2, spans (grown_plane k p0) (grown_plane k p1) (grown_plane k p2) <-> spans p0 p1 p2.
Proof.
  intros p0 p1 p2. unfold spans. rewrite !norm_facing, !facing_grow. generalize (facing p0) (facing p1) (facing p2) (norm (facing p0)) (norm (facing p1)) (norm (facing p2)).
  intros a b c m n o. replace (inner (outer (grow (k * k) a) (grow (k * k) b)) (grow (k * k) c)) with (k * k * (k * k) * (k * k) * inner (outer a b) c) by (unfold grow; vectors; ring).
  replace (/ 1000 * (k * k * m * (k * k * n) * (k * k * o))) with (k * k * (k * k) * (k * k) * (/ 1000 * (m * n * o))) by ring. generalize (inner (outer a b) c) (/ 1000 * (m * n * o)). intros u v.
  assert (Hk : 0 < k * k) by nra. assert (Hh : 0 < k * k * (k * k) * (k * k)) by (repeat apply Rmult_lt_0_compat; assumption).
  split; intros L; [now apply (Rmult_le_reg_l (k * k * (k * k) * (k * k)))|apply Rmult_le_compat_l; [lra|exact L]].
Qed.
Lemma proper_grow : forall pl, proper (grown_plane k pl) <-> proper pl.
Proof. intros pl. unfold proper. rewrite norm_facing. split; intros H E; apply H; [rewrite E; ring|]. apply (Rmult_eq_reg_l (k * k)); [lra|nra]. Qed.
Lemma intersect_grow : forall p0 p1 p2,
  intersect_planes O (grown_plane k p0) (grown_plane k p1) (grown_plane k p2) = option_map go (intersect_planes O p0 p1 p2).
Proof.
  intros p0 p1 p2.
  assert (H : forall x, intersect_planes O (grown_plane k p0) (grown_plane k p1) (grown_plane k p2) = Some (go x) <-> intersect_planes O p0 p1 p2 = Some x).
  { intros x. rewrite !intersect_iff, !proper_grow, spans_grow, !on_plane_grow. reflexivity. }
  destruct (intersect_planes O p0 p1 p2) as [x|] eqn:E; cbn [option_map]; [now apply H|].
  destruct (intersect_planes O (grown_plane k p0) (grown_plane k p1) (grown_plane k p2)) as [y|] eqn:F; [|reflexivity].
  destruct (grow_onto y) as (x & <-). pose proof (proj1 (H x) eq_refl) as Q. discriminate Q.
Qed.
Lemma hull_grow : forall planes p0 p1 p2 x, roomy k planes -> In p0 planes -> In p1 planes -> In p2 planes -> intersect_planes O p0 p1 p2 = Some x ->
  vertex_in_hull O (go x) (map (grown_plane k) planes) = vertex_in_hull O x planes.
Proof.
  intros planes p0 p1 p2 x Ro I0 I1 I2 H. apply intersect_iff in H. destruct H as (P0 & P1 & P2 & S & A0 & A1 & A2). apply same_bool. rewrite !hull_iff, !inside_iff. split; intros W q Iq.
  - apply (Ro p0 p1 p2 q x); auto. apply within_grow. apply W. now apply in_map.
  - apply in_map_iff in Iq. destruct Iq as (q' & <- & Iq). apply within_grow. apply (Ro p0 p1 p2 q' x); auto.
Qed.
Lemma vertex_normal_grow : forall e e' p0 p1 p2, alike_phong e e' ->
  vertex_normal O e' (grown_plane k p0) (grown_plane k p1) (grown_plane k p2) = vertex_normal O e p0 p1 p2.
Proof. intros e e' p0 p1 p2 (P & Q). unfold vertex_normal, is_phong, phong_normal. now rewrite P, Q, !normal_grow. Qed.
Lemma tangent_grow : forall pl, vertex_tangent O (grown_plane k pl) = vertex_tangent O pl.
Proof.
  intros pl. unfold vertex_tangent, standard_tangent. rewrite normal_grow. cbn [grown_plane bp_uv bp_rotation bp_scale ux uy].
  assert (Sg : n_signum O (k * uy (bp_scale pl)) = n_signum O (uy (bp_scale pl))).
  { cbn [n_signum real_num]. destruct (Rle_dec 0 (k * uy (bp_scale pl))) as [A|A], (Rle_dec 0 (uy (bp_scale pl))) as [B|B]; try reflexivity; exfalso; nra. }
  now rewrite Sg.
Qed.
Lemma uv_grow : forall pl x size, vertex_uv O (go x) (grown_plane k pl) size = vertex_uv O x pl size.
Proof.
  intros pl x size. unfold vertex_uv. rewrite normal_grow. cbn [grown_plane bp_uv bp_rotation bp_scale ux uy].
  assert (Dv : forall a b c, v2_div O (v2_div O (V2 (k * a) (k * b)) c) (V2 (k * ux (bp_scale pl)) (k * uy (bp_scale pl))) = v2_div O (v2_div O (V2 a b) c) (bp_scale pl)).
  { intros a b [c d]. generalize (bp_scale pl). intros [s t]. unfold v2_div. cbn [ux uy n_div real_num]. unfold Rdiv.
    assert (Q : forall u v w, k * u * / v * / (k * w) = u * / v * / w).
    { intros u v w. rewrite Rinv_mult. replace (k * u * / v * (/ k * / w)) with ((k * / k) * (u * / v * / w)) by ring. rewrite Rinv_r by lra. ring. }
    now rewrite !Q. }
  destruct (bp_uv pl) as [u v|ua uo va vo].
  - assert (L : forall a b, n_mat2_rotate O (n_to_radians O (bp_rotation pl)) (V2 (k * a) (k * b)) =
      V2 (k * ux (n_mat2_rotate O (n_to_radians O (bp_rotation pl)) (V2 a b))) (k * uy (n_mat2_rotate O (n_to_radians O (bp_rotation pl)) (V2 a b)))).
    { intros a b. exact (Linear k (radians (bp_rotation pl)) (V2 a b)). }
    assert (E : forall a b, Ok (v2_add O (v2_div O (v2_div O (n_mat2_rotate O (n_to_radians O (bp_rotation pl)) (V2 (k * a) (n_neg O (k * b)))) (texture_size O size)) (V2 (k * ux (bp_scale pl)) (k * uy (bp_scale pl)))) (v2_div O (V2 u v) (texture_size O size)))
      = Ok (v2_add O (v2_div O (v2_div O (n_mat2_rotate O (n_to_radians O (bp_rotation pl)) (V2 a (n_neg O b))) (texture_size O size)) (bp_scale pl)) (v2_div O (V2 u v) (texture_size O size)))).
    { intros a b. replace (n_neg O (k * b)) with (k * n_neg O b) by (cbn [n_neg real_num]; ring). rewrite L, Dv. now destruct (n_mat2_rotate O _ (V2 a _)). }
    cbn [grow vx vy vz]. repeat match goal with |- context [if ?c then _ else _] => destruct c; cbn [bind]; [apply E|] end. reflexivity.
  - rewrite !dot_real, !inner_grow, Dv. reflexivity.
Qed.
Definition grown_or : option (vertex R) -> option (vertex R) -> Prop := fun a b =>
  match a, b with Some v, Some w => kin v w | None, None => True | _, _ => False end.
Lemma vertex_grow : forall tex e e' planes plane p1 p2 a b, alike_phong e e' -> roomy k planes -> In plane planes -> In p1 planes -> In p2 planes ->
  build_plane_vertex O tex e planes plane p1 p2 = Ok a ->
  build_plane_vertex O tex e' (map (grown_plane k) planes) (grown_plane k plane) (grown_plane k p1) (grown_plane k p2) = Ok b -> grown_or a b.
Proof.
  intros tex e e' planes plane p1 p2 a b P Ro I0 I1 I2. unfold build_plane_vertex. rewrite intersect_grow, (vertex_normal_grow _ _ _ _ _ P), tangent_grow.
  destruct (intersect_planes O plane p1 p2) as [x|] eqn:E; cbn [option_map]; [|intros H1 H2; inv H1; inv H2; exact I].
  rewrite (hull_grow planes plane p1 p2 x Ro I0 I1 I2 E). destruct (vertex_in_hull O x planes); [|intros H1 H2; inv H1; inv H2; exact I].
  destruct (vertex_tangent O plane) as [tg| | |]; try discriminate. cbn [bind]. change (bp_extra (grown_plane k plane)) with (bp_extra plane).
  destruct tex as [size|]; cbn [bind].
  - rewrite uv_grow. destruct (vertex_uv O x plane size) as [r| | |]; try discriminate. cbn [bind]. intros H1 H2. inv H1. inv H2. repeat split.
  - intros H1 H2. inv H1. inv H2. repeat split.
Qed.
Lemma vertices_grow : forall tex e e' planes plane vs ws, alike_phong e e' -> roomy k planes -> In plane planes ->
  plane_vertices O tex e planes plane = Ok vs -> plane_vertices O tex e' (map (grown_plane k) planes) (grown_plane k plane) = Ok ws -> Forall2 kin vs ws.
Proof.
  intros tex e e' planes plane vs ws P Ro Ip. unfold plane_vertices. rewrite list_prod_map.
  destruct (mapM _ (list_prod planes planes)) as [a| | |] eqn:A; try discriminate. cbn [bind]. intros H; inv H.
  match goal with |- context [mapM ?f ?l] => destruct (mapM f l) as [b| | |] eqn:B end; try discriminate. cbn [bind]. intros H; inv H.
  apply mapM_ok in A, B. assert (Inc : forall q, In q (list_prod planes planes) -> In (fst q) planes /\ In (snd q) planes) by (intros [q1 q2] H; apply in_prod_iff in H; exact H).
  revert b B. induction A as [|[q1 q2] o l l' H A IH]; intros b B; inversion_clear B as [|? o' ? b' H' B']; [constructor|].
  cbn [filter_map]. specialize (IH (fun q Iq => Inc q (or_intror Iq)) _ B'). destruct (Inc (q1, q2) (or_introl eq_refl)) as (J1 & J2).
  pose proof (vertex_grow _ _ _ _ _ _ _ _ _ P Ro Ip J1 J2 H H') as Q. destruct o, o'; cbn in Q; try contradiction; auto.
Qed.
Lemma eqb_grow : forall x y, v3_eqb O (go x) (go y) = v3_eqb O x y.
Proof. intros x y. apply (eqb_inj parse cosine radians atan2 quat mat2). apply grow_inj. Qed.
Lemma eqb_kin : forall v v' w w', kin v v' -> kin w w' -> v3_eqb O (vt_pos v') (vt_pos w') = v3_eqb O (vt_pos v) (vt_pos w).
Proof. intros v v' w w' (-> & _) (-> & _). apply eqb_grow. Qed.
Lemma existsb_kin : forall v v' l l', kin v v' -> Forall2 kin l l' ->
  existsb (fun c => v3_eqb O (vt_pos c) (vt_pos v')) l' = existsb (fun c => v3_eqb O (vt_pos c) (vt_pos v)) l.
Proof. intros v v' l l' V H. induction H as [|a b l l' A H IH]; [reflexivity|]. cbn [existsb]. rewrite IH, (eqb_kin _ _ _ _ A V). reflexivity. Qed.
Lemma set_normal_kin : forall v v' n, kin v v' -> kin (set_normal v n) (set_normal v' n).
Proof. intros v v' n (A & B & C & D). split; [exact A|]. split; [reflexivity|]. split; [exact C|exact D]. Qed.
Lemma unique_kin : forall ph vs ws, Forall2 kin vs ws -> Forall2 kin (unique_vertices O ph vs) (unique_vertices O ph ws).
Proof.
  intros ph vs ws H. induction H as [|v w l l' V H IH]; [constructor|]. cbn [unique_vertices].
  rewrite (existsb_kin _ _ _ _ V H). destruct (existsb _ l); [exact IH|]. constructor; [|exact IH]. destruct ph; [|exact V].
  assert (Fd : kin
      (fold_left (fun acc next => if v3_eqb O (vt_pos next) (vt_pos acc) then set_normal acc (vt_normal next) else acc) l v)
      (fold_left (fun acc next => if v3_eqb O (vt_pos next) (vt_pos acc) then set_normal acc (vt_normal next) else acc) l' w)).
  { clear IH. revert v w V. induction H as [|a b l l' A H IH]; intros v w V; [exact V|]. cbn [fold_left]. apply IH.
    rewrite (eqb_kin _ _ _ _ A V). destruct (v3_eqb O (vt_pos a) (vt_pos v)); [|exact V].
    replace (vt_normal b) with (vt_normal a) by (symmetry; apply A). now apply set_normal_kin. }
  cbv zeta. pose proof Fd as (_ & N & _). rewrite N. now apply set_normal_kin.
Qed.
Lemma sum_grow : forall l s, fold_left (v3_add O) (map go l) (go s) = go (fold_left (v3_add O) l s).
Proof.
  induction l as [|a l IH]; intros s; [reflexivity|]. cbn [map fold_left]. rewrite <- IH. f_equal. unfold v3_add, grow. cbn [vx vy vz n_add real_num]. f_equal; ring.
Qed.
Lemma mean_grow : forall l, mean O (map go l) = go (mean O l).
Proof.
  intros l. unfold mean. rewrite map_length. replace (v3_zero O) with (go (v3_zero O)) at 1 by (unfold grow, v3_zero; cbn [vx vy vz n_zero real_num]; f_equal; ring).
  rewrite sum_grow. generalize (fold_left (v3_add O) l (v3_zero O)). intros s. unfold v3_divs, grow. cbn [vx vy vz n_div real_num]. unfold Rdiv. f_equal; ring.
Qed.

Theorem face_grow : forall tx e e' planes plane f f', alike_phong e e' -> roomy k planes -> In plane planes ->
  build_face O tx e planes plane = Ok f -> build_face O tx e' (map (grown_plane k) planes) (grown_plane k plane) = Ok f' -> grown_face k f f'.
Proof.
  intros tx e e' planes plane f f' Ph Ro Ip. unfold build_face. change (bp_texture (grown_plane k plane)) with (bp_texture plane).
  destruct (plane_vertices O (hget tx (bp_texture plane)) e planes plane) as [vs| | |] eqn:E; try discriminate. cbn [bind]. intros H. apply ok_inj in H. subst f.
  destruct (plane_vertices O (hget tx (bp_texture plane)) e' (map (grown_plane k) planes) (grown_plane k plane)) as [ws| | |] eqn:E'; try discriminate.
  cbn [bind]. intros H. apply ok_inj in H. subst f'. unfold grown_face. cbn [f_center f_vertices f_indices f_texture].
  assert (Eph : is_phong e' = is_phong e) by (unfold is_phong; now rewrite (proj1 Ph)). rewrite Eph.
  pose proof (unique_kin (is_phong e) _ _ (vertices_grow _ _ _ _ _ _ _ Ph Ro Ip E E')) as U.
  set (us := unique_vertices O (is_phong e) vs) in *. set (us' := unique_vertices O (is_phong e) ws) in *. clearbody us us'.
  assert (P : map vt_pos us' = map go (map vt_pos us)).
  { clear -U. induction U as [|v w l l' (V & _) U IH]; [reflexivity|]. cbn [map]. now rewrite IH, V. }
  rewrite P, mean_grow. generalize (mean O (map vt_pos us)); intros c.
  rewrite normal_grow. change (bp_v0 (grown_plane k plane)) with (go (bp_v0 plane)). change (bp_v1 (grown_plane k plane)) with (go (bp_v1 plane)).
  assert (Sb : forall a b, v3_sub O (go a) (go b) = go (v3_sub O a b)) by (intros a b; unfold v3_sub, grow; cbn [vx vy vz n_sub real_num]; f_equal; ring).
  assert (Nm : forall a, n_normalize O (go a) = n_normalize O a).
  { assert (En : forall a, n_normalize O a = V3 (vx a / norm a) (vy a / norm a) (vz a / norm a)).
    { clear. intros a. cbn [n_normalize real_num]. unfold normalize_with, norm, inner, Rdiv. f_equal; ring. }
    intros a. rewrite !En. exact (unit_grow k a K). }
  rewrite Sb, Nm. set (ua := n_normalize O _). set (va := v3_cross O _ ua). set (loc := map (move _) us). set (loc' := map (move _) us').
  assert (L : Forall2 kin loc loc').
  { unfold loc, loc'. clear -U Sb. induction U as [|v w l l' (V1 & V2) U IH]; [constructor|]. cbn [map]. constructor; [|exact IH].
    unfold grown_vertex, move. cbn [vt_pos vt_normal vt_tangent vt_color vt_uv]. rewrite V1, Sb. split; [reflexivity|exact V2]. }
  assert (S' : Forall2 kin (sort_by (wind_cmp O ua va) loc) (sort_by (wind_cmp O ua va) loc')).
  { assert (Ins : forall x x' m m', kin x x' -> Forall2 kin m m' -> Forall2 kin (sort_insert (wind_cmp O ua va) x m) (sort_insert (wind_cmp O ua va) x' m')).
    { intros x x' m m' X Q. induction Q as [|a b m m' Ha Q IH]; [constructor; [exact X|constructor]|]. cbn [sort_insert].
      assert (Cm : wind_cmp O ua va b x' = wind_cmp O ua va a x).
      { unfold wind_cmp, angle. destruct Ha as (Ha & _), X as (X & _). rewrite Ha, X, !dot_real.
        assert (Ig : forall x u, inner (go x) u = k * inner x u) by (intros y u; unfold grow; vectors; ring). rewrite !Ig. cbn [n_atan2 n_cmp real_num]. now rewrite !(angle_grown _ Angle). }
      rewrite Cm. destruct (wind_cmp O ua va a x); (constructor; [assumption|]); first [exact IH|now constructor]. }
    unfold sort_by. assert (G : forall l l' m m', Forall2 kin l l' -> Forall2 kin m m' ->
      Forall2 kin (fold_left (fun acc x => sort_insert (wind_cmp O ua va) x acc) l m) (fold_left (fun acc x => sort_insert (wind_cmp O ua va) x acc) l' m')).
    { clear -Ins. intros l l' m m' H. revert m m'. induction H as [|a b l l' Ha H IH]; intros m m' Q; [exact Q|]. cbn [fold_left]. apply IH. now apply Ins. }
    apply G; [exact L|constructor]. }
  set (ss := sort_by _ loc) in *. set (ss' := sort_by _ loc') in *. clearbody ss ss'.
  split; [reflexivity|]. split; [|split; [|reflexivity]].
  - clear -S'. induction S' as [|v w l l' (V1 & V2) U IH]; [constructor|]. cbn [map]. constructor; [|exact IH].
    unfold grown_vertex, move. cbn [vt_pos vt_normal vt_tangent vt_color vt_uv]. rewrite V1. split; [|exact V2].
    unfold v3_add, grow. cbn [vx vy vz n_add real_num]. f_equal; ring.
  - rewrite !map_length. f_equal. symmetry. exact (Forall2_len _ _ _ _ _ S').
Qed.
Theorem brush_grow : forall tx e e' b g, alike_phong e e' -> roomy k b -> build_brush O tx e b = Ok g ->
  exists g', build_brush O tx e' (map (grown_plane k) b) = Ok g' /\ grown_brush k g g'.
Proof.
  intros tx e e' b g Ph Ro. unfold build_brush. destruct (mapM (build_face O tx e b) b) as [fs| | |] eqn:E; try discriminate. cbn [bind]. intros H. apply ok_inj in H. subst g.
  apply mapM_ok in E.
  assert (G : forall l fs, incl l b -> Forall2 (fun pl f => build_face O tx e b pl = Ok f) l fs ->
    exists gs, mapM (build_face O tx e' (map (grown_plane k) b)) (map (grown_plane k) l) = Ok gs /\ Forall2 (grown_face k) fs gs).
  { clear -Ph Ro K Angle Linear. intros l fs Inc H. induction H as [|pl f l fs H F IH]; [exists []; repeat split; constructor|].
    destruct IH as (gs & Eg & Fg); [intros q Iq; apply Inc; now right|].
    destruct (real_total parse cosine radians atan2 quat mat2 tx e' (map (grown_plane k) b) (grown_plane k pl)) as (f' & H').
    exists (f' :: gs). cbn [map mapM]. rewrite H', Eg. split; [reflexivity|]. constructor; [|exact Fg].
    exact (face_grow _ _ _ _ _ _ _ Ph Ro (Inc pl (or_introl eq_refl)) H H'). }
  destruct (G b fs (fun q Iq => Iq) E) as (gs & -> & Fg). cbn [bind]. eexists. split; [reflexivity|]. split; cbn [bg_center bg_faces]; [|exact Fg].
  assert (Mc : map f_center gs = map go (map f_center fs)) by (clear -Fg; induction Fg as [|f g fs gs (A & _) Ff IH]; [reflexivity|]; cbn [map]; now rewrite A, IH).
  rewrite Mc. apply mean_grow.
Qed.
Theorem face_grown : forall tx e planes plane f, roomy k planes -> In plane planes -> build_face O tx e planes plane = Ok f ->
  exists f', build_face O tx e (map (grown_plane k) planes) (grown_plane k plane) = Ok f' /\ grown_face k f f'.
Proof.
  intros tx e planes plane f Ro Ip H. destruct (real_total parse cosine radians atan2 quat mat2 tx e (map (grown_plane k) planes) (grown_plane k plane)) as (f' & H').
  exists f'. split; [exact H'|]. exact (face_grow _ _ _ _ _ _ _ (conj eq_refl eq_refl) Ro Ip H H').
Qed.
Theorem brush_grown : forall tx e b g, roomy k b -> build_brush O tx e b = Ok g ->
  exists g', build_brush O tx e (map (grown_plane k) b) = Ok g' /\ grown_brush k g g'.
Proof. intros tx e b g. exact (brush_grow tx e e b g (conj eq_refl eq_refl)). Qed.
End Scale.
