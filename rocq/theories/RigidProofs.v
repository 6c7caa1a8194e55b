(** Turning and moving a brush: lemmas for C119. *)
From Coq Require Import Reals Lra Psatz.
From Flocq Require Import Core.
From Verif Require Import Prelude F32 Text MapModel GeoModel SceneModel GatherSpec GeoSpec RealSpec WindSpec RigidSpec BaseProofs GeoProofs RealProofs WindProofs ShiftProofs ReworkProofs.
Local Open Scope R_scope.

Section Rigid.
Context (parse : str -> option R) (cosine radians : R -> R) (atan2 : R -> R -> R)
  (quat : vec3 R -> R -> vec3 R -> vec3 R) (mat2 : R -> vec2 R -> vec2 R).
Local Notation O := (real_num parse cosine radians atan2 quat mat2).
Context (M : vec3 R -> vec3 R) (t : vec3 R) (Rot : rotation M).
Local Notation go := (carry M t).

Lemma turn_add : forall a b, M (along b a) = along (M b) (M a). Proof. apply Rot. Qed.
Lemma turn_scale : forall k a, M (scaled k a) = scaled k (M a). Proof. intros k a. apply Rot. Qed.
Lemma turn_inner : forall a b, inner (M a) (M b) = inner a b. Proof. apply Rot. Qed.
Lemma turn_outer : forall a b, outer (M a) (M b) = M (outer a b). Proof. apply Rot. Qed.
Lemma minus_as : forall a b, minus a b = along (scaled (-1) b) a.
Proof. intros a b. unfold along. apply v3_ext; vectors; ring. Qed.
Lemma turn_minus : forall a b, M (minus a b) = minus (M a) (M b).
Proof. intros a b. now rewrite !minus_as, turn_add, turn_scale. Qed.
Lemma go_minus : forall a b, minus (go a) (go b) = M (minus a b).
Proof. intros a b. rewrite turn_minus. unfold carry. generalize (M a) (M b); intros x y. unfold along. apply v3_ext; vectors; ring. Qed.
Lemma turn_zero : M (V3 0 0 0) = V3 0 0 0.
Proof.
  assert (H : V3 0 0 0 = scaled 0 (V3 0 0 0)) by (apply v3_ext; vectors; ring). rewrite H, turn_scale at 1.
  generalize (M (V3 0 0 0)); intros x. apply v3_ext; vectors; ring.
Qed.
Lemma turn_norm : forall a, norm (M a) = norm a.
Proof. intros a. unfold norm. now rewrite turn_inner. Qed.
Lemma inner_zero : forall a, inner a a = 0 -> a = V3 0 0 0.
Proof. intros [x y z]. unfold inner. cbn [vx vy vz]. intros H. f_equal; nra. Qed.
Lemma turn_inj : forall a b, M a = M b -> a = b.
Proof.
  intros a b H. assert (Z : minus a b = V3 0 0 0).
  { apply inner_zero. rewrite <- turn_inner, turn_minus, H. generalize (M b); intros x. vectors. ring. }
  destruct a as [a1 a2 a3], b as [b1 b2 b3]. unfold minus in Z. cbn [vx vy vz] in Z. inversion Z. f_equal; lra.
Qed.
Lemma go_inj : forall a b, go a = go b -> a = b.
Proof.
  intros a b H. apply turn_inj. unfold carry, along in H. destruct (M a) as [a1 a2 a3], (M b) as [b1 b2 b3]. cbn [vx vy vz] in H. inversion H. f_equal; lra.
Qed.
(** A rotation reaches every vector: [M] of the coordinates along the images of the axes. *)
Lemma turn_onto : forall y, exists x, M x = y.
Proof.
  set (e1 := V3 1 0 0) in *. set (e2 := V3 0 1 0) in *. set (e3 := V3 0 0 1) in *. intros y.
  set (p := M e1). set (q := M e2). set (r := M e3).
  assert (Pq : outer p q = r) by (unfold p, q, r; rewrite turn_outer; f_equal; unfold e1, e2, e3; apply v3_ext; vectors; ring).
  assert (Pp : inner p p = 1) by (unfold p; rewrite turn_inner; unfold e1; vectors; ring).
  assert (Qq : inner q q = 1) by (unfold q; rewrite turn_inner; unfold e2; vectors; ring).
  assert (PQ : inner p q = 0) by (unfold p, q; rewrite turn_inner; unfold e1, e2; vectors; ring).
  exists (V3 (inner p y) (inner q y) (inner r y)).
  assert (D : V3 (inner p y) (inner q y) (inner r y) = along (scaled (inner r y) e3) (along (scaled (inner q y) e2) (scaled (inner p y) e1))).
  { generalize (inner p y) (inner q y) (inner r y); intros a b c. unfold e1, e2, e3, along. apply v3_ext; vectors; ring. }
  rewrite D, !turn_add, !turn_scale. fold p q r. rewrite <- Pq. clear D r Pq.
  assert (E : scaled (inner p p * inner q q - inner p q * inner p q) y =
    along (scaled (inner (outer p q) y) (outer p q)) (along (scaled (inner q y * inner p p - inner p y * inner p q) q) (scaled (inner p y * inner q q - inner q y * inner p q) p))).
  { clear Pp Qq PQ. clearbody p q. destruct p as [p1 p2 p3], q as [q1 q2 q3], y as [y1 y2 y3]. unfold along. apply v3_ext; vectors; ring. }
  rewrite Pp, Qq, PQ in E.
  replace (inner q y * 1 - inner p y * 0) with (inner q y) in E by ring. replace (inner p y * 1 - inner q y * 0) with (inner p y) in E by ring.
  rewrite <- E. clear. destruct y as [y1 y2 y3]. apply v3_ext; vectors; ring.
Qed.
Lemma go_onto : forall y, exists x, go x = y.
Proof.
  intros y. destruct (turn_onto (minus y t)) as (x & H). exists x. unfold carry. rewrite H. unfold along. apply v3_ext; vectors; ring.
Qed.

(** ** Planes *)
Lemma facing_go : forall pl, facing (carried_plane M t pl) = M (facing pl).
Proof. intros pl. unfold facing. cbn [carried_plane bp_v0 bp_v1 bp_v2]. now rewrite !go_minus, turn_outer. Qed.
Lemma normal_go : forall pl, plane_normal O (carried_plane M t pl) = M (plane_normal O pl).
Proof.
  intros pl. rewrite !normal_real, facing_go, turn_norm.
  assert (E : forall (k : R) a, V3 (vx a / k) (vy a / k) (vz a / k) = scaled (/ k) a) by (intros k a; apply v3_ext; vectors; unfold Rdiv; ring).
  now rewrite !E, turn_scale.
Qed.
Lemma go_inner : forall n x, inner (M n) (go x) = inner n x + inner (M n) t.
Proof.
  intros n x. rewrite <- (turn_inner n x). unfold carry. generalize (M n) (M x); intros a b. unfold along. vectors. ring.
Qed.
Lemma dist_go : forall pl, plane_dist O (carried_plane M t pl) = plane_dist O pl + inner (M (plane_normal O pl)) t.
Proof. intros pl. unfold plane_dist. rewrite normal_go, !dot_real. cbn [carried_plane bp_v0]. apply go_inner. Qed.
Lemma on_plane_go : forall pl x, on_plane (carried_plane M t pl) (go x) <-> on_plane pl x.
Proof. intros pl x. unfold on_plane. rewrite facing_go. cbn [carried_plane bp_v0]. rewrite go_minus, turn_inner. reflexivity. Qed.
Lemma intersect_go : forall p0 p1 p2,
  intersect_planes O (carried_plane M t p0) (carried_plane M t p1) (carried_plane M t p2) = option_map go (intersect_planes O p0 p1 p2).
Proof.
  intros p0 p1 p2.
  assert (H : forall x, intersect_planes O (carried_plane M t p0) (carried_plane M t p1) (carried_plane M t p2) = Some (go x) <-> intersect_planes O p0 p1 p2 = Some x).
  { intros x. rewrite !intersect_iff. unfold proper, spans. rewrite !facing_go, !on_plane_go, !turn_norm, turn_outer, turn_inner. reflexivity. }
  destruct (intersect_planes O p0 p1 p2) as [x|] eqn:E; cbn [option_map]; [now apply H|].
  destruct (intersect_planes O (carried_plane M t p0) (carried_plane M t p1) (carried_plane M t p2)) as [y|] eqn:F; [|reflexivity].
  destruct (go_onto y) as (x & <-). pose proof (proj1 (H x) eq_refl) as Q. discriminate Q.
Qed.
Lemma hull_go : forall x planes, vertex_in_hull O (go x) (map (carried_plane M t) planes) = vertex_in_hull O x planes.
Proof.
  intros x planes. unfold vertex_in_hull. induction planes as [|q l IH]; [reflexivity|]. cbn [map forallb]. rewrite IH. f_equal. f_equal.
  rewrite normal_go, dist_go, !dot_real, go_inner. unfold n_gtb. cbn [n_cmp n_sub real_num]. rewrite Rcompare_plus_r.
  generalize (inner (M (plane_normal O q)) t); intros k.
  replace (inner (plane_normal O q) x + k - (plane_dist O q + k)) with (inner (plane_normal O q) x - plane_dist O q) by ring.
  reflexivity.
Qed.
Lemma add_go : forall a b, v3_add O (M a) (M b) = M (v3_add O a b).
Proof. intros a b. change (v3_add O a b) with (along b a). now rewrite turn_add. Qed.
Lemma sub_go : forall a b, v3_sub O (go a) (go b) = M (v3_sub O a b).
Proof. intros a b. change (v3_sub O (go a) (go b)) with (minus (go a) (go b)). apply go_minus. Qed.
Lemma normalize_go : forall a, n_normalize O (M a) = M (n_normalize O a).
Proof.
  intros a. assert (E : forall a, n_normalize O a = scaled (/ norm a) a).
  { clear. intros a. cbn [n_normalize real_num]. unfold normalize_with, norm, inner, scaled, Rdiv. f_equal; ring. }
  now rewrite !E, turn_norm, turn_scale.
Qed.
Definition alike_phong (e e' : entity R) : Prop :=
  get_property e' (lit "_phong") = get_property e (lit "_phong") /\ get_property e' (lit "_phong_angle") = get_property e (lit "_phong_angle").
Lemma vertex_normal_go : forall e e' p0 p1 p2, alike_phong e e' ->
  vertex_normal O e' (carried_plane M t p0) (carried_plane M t p1) (carried_plane M t p2) = M (vertex_normal O e p0 p1 p2).
Proof.
  intros e e' p0 p1 p2 (P & Q). unfold vertex_normal, is_phong. rewrite P, Q. destruct (match get_property e (lit "_phong") with Some s => str_eqb s (lit "1") | None => false end);
    [|apply normal_go].
  unfold phong_normal. rewrite !normal_go, !dot_real, !turn_inner.
  destruct (get_property e (lit "_phong_angle")) as [s|]; [|now rewrite !add_go, normalize_go].
  destruct (n_parse O s) as [a|]; [|now rewrite !add_go, normalize_go].
  cbv zeta. destruct (n_gtb O (inner (plane_normal O p0) (plane_normal O p1)) _), (n_gtb O (inner (plane_normal O p0) (plane_normal O p2)) _);
    rewrite ?add_go; apply normalize_go.
Qed.

(** ** Vertices *)
Lemma tangent_go : forall pl tg, locked pl -> vertex_tangent O pl = Ok tg -> vertex_tangent O (carried_plane M t pl) = Ok (M (fst tg), snd tg).
Proof.
  intros pl tg (ua & uo & va & vo & E). unfold vertex_tangent. cbn [carried_plane bp_uv]. rewrite E. cbn [carried_uv]. intros H. injection H as <-. cbn [fst snd].
  rewrite normal_go, !dot_real, !cross_real, turn_outer, turn_inner. reflexivity.
Qed.
Lemma tangent_total : forall pl, exists tg, vertex_tangent O pl = Ok tg.
Proof.
  intros pl. unfold vertex_tangent. destruct (bp_uv pl); [|eexists; reflexivity]. unfold standard_tangent.
  assert (Geb : forall a b, n_geb O a b = false -> n_geb O b a = true).
  { intros a b. unfold n_geb. cbn [n_cmp real_num]. destruct (Rcompare_spec a b), (Rcompare_spec b a); try discriminate; try reflexivity; lra. }
  assert (Tr : forall a b c, n_geb O a b = true -> n_geb O b c = true -> n_geb O a c = true).
  { intros a b c. unfold n_geb. cbn [n_cmp real_num]. destruct (Rcompare_spec a b), (Rcompare_spec b c), (Rcompare_spec a c); try discriminate; try reflexivity; lra. }
  set (a := n_abs O _). set (b := n_abs O (v3_dot O _ (right_vector O))). set (c := n_abs O (v3_dot O _ (forward_vector O))). clearbody a b c.
  destruct (n_geb O a b) eqn:AB, (n_geb O a c) eqn:AC; cbn [andb]; try (eexists; reflexivity).
  - rewrite (Geb _ _ AC). destruct (n_geb O b a && n_geb O b c); [eexists; reflexivity|]. rewrite (Tr _ _ _ (Geb _ _ AC) AB). eexists; reflexivity.
  - rewrite (Geb _ _ AB), (Tr _ _ _ (Geb _ _ AB) AC). eexists; reflexivity.
  - rewrite (Geb _ _ AB). destruct (n_geb O b c) eqn:BC; [eexists; reflexivity|]. cbn [andb]. rewrite (Geb _ _ AC), (Geb _ _ BC). eexists; reflexivity.
Qed.
Lemma uv_go : forall pl x size, locked pl -> vertex_uv O (go x) (carried_plane M t pl) size = vertex_uv O x pl size.
Proof.
  intros pl x size (ua & uo & va & vo & E). unfold vertex_uv. cbn [carried_plane bp_uv bp_scale]. rewrite E. cbn [carried_uv].
  rewrite !dot_real, !go_inner. generalize (inner ua x) (inner va x) (inner (M ua) t) (inner (M va) t). intros a b c d.
  f_equal. unfold v2_add, v2_div. cbn [ux uy n_add n_div real_num]. unfold Rdiv. f_equal; ring.
Qed.
Lemma uv_total : forall pl x size, exists r, vertex_uv O x pl size = Ok r.
Proof.
  intros pl x size. unfold vertex_uv. destruct (bp_uv pl) as [u v|]; [|eexists; reflexivity].
  assert (Geb : forall a b, n_geb O a b = false -> n_geb O b a = true).
  { intros a b. unfold n_geb. cbn [n_cmp real_num]. destruct (Rcompare_spec a b), (Rcompare_spec b a); try discriminate; try reflexivity; lra. }
  assert (Tr : forall a b c, n_geb O a b = true -> n_geb O b c = true -> n_geb O a c = true).
  { intros a b c. unfold n_geb. cbn [n_cmp real_num]. destruct (Rcompare_spec a b), (Rcompare_spec b c), (Rcompare_spec a c); try discriminate; try reflexivity; lra. }
  set (a := n_abs O _). set (b := n_abs O (v3_dot O _ (right_vector O))). set (c := n_abs O (v3_dot O _ (forward_vector O))). clearbody a b c.
  destruct (n_geb O a b) eqn:AB, (n_geb O a c) eqn:AC; cbn [andb bind]; try (eexists; reflexivity).
  - rewrite (Geb _ _ AC). destruct (n_geb O b a && n_geb O b c); [eexists; reflexivity|]. rewrite (Tr _ _ _ (Geb _ _ AC) AB). eexists; reflexivity.
  - rewrite (Geb _ _ AB), (Tr _ _ _ (Geb _ _ AB) AC). eexists; reflexivity.
  - rewrite (Geb _ _ AB). destruct (n_geb O b c) eqn:BC; [eexists; reflexivity|]. cbn [andb]. rewrite (Geb _ _ AC), (Geb _ _ BC). eexists; reflexivity.
Qed.

Definition carried_or (lock : Prop) : option (vertex R) -> option (vertex R) -> Prop := fun a b =>
  match a, b with Some v, Some w => carried_vertex M t lock v w | None, None => True | _, _ => False end.
Lemma vertex_go : forall tex e e' planes plane p1 p2 a b, alike_phong e e' ->
  build_plane_vertex O tex e planes plane p1 p2 = Ok a ->
  build_plane_vertex O tex e' (map (carried_plane M t) planes) (carried_plane M t plane) (carried_plane M t p1) (carried_plane M t p2) = Ok b ->
  carried_or (locked plane) a b.
Proof.
  intros tex e e' planes plane p1 p2 a b P. unfold build_plane_vertex. rewrite intersect_go, (vertex_normal_go _ _ _ _ _ P).
  destruct (intersect_planes O plane p1 p2) as [x|]; cbn [option_map]; [|intros H1 H2; inv H1; inv H2; exact I].
  rewrite hull_go. destruct (vertex_in_hull O x planes); [|intros H1 H2; inv H1; inv H2; exact I].
  destruct (tangent_total plane) as (tg & Tg). destruct (tangent_total (carried_plane M t plane)) as (tg' & Tg'). rewrite Tg, Tg'. cbn [bind].
  change (bp_extra (carried_plane M t plane)) with (bp_extra plane).
  destruct tex as [size|]; cbn [bind].
  - destruct (uv_total plane x size) as (r & Ru). destruct (uv_total (carried_plane M t plane) (go x) size) as (r' & Ru'). rewrite Ru, Ru'. cbn [bind].
    intros H1 H2. inv H1. inv H2. cbn [carried_or]. unfold carried_vertex. cbn [vt_pos vt_normal vt_tangent vt_uv vt_color]. repeat split.
    + rewrite (tangent_go _ _ H Tg) in Tg'. now inv Tg'.
    + rewrite (uv_go _ _ _ H), Ru in Ru'. now inv Ru'.
  - intros H1 H2. inv H1. inv H2. cbn [carried_or]. unfold carried_vertex. cbn [vt_pos vt_normal vt_tangent vt_uv vt_color]. repeat split.
    rewrite (tangent_go _ _ H Tg) in Tg'. now inv Tg'.
Qed.
Lemma vertices_go : forall tex e e' planes plane vs ws, alike_phong e e' ->
  plane_vertices O tex e planes plane = Ok vs -> plane_vertices O tex e' (map (carried_plane M t) planes) (carried_plane M t plane) = Ok ws ->
  Forall2 (carried_vertex M t (locked plane)) vs ws.
Proof.
  intros tex e e' planes plane vs ws P. unfold plane_vertices. rewrite list_prod_map.
  destruct (mapM _ (list_prod planes planes)) as [a| | |] eqn:A; try discriminate. cbn [bind]. intros H; inv H.
  match goal with |- context [mapM ?f ?l] => destruct (mapM f l) as [b| | |] eqn:B end; try discriminate. cbn [bind]. intros H; inv H.
  apply mapM_ok in A, B. revert b B. induction A as [|[q1 q2] o l l' H A IH]; intros b B; inversion_clear B as [|? o' ? b' H' B']; [constructor|].
  cbn [filter_map]. specialize (IH _ B'). pose proof (vertex_go _ _ _ _ _ _ _ _ _ P H H') as Q. destruct o, o'; cbn in Q; try contradiction; auto.
Qed.

Lemma eqb_iff : forall a b, v3_eqb O a b = true <-> a = b.
Proof.
  intros [a1 a2 a3] [b1 b2 b3]. unfold v3_eqb, n_eqb. cbn [vx vy vz n_cmp real_num].
  destruct (Rcompare_spec a1 b1), (Rcompare_spec a2 b2), (Rcompare_spec a3 b3); cbn [andb]; split; intros Q; try discriminate Q; try (inversion Q; lra); congruence.
Qed.
Lemma eqb_inj : forall f x y, (forall a b, f a = f b -> a = b) -> v3_eqb O (f x) (f y) = v3_eqb O x y.
Proof.
  intros f x y I. destruct (v3_eqb O x y) eqn:E.
  - apply eqb_iff in E. subst y. now apply eqb_iff.
  - destruct (v3_eqb O (f x) (f y)) eqn:F; [|reflexivity]. apply eqb_iff, I, eqb_iff in F. congruence.
Qed.
Lemma eqb_go : forall x y, v3_eqb O (go x) (go y) = v3_eqb O x y.
Proof. intros x y. apply eqb_inj. apply go_inj. Qed.

Section Lock.
Context (lock : Prop).
Local Notation kin := (carried_vertex M t lock).
Lemma eqb_kin : forall v v' w w', kin v v' -> kin w w' -> v3_eqb O (vt_pos v') (vt_pos w') = v3_eqb O (vt_pos v) (vt_pos w).
Proof. intros v v' w w' (-> & _) (-> & _). apply eqb_go. Qed.
Lemma existsb_kin : forall v v' l l', kin v v' -> Forall2 kin l l' ->
  existsb (fun c => v3_eqb O (vt_pos c) (vt_pos v')) l' = existsb (fun c => v3_eqb O (vt_pos c) (vt_pos v)) l.
Proof. intros v v' l l' V H. induction H as [|a b l l' A H IH]; [reflexivity|]. cbn [existsb]. rewrite IH, (eqb_kin _ _ _ _ A V). reflexivity. Qed.
Lemma set_normal_kin : forall v v' n, kin v v' -> kin (set_normal v n) (set_normal v' (M n)).
Proof. intros v v' n (A & B & C & D). split; [exact A|]. split; [reflexivity|]. split; [exact C|exact D]. Qed.
Lemma unique_kin : forall ph vs ws, Forall2 kin vs ws -> Forall2 kin (unique_vertices O ph vs) (unique_vertices O ph ws).
Proof.
  intros ph vs ws H. induction H as [|v w l l' V H IH]; [constructor|]. cbn [unique_vertices].
  rewrite (existsb_kin _ _ _ _ V H). destruct (existsb _ l); [exact IH|]. constructor; [|exact IH]. destruct ph; [|exact V].
  assert (Fd : kin
      (fold_left (fun acc next => if v3_eqb O (vt_pos next) (vt_pos acc) then set_normal acc (vt_normal next) else acc) l v)
      (fold_left (fun acc next => if v3_eqb O (vt_pos next) (vt_pos acc) then set_normal acc (vt_normal next) else acc) l' w)).
  { clear IH. revert v w V. induction H as [|a b l l' A H IH]; intros v w V; [exact V|]. cbn [fold_left]. apply IH.
    rewrite (eqb_kin _ _ _ _ A V). destruct (v3_eqb O (vt_pos a) (vt_pos v)); [|exact V].
    replace (vt_normal b) with (M (vt_normal a)) by (symmetry; apply A). now apply set_normal_kin. }
  cbv zeta. pose proof Fd as (_ & N & _). rewrite N, normalize_go. now apply set_normal_kin.
Qed.
End Lock.

Lemma sum_go : forall l s k, fold_left (v3_add O) (map go l) (along (scaled k t) (M s)) = along (scaled (k + INR (length l)) t) (M (fold_left (v3_add O) l s)).
Proof.
  induction l as [|a l IH]; intros s k; cbn [map fold_left length].
  - cbn [INR]. f_equal. f_equal. ring.
  - rewrite S_INR. replace (v3_add O (along (scaled k t) (M s)) (go a)) with (along (scaled (k + 1) t) (M (v3_add O s a))).
    + rewrite IH. f_equal. f_equal. ring.
    + change (v3_add O s a) with (along a s). rewrite turn_add. unfold carry. generalize (M a) (M s); intros x y. unfold v3_add, along. cbn [n_add real_num]. apply v3_ext; vectors; ring.
Qed.
Lemma mean_go : forall l, l <> [] -> mean O (map go l) = go (mean O l).
Proof.
  intros l N. assert (L : INR (length l) <> 0) by (destruct l; [contradiction|apply not_0_INR; discriminate]).
  unfold mean. rewrite map_length. replace (Nat.max (length l) 1) with (length l) by (destruct l; [contradiction|cbn; lia]).
  assert (E : n_of_N O (N.of_nat (length l)) = INR (length l)) by (cbn; rewrite nat_N_Z, INR_IZR_INZ; reflexivity). rewrite E.
  pose proof (sum_go l (v3_zero O) 0) as Sm.
  replace (along (scaled 0 t) (M (v3_zero O))) with (v3_zero O) in Sm
    by (change (v3_zero O) with (V3 0 0 0); rewrite turn_zero; unfold along; apply v3_ext; vectors; ring).
  rewrite Sm. generalize (fold_left (v3_add O) l (v3_zero O)); intros s. unfold carry.
  assert (Dv : forall a, v3_divs O a (INR (length l)) = scaled (/ INR (length l)) a).
  { intros a. unfold v3_divs. cbn [n_div real_num]. apply v3_ext; vectors; unfold Rdiv; ring. }
  rewrite !Dv, turn_scale. generalize (M s); intros x. unfold along. apply v3_ext; vectors; field; exact L.
Qed.

(** ** Faces *)
Theorem face_go : forall tx e e' planes plane f f', alike_phong e e' ->
  build_face O tx e planes plane = Ok f ->
  build_face O tx e' (map (carried_plane M t) planes) (carried_plane M t plane) = Ok f' -> carried_face M t (locked plane) f f'.
Proof.
  intros tx e e' planes plane f f' Ph. unfold build_face. change (bp_texture (carried_plane M t plane)) with (bp_texture plane).
  destruct (plane_vertices O (hget tx (bp_texture plane)) e planes plane) as [vs| | |] eqn:E; try discriminate. cbn [bind]. intros H. apply ok_inj in H. subst f.
  destruct (plane_vertices O (hget tx (bp_texture plane)) e' (map (carried_plane M t) planes) (carried_plane M t plane)) as [ws| | |] eqn:E'; try discriminate.
  cbn [bind]. intros H. apply ok_inj in H. subst f'. unfold carried_face. cbn [f_center f_vertices f_indices f_texture].
  assert (Eph : is_phong e' = is_phong e) by (unfold is_phong; now rewrite (proj1 Ph)). rewrite Eph.
  pose proof (unique_kin _ (is_phong e) _ _ (vertices_go _ _ _ _ _ _ _ Ph E E')) as U.
  set (us := unique_vertices O (is_phong e) vs) in *. set (us' := unique_vertices O (is_phong e) ws) in *. clearbody us us'.
  assert (P : map vt_pos us' = map go (map vt_pos us)).
  { clear -U. induction U as [|v w l l' (V & _) U IH]; [reflexivity|]. cbn [map]. now rewrite IH, V. }
  destruct us as [|v0 us0] eqn:Eu.
  { inversion U; subst us'. split; [intros Q; now contradiction Q|]. repeat split. constructor. }
  rewrite <- Eu in *. assert (Nu : map vt_pos us <> []) by (rewrite Eu; discriminate).
  rewrite P, (mean_go _ Nu). generalize (mean O (map vt_pos us)); intros c.
  rewrite normal_go. change (bp_v0 (carried_plane M t plane)) with (go (bp_v0 plane)). change (bp_v1 (carried_plane M t plane)) with (go (bp_v1 plane)).
  rewrite sub_go, normalize_go, cross_real, turn_outer.
  set (ua := n_normalize O _). rewrite <- (cross_real parse cosine radians atan2 quat mat2). set (va := v3_cross O _ ua).
  set (loc := map (move _) us). set (loc' := map (move _) us').
  set (near := fun a b : vertex R => vt_pos b = M (vt_pos a) /\ vt_normal b = M (vt_normal a) /\ vt_color b = vt_color a /\
    (locked plane -> vt_tangent b = (M (fst (vt_tangent a)), snd (vt_tangent a)) /\ vt_uv b = vt_uv a)).
  assert (L : Forall2 near loc loc').
  { unfold loc, loc'. clear -U Rot. induction U as [|v w l l' (V1 & V2 & V3' & V4) U IH]; [constructor|]. cbn [map]. constructor; [|exact IH].
    unfold near, move. cbn [vt_pos vt_normal vt_tangent vt_color vt_uv]. rewrite V1, sub_go. repeat split; auto; now apply V4. }
  assert (S' : Forall2 near (sort_by (wind_cmp O ua va) loc) (sort_by (wind_cmp O (M ua) (M va)) loc')).
  { assert (Ins : forall x x' m m', near x x' -> Forall2 near m m' -> Forall2 near (sort_insert (wind_cmp O ua va) x m) (sort_insert (wind_cmp O (M ua) (M va)) x' m')).
    { intros x x' m m' X Q. induction Q as [|a b m m' Ha Q IH]; [constructor; [exact X|constructor]|]. cbn [sort_insert].
      assert (Cm : wind_cmp O (M ua) (M va) b x' = wind_cmp O ua va a x).
      { unfold wind_cmp, angle. destruct Ha as (Ha & _), X as (X & _). rewrite Ha, X, !dot_real, !turn_inner. reflexivity. }
      rewrite Cm. destruct (wind_cmp O ua va a x); (constructor; [assumption|]); first [exact IH|now constructor]. }
    unfold sort_by. assert (G : forall l l' m m', Forall2 near l l' -> Forall2 near m m' ->
      Forall2 near (fold_left (fun acc x => sort_insert (wind_cmp O ua va) x acc) l m) (fold_left (fun acc x => sort_insert (wind_cmp O (M ua) (M va)) x acc) l' m')).
    { clear -Ins. intros l l' m m' H. revert m m'. induction H as [|a b l l' Ha H IH]; intros m m' Q; [exact Q|]. cbn [fold_left]. apply IH. now apply Ins. }
    apply G; [exact L|constructor]. }
  set (ss := sort_by _ loc) in *. set (ss' := sort_by _ loc') in *. clearbody ss ss'.
  split; [reflexivity|]. split; [|split; [|reflexivity]].
  - clear -S' Rot. induction S' as [|v w l l' (V1 & V2 & V3' & V4) U IH]; [constructor|]. cbn [map]. constructor; [|exact IH].
    unfold carried_vertex, move. cbn [vt_pos vt_normal vt_tangent vt_color vt_uv]. rewrite V1. repeat split; auto; try now apply V4.
    change (v3_add O (vt_pos v) c) with (along c (vt_pos v)). unfold carry. rewrite turn_add. generalize (M (vt_pos v)) (M c); intros x y.
    unfold v3_add, along. cbn [n_add real_num]. apply v3_ext; vectors; ring.
  - rewrite !map_length. f_equal. symmetry. exact (Forall2_len _ _ _ _ _ S').
Qed.

Theorem brush_go : forall tx e e' b g, alike_phong e e' -> build_brush O tx e b = Ok g ->
  exists g', build_brush O tx e' (map (carried_plane M t) b) = Ok g' /\ carried_brush M t (forall pl, In pl b -> locked pl) g g'.
Proof.
  intros tx e e' b g Ph. unfold build_brush. destruct (mapM (build_face O tx e b) b) as [fs| | |] eqn:E; try discriminate. cbn [bind]. intros H. inv H.
  apply mapM_ok in E.
  assert (G : forall l fs, Forall2 (fun pl f => build_face O tx e b pl = Ok f) l fs ->
    exists gs, mapM (build_face O tx e' (map (carried_plane M t) b)) (map (carried_plane M t) l) = Ok gs /\
      Forall2 (fun fg pl => carried_face M t (locked pl) (fst fg) (snd fg)) (combine fs gs) l /\ length gs = length fs).
  { clear -Ph Rot. intros l fs H. induction H as [|pl f l fs H F IH]; [exists []; repeat split; constructor|]. destruct IH as (gs & Eg & Fg & Lg).
    destruct (real_total parse cosine radians atan2 quat mat2 tx e' (map (carried_plane M t) b) (carried_plane M t pl)) as (f' & H').
    exists (f' :: gs). cbn [map mapM]. rewrite H', Eg. split; [reflexivity|]. split; [|cbn; congruence]. cbn [combine]. constructor; [|exact Fg].
    cbn [fst snd]. exact (face_go _ _ _ _ _ _ _ Ph H H'). }
  destruct (G _ _ E) as (gs & Eg & Fg & Lg). rewrite Eg. cbn [bind]. eexists. split; [reflexivity|]. clear G.
  assert (Ff : Forall2 (carried_face M t (forall pl, In pl b -> locked pl)) fs gs).
  { assert (Gen : forall l, (forall pl, In pl l -> In pl b) -> Forall2 (fun fg pl => carried_face M t (locked pl) (fst fg) (snd fg)) (combine fs gs) l ->
      Forall2 (carried_face M t (forall pl, In pl b -> locked pl)) fs gs).
    { clear -Lg. revert gs Lg. induction fs as [|f fs IH]; intros [|g gs] Lg l Il H; try discriminate Lg; [constructor|]. cbn [combine] in H.
      inversion H as [|? pl ? l' Hf Hl]; subst. constructor.
      - destruct Hf as (A & B & C & D). cbn [fst snd] in *. split; [exact A|]. split; [|split; assumption].
        eapply Forall2_impl; [|exact B]. intros v w (V1 & V2 & V3' & V4). split; [exact V1|]. split; [exact V2|]. split; [exact V3'|].
        intros Lk. apply V4, Lk, Il. now left.
      - apply (IH gs) with (l := l'); [cbn in Lg; congruence| |exact Hl]. intros q Iq. apply Il. now right. }
    apply (Gen b); auto. }
  split; [|exact Ff]. cbn [bg_center bg_faces]. intros (Ne & Fu). cbn [bg_faces] in Ne, Fu.
  assert (Mc : map f_center gs = map go (map f_center fs)).
  { clear -Ff Fu. induction Ff as [|f g fs gs (A & _) Ff IH]; [reflexivity|]. cbn [map]. rewrite A by (apply Fu; now left). f_equal.
    apply IH. intros x Ix. apply Fu. now right. }
  rewrite Mc. apply mean_go. destruct fs; [contradiction|discriminate].
Qed.
End Rigid.
Theorem face_carried : forall parse cosine radians atan2 quat mat2 M t tx e planes plane f, rotation M ->
  build_face (real_num parse cosine radians atan2 quat mat2) tx e planes plane = Ok f ->
  exists f', build_face (real_num parse cosine radians atan2 quat mat2) tx e (map (carried_plane M t) planes) (carried_plane M t plane) = Ok f' /\
    carried_face M t (locked plane) f f'.
Proof.
  intros parse cosine radians atan2 quat mat2 M t tx e planes plane f Rot H.
  destruct (real_total parse cosine radians atan2 quat mat2 tx e (map (carried_plane M t) planes) (carried_plane M t plane)) as (f' & H').
  exists f'. split; [exact H'|]. refine (face_go _ _ _ _ _ _ M t Rot tx e e planes plane f f' _ H H'). split; reflexivity.
Qed.
Theorem brush_carried : forall parse cosine radians atan2 quat mat2 M t tx e b g, rotation M ->
  build_brush (real_num parse cosine radians atan2 quat mat2) tx e b = Ok g ->
  exists g', build_brush (real_num parse cosine radians atan2 quat mat2) tx e (map (carried_plane M t) b) = Ok g' /\
    carried_brush M t (forall pl, In pl b -> locked pl) g g'.
Proof.
  intros parse cosine radians atan2 quat mat2 M t tx e b g Rot H. refine (brush_go _ _ _ _ _ _ M t Rot tx e e b g _ H). split; reflexivity.
Qed.
