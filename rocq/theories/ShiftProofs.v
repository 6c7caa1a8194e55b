(** Moving a brush (C73). *)
From Coq Require Import Reals Lra Psatz Permutation Sorted.
From Flocq Require Import Core.
From Verif Require Import Prelude F32 Text MapModel GeoModel GatherSpec GeoSpec RealSpec WindSpec BaseProofs GeoProofs RealProofs WindProofs.
Local Open Scope R_scope.

Section Shift.
Context (parse : str -> option R) (cosine radians : R -> R) (atan2 : R -> R -> R)
  (quat : vec3 R -> R -> vec3 R -> vec3 R) (mat2 : R -> vec2 R -> vec2 R).
Local Notation O := (real_num parse cosine radians atan2 quat mat2).
Context (t : vec3 R).
Ltac vecs := unfold moved_plane, along in *; cbn [bp_v0 bp_v1 bp_v2] in *; vectors.

Lemma facing_shift : forall pl, facing (moved_plane t pl) = facing pl.
Proof. intros pl. unfold facing. apply v3_ext; vecs; ring. Qed.
Lemma normal_shift : forall pl, plane_normal O (moved_plane t pl) = plane_normal O pl.
Proof. intros pl. rewrite !normal_real, facing_shift. reflexivity. Qed.
Lemma dist_shift : forall pl, plane_dist O (moved_plane t pl) = plane_dist O pl + inner (plane_normal O pl) t.
Proof. intros pl. unfold plane_dist. rewrite normal_shift, !dot_real. vecs. ring. Qed.
Lemma on_plane_shift : forall pl x, on_plane (moved_plane t pl) (along t x) <-> on_plane pl x.
Proof.
  intros pl x. unfold on_plane. rewrite facing_shift. replace (minus (along t x) (bp_v0 (moved_plane t pl))) with (minus x (bp_v0 pl)); [reflexivity|].
  apply v3_ext; vecs; ring.
Qed.
Lemma along_back : forall x, along t (minus x t) = x.
Proof. intros x. apply v3_ext; vecs; ring. Qed.
Lemma intersect_shift : forall p0 p1 p2,
  intersect_planes O (moved_plane t p0) (moved_plane t p1) (moved_plane t p2) = option_map (along t) (intersect_planes O p0 p1 p2).
Proof.
  intros p0 p1 p2.
  assert (H : forall x, intersect_planes O (moved_plane t p0) (moved_plane t p1) (moved_plane t p2) = Some (along t x) <-> intersect_planes O p0 p1 p2 = Some x).
  { intros x. rewrite !intersect_iff. unfold proper, spans. rewrite !facing_shift, !on_plane_shift. reflexivity. }
  destruct (intersect_planes O p0 p1 p2) as [x|] eqn:E; cbn [option_map]; [now apply H|].
  destruct (intersect_planes O (moved_plane t p0) (moved_plane t p1) (moved_plane t p2)) as [y|] eqn:F; [|reflexivity].
  specialize (H (minus y t)). rewrite along_back in H. destruct H as [H _]. now specialize (H eq_refl).
Qed.
Lemma hull_shift : forall x planes, vertex_in_hull O (along t x) (map (moved_plane t) planes) = vertex_in_hull O x planes.
Proof.
  intros x planes. unfold vertex_in_hull. induction planes as [|q l IH]; [reflexivity|]. cbn [map forallb]. rewrite IH. f_equal. f_equal.
  rewrite normal_shift, dist_shift, !dot_real.
  assert (E : inner (plane_normal O q) (along t x) = inner (plane_normal O q) x + inner (plane_normal O q) t) by (generalize (plane_normal O q); intros n; vecs; ring).
  rewrite E. unfold n_gtb. cbn [n_cmp n_sub real_num]. rewrite Rcompare_plus_r.
  replace (inner (plane_normal O q) x + inner (plane_normal O q) t - (plane_dist O q + inner (plane_normal O q) t)) with (inner (plane_normal O q) x - plane_dist O q) by ring.
  reflexivity.
Qed.
Lemma vertex_normal_shift : forall e p0 p1 p2, vertex_normal O e (moved_plane t p0) (moved_plane t p1) (moved_plane t p2) = vertex_normal O e p0 p1 p2.
Proof. intros. unfold vertex_normal, phong_normal. rewrite !normal_shift. reflexivity. Qed.
Lemma tangent_shift : forall pl, vertex_tangent O (moved_plane t pl) = vertex_tangent O pl.
Proof. intros pl. unfold vertex_tangent, standard_tangent. rewrite normal_shift. reflexivity. Qed.

Definition moved_or : option (vertex R) -> option (vertex R) -> Prop := fun a b =>
  match a, b with Some v, Some w => moved_vertex t v w | None, None => True | _, _ => False end.
Lemma vertex_shift : forall tex e planes plane p1 p2 a b,
  build_plane_vertex O tex e planes plane p1 p2 = Ok a ->
  build_plane_vertex O tex e (map (moved_plane t) planes) (moved_plane t plane) (moved_plane t p1) (moved_plane t p2) = Ok b -> moved_or a b.
Proof.
  intros tex e planes plane p1 p2 a b. unfold build_plane_vertex. rewrite intersect_shift, tangent_shift, vertex_normal_shift.
  destruct (intersect_planes O plane p1 p2) as [x|]; cbn [option_map]; [|intros H1 H2; inv H1; inv H2; exact I].
  rewrite hull_shift. destruct (vertex_in_hull O x planes); [|intros H1 H2; inv H1; inv H2; exact I].
  destruct (vertex_tangent O plane) as [tg| | |]; cbn [bind]; try discriminate. 
  destruct tex as [size|]; [|intros H1 H2; inv H1; inv H2; repeat split].
  destruct (vertex_uv O x plane size) as [r| | |]; cbn [bind]; try discriminate.
  destruct (vertex_uv O (along t x) (moved_plane t plane) size) as [r'| | |]; cbn [bind]; try discriminate.
  intros H1 H2; inv H1; inv H2; repeat split.
Qed.

Lemma list_prod_map : forall A B (f : A -> B) l l', list_prod (map f l) (map f l') = map (fun pq => (f (fst pq), f (snd pq))) (list_prod l l').
Proof.
  intros A B f l l'. induction l as [|x l IH]; [reflexivity|]. cbn [map list_prod]. rewrite IH, map_app, !map_map. reflexivity.
Qed.
Lemma vertices_shift : forall tex e planes plane vs ws,
  plane_vertices O tex e planes plane = Ok vs -> plane_vertices O tex e (map (moved_plane t) planes) (moved_plane t plane) = Ok ws ->
  Forall2 (moved_vertex t) vs ws.
Proof.
  intros tex e planes plane vs ws. unfold plane_vertices. rewrite list_prod_map.
  destruct (mapM _ (list_prod planes planes)) as [a| | |] eqn:A; try discriminate. cbn [bind]. intros H; inv H.
  match goal with |- context [mapM ?f ?l] => destruct (mapM f l) as [b| | |] eqn:B end; try discriminate. cbn [bind]. intros H; inv H.
  apply mapM_ok in A, B. revert b B. induction A as [|[q1 q2] o l l' H A IH]; intros b B; inversion_clear B as [|? o' ? b' H' B']; [constructor|].
  cbn [filter_map]. specialize (IH _ B'). pose proof (vertex_shift _ _ _ _ _ _ _ _ H H') as M. destruct o, o'; cbn in M; try contradiction; auto.
Qed.

Lemma eqb_shift : forall x y, v3_eqb O (along t x) (along t y) = v3_eqb O x y.
Proof. intros x y. unfold v3_eqb, n_eqb, along. cbn [vx vy vz n_cmp real_num]. rewrite !Rcompare_plus_r. reflexivity. Qed.
Lemma eqb_moved : forall v v' w w', moved_vertex t v v' -> moved_vertex t w w' -> v3_eqb O (vt_pos v') (vt_pos w') = v3_eqb O (vt_pos v) (vt_pos w).
Proof. intros v v' w w' (-> & _) (-> & _). apply eqb_shift. Qed.
Lemma existsb_moved : forall v v' l l', moved_vertex t v v' -> Forall2 (moved_vertex t) l l' ->
  existsb (fun c => v3_eqb O (vt_pos c) (vt_pos v')) l' = existsb (fun c => v3_eqb O (vt_pos c) (vt_pos v)) l.
Proof.
  intros v v' l l' V H. induction H as [|a b l l' A H IH]; [reflexivity|]. cbn [existsb]. rewrite IH, (eqb_moved _ _ _ _ A V). reflexivity.
Qed.
Lemma set_normal_moved : forall v v' n, moved_vertex t v v' -> moved_vertex t (set_normal v n) (set_normal v' n).
Proof. intros v v' n (A & B & C & D). repeat split; assumption. Qed.
Lemma unique_shift : forall ph vs ws, Forall2 (moved_vertex t) vs ws -> Forall2 (moved_vertex t) (unique_vertices O ph vs) (unique_vertices O ph ws).
Proof.
  intros ph vs ws H. induction H as [|v w l l' V H IH]; [constructor|]. cbn [unique_vertices].
  rewrite (existsb_moved _ _ _ _ V H). destruct (existsb _ l); [exact IH|]. constructor; [|exact IH]. destruct ph; [|exact V].
  assert (Fd : moved_vertex t
      (fold_left (fun acc next => if v3_eqb O (vt_pos next) (vt_pos acc) then set_normal acc (vt_normal next) else acc) l v)
      (fold_left (fun acc next => if v3_eqb O (vt_pos next) (vt_pos acc) then set_normal acc (vt_normal next) else acc) l' w)).
  { clear IH. revert v w V. induction H as [|a b l l' A H IH]; intros v w V; [exact V|]. cbn [fold_left]. apply IH.
    rewrite (eqb_moved _ _ _ _ A V). destruct (v3_eqb O (vt_pos a) (vt_pos v)); [|exact V].
    replace (vt_normal b) with (vt_normal a) by (symmetry; apply A). now apply set_normal_moved. }
  cbv zeta. pose proof Fd as (_ & N & _). rewrite N. now apply set_normal_moved.
Qed.

Definition alike (a b : vertex R) : Prop := vt_pos b = vt_pos a /\ vt_normal b = vt_normal a /\ vt_tangent b = vt_tangent a /\ vt_color b = vt_color a.
Lemma sort_alike : forall A (r : A -> A -> Prop) cmp l l', (forall a a' b b', r a a' -> r b b' -> cmp a' b' = cmp a b) ->
  Forall2 r l l' -> Forall2 r (sort_by cmp l) (sort_by cmp l').
Proof.
  intros A r cmp l l' C. unfold sort_by.
  assert (Ins : forall x x' m m', r x x' -> Forall2 r m m' -> Forall2 r (sort_insert cmp x m) (sort_insert cmp x' m')).
  { intros x x' m m' X M. induction M as [|a b m m' Ha M IH]; [repeat constructor; exact X|]. cbn [sort_insert].
    rewrite (C _ _ _ _ Ha X). destruct (cmp a x); repeat constructor; auto. }
  assert (G : forall l l' m m', Forall2 r l l' -> Forall2 r m m' ->
    Forall2 r (fold_left (fun acc x => sort_insert cmp x acc) l m) (fold_left (fun acc x => sort_insert cmp x acc) l' m')).
  { clear l l'. intros l l' m m' H. revert m m'. induction H as [|a b l l' Ha H IH]; intros m m' M; [exact M|]. cbn [fold_left]. apply IH. now apply Ins. }
  intros H. apply G; [exact H|constructor].
Qed.

Lemma Forall2_len : forall A B (r : A -> B -> Prop) l l', Forall2 r l l' -> length l = length l'.
Proof. intros A B r l l' H. induction H; cbn; congruence. Qed.
Lemma sum_shift : forall l s k, fold_left (v3_add O) (map (along t) l) (plus s (scaled k t)) = plus (fold_left (v3_add O) l s) (scaled (k + INR (length l)) t).
Proof.
  induction l as [|a l IH]; intros s k; cbn [map fold_left length].
  - cbn [INR]. apply v3_ext; vecs; ring.
  - rewrite S_INR. replace (v3_add O (plus s (scaled k t)) (along t a)) with (plus (v3_add O s a) (scaled (k + 1) t)).
    + rewrite IH. f_equal. f_equal. ring.
    + unfold v3_add. cbn [n_add real_num]. apply v3_ext; vecs; ring.
Qed.
Lemma mean_shift : forall l, l <> [] -> mean O (map (along t) l) = along t (mean O l).
Proof.
  intros l N. assert (L : INR (length l) <> 0) by (destruct l; [contradiction|apply not_0_INR; discriminate]).
  unfold mean. rewrite map_length. replace (Nat.max (length l) 1) with (length l) by (destruct l; [contradiction|cbn; lia]).
  assert (E : n_of_N O (N.of_nat (length l)) = INR (length l)) by (cbn; rewrite nat_N_Z, INR_IZR_INZ; reflexivity). rewrite E.
  pose proof (sum_shift l (v3_zero O) 0) as Sm.
  replace (plus (v3_zero O) (scaled 0 t)) with (v3_zero O) in Sm by (unfold v3_zero; cbn [n_zero real_num]; apply v3_ext; vecs; ring).
  rewrite Sm. generalize (fold_left (v3_add O) l (v3_zero O)); intros s. unfold v3_divs. cbn [n_div real_num].
  apply v3_ext; vecs; field; exact L.
Qed.

Lemma ok_inj : forall A (x y : A), Ok x = Ok y -> y = x.
Proof. congruence. Qed.
Theorem face_shift : forall tx e planes plane f f',
  build_face O tx e planes plane = Ok f ->
  build_face O tx e (map (moved_plane t) planes) (moved_plane t plane) = Ok f' ->
  (f_vertices f <> [] -> f_center f' = along t (f_center f)) /\
  Forall2 (moved_vertex t) (f_vertices f) (f_vertices f') /\ f_indices f' = f_indices f /\ f_texture f' = f_texture f.
Proof.
  intros tx e planes plane f f'. unfold build_face. change (bp_texture (moved_plane t plane)) with (bp_texture plane).
  destruct (plane_vertices O (hget tx (bp_texture plane)) e planes plane) as [vs| | |] eqn:E; try discriminate. cbn [bind]. intros H. apply ok_inj in H. subst f.
  destruct (plane_vertices O (hget tx (bp_texture plane)) e (map (moved_plane t) planes) (moved_plane t plane)) as [ws| | |] eqn:E'; try discriminate.
  cbn [bind]. intros H. apply ok_inj in H. subst f'. cbn [f_center f_vertices f_indices f_texture].
  pose proof (unique_shift (is_phong e) _ _ (vertices_shift _ _ _ _ _ _ E E')) as U.
  set (us := unique_vertices O (is_phong e) vs) in *. set (us' := unique_vertices O (is_phong e) ws) in *. clearbody us us'.
  assert (P : map vt_pos us' = map (along t) (map vt_pos us)).
  { clear -U. induction U as [|v w l l' (V & _) U IH]; [reflexivity|]. cbn [map]. now rewrite IH, V. }
  destruct us as [|v0 us0] eqn:Eu.
  { inversion U; subst us'. split; [intros Q; now contradiction Q|]. repeat split. constructor. }
  rewrite <- Eu in *. assert (Nu : map vt_pos us <> []) by (rewrite Eu; discriminate).
  rewrite P, (mean_shift _ Nu). generalize (mean O (map vt_pos us)); intros c.
  rewrite normal_shift.
  replace (v3_sub O (bp_v1 (moved_plane t plane)) (bp_v0 (moved_plane t plane))) with (v3_sub O (bp_v1 plane) (bp_v0 plane))
    by (unfold v3_sub; cbn [n_sub real_num]; apply v3_ext; vecs; ring).
  set (ua := n_normalize O _). set (va := v3_cross O _ ua).
  set (loc := map (move _) us). set (loc' := map (move _) us').
  assert (L : Forall2 alike loc loc').
  { unfold loc, loc'. clear -U. induction U as [|v w l l' (V1 & V2 & V3' & V4) U IH]; [constructor|]. cbn [map]. constructor; [|exact IH].
    unfold alike, move. cbn [vt_pos vt_normal vt_tangent vt_color]. repeat split; auto. rewrite V1. unfold v3_sub. cbn [n_sub real_num]. apply v3_ext; vecs; ring. }
  assert (S' : Forall2 alike (sort_by (wind_cmp O ua va) loc) (sort_by (wind_cmp O ua va) loc')).
  { apply sort_alike; [|exact L]. intros a a' b b' (A & _) (B & _). unfold wind_cmp, angle. now rewrite A, B. }
  set (ss := sort_by _ loc) in *. set (ss' := sort_by _ loc') in *. clearbody ss ss'.
  split; [reflexivity|]. split; [|split; [|reflexivity]].
  - clear -S'. induction S' as [|v w l l' (V1 & V2 & V3' & V4) U IH]; [constructor|]. cbn [map]. constructor; [|exact IH].
    unfold moved_vertex, move. cbn [vt_pos vt_normal vt_tangent vt_color]. repeat split; auto. rewrite V1. unfold v3_add. cbn [n_add real_num]. apply v3_ext; vecs; ring.
  - rewrite !map_length. f_equal. symmetry. exact (Forall2_len _ _ _ _ _ S').
Qed.
End Shift.
