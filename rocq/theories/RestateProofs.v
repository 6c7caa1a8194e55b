(** The same planes stated by other points: lemmas for C120. *)
From Coq Require Import Reals Lra Psatz Permutation Sorted.
From Flocq Require Import Core.
From Verif Require Import Prelude F32 Text MapModel GeoModel SceneModel GatherSpec GeoSpec RealSpec WindSpec RestateSpec
  BaseProofs GeoProofs RealProofs WindProofs OrderProofs ShiftProofs RigidProofs.
Local Open Scope R_scope.

(** ** Lists all of whose threes turn the same way *)
Section Turning.
Context {A : Type} (turn : A -> A -> A -> Prop).
Context (cyclic : forall a b c, turn a b c -> turn b c a) (one_way : forall a b c, turn a b c -> ~ turn a c b).
Definition turning (l : list A) : Prop := forall l1 a l2 b l3 c l4, l = l1 ++ a :: l2 ++ b :: l3 ++ c :: l4 -> turn a b c.

Lemma turning_rotated : forall a b, turning (a ++ b) -> turning (b ++ a).
Proof.
  intros u. induction u as [|x u IH]; intros w T; [now rewrite app_nil_r|].
  assert (E : w ++ x :: u = (w ++ [x]) ++ u) by now rewrite <- app_assoc. rewrite E. apply IH. clear IH E.
  intros l1 a l2 b l3 c l4 E. rewrite app_assoc in E.
  (* the last element is x, the others are a threesome of u ++ w *)
  destruct (exists_last (l := c :: l4)) as (l4' & z & E4); [discriminate|].
  rewrite E4 in E. assert (E' : (u ++ w) ++ [x] = (l1 ++ a :: l2 ++ b :: l3 ++ l4') ++ [z]).
  { rewrite E. rewrite <- !app_assoc. cbn [app]. rewrite <- !app_assoc. cbn [app]. now rewrite <- !app_assoc. }
  apply app_inj_tail in E'. destruct E' as (E' & <-). destruct l4' as [|c' l4'].
  - cbn in E4. injection E4 as -> ->. rewrite app_nil_r in E'. apply cyclic. apply (T [] x l1 a l2 b l3). cbn [app]. now rewrite E'.
  - cbn in E4. injection E4 as <- ->. apply (T (x :: l1) a l2 b l3 c l4'). cbn [app]. now rewrite E'.
Qed.

Lemma turning_sorted : forall x l, turning (x :: l) -> StronglySorted (fun a b => turn x a b) l.
Proof.
  intros x l. induction l as [|a l IH]; intros T; [constructor|]. constructor.
  - apply IH. intros l1 p l2 q l3 r l4 E. destruct l1 as [|y l1]; injection E as <- ->.
    + apply (T [] x (a :: l2) q l3 r l4). reflexivity.
    + apply (T (x :: a :: l1) p l2 q l3 r l4). reflexivity.
  - apply Forall_forall. intros b Ib. apply in_split in Ib. destruct Ib as (l2 & l3 & ->). apply (T [] x [] a l2 b l3). reflexivity.
Qed.

Theorem turning_unique : forall l l', turning l -> turning l' -> Permutation l l' -> begun_elsewhere l l'.
Proof.
  intros l [|x l'] T T' P.
  - apply Permutation_sym, Permutation_nil in P. subst l. exists [], []. split; reflexivity.
  - assert (I : In x l) by (apply (Permutation_in x (Permutation_sym P)); now left). apply in_split in I. destruct I as (a & b & ->).
    exists a, (x :: b). split; [reflexivity|]. cbn [app]. f_equal. apply turning_rotated in T. cbn [app] in T.
    apply (sorted_unique _ (fun p q => turn x p q)).
    + intros p q H K. exact (one_way _ _ _ H K).
    + now apply turning_sorted.
    + now apply turning_sorted.
    + apply (Permutation_cons_inv (a := x)). rewrite <- P. change (x :: b ++ a) with ((x :: b) ++ a). apply Permutation_app_comm.
Qed.
End Turning.

Section Restate.
Context (parse : str -> option R) (cosine radians : R -> R) (atan2 : R -> R -> R)
  (quat : vec3 R -> R -> vec3 R -> vec3 R) (mat2 : R -> vec2 R -> vec2 R).
Local Notation O := (real_num parse cosine radians atan2 quat mat2).

Lemma normal_restated : forall pl pl', restated pl pl' -> plane_normal O pl' = plane_normal O pl.
Proof.
  intros pl pl' (_ & (k & K & E) & _). rewrite !normal_real, E. generalize (facing pl); intros [x y z]. cbn [vx vy vz].
  assert (N : norm (V3 (k * x) (k * y) (k * z)) = k * norm (V3 x y z)).
  { unfold norm, inner. cbn [vx vy vz]. replace (k * x * (k * x) + k * y * (k * y) + k * z * (k * z)) with ((k * k) * (x * x + y * y + z * z)) by ring.
    rewrite sqrt_mult_alt by nra. rewrite sqrt_square by lra. reflexivity. }
  rewrite N. generalize (norm (V3 x y z)); intros m. unfold Rdiv. rewrite Rinv_mult.
  assert (Q : forall a, k * a * (/ k * / m) = a * / m).
  { intros a. replace (k * a * (/ k * / m)) with ((k * / k) * (a * / m)) by ring. rewrite Rinv_r by lra. ring. }
  now rewrite !Q.
Qed.
Lemma dist_restated : forall pl pl', restated pl pl' -> plane_dist O pl' = plane_dist O pl.
Proof.
  intros pl pl' H. unfold plane_dist. rewrite (normal_restated _ _ H), !dot_real, !normal_scaled. destruct H as (H & _). unfold on_plane in H.
  revert H. generalize (facing pl); intros F H. assert (E : inner F (bp_v0 pl') = inner F (bp_v0 pl)); [|now rewrite E].
  revert H. generalize (bp_v0 pl') (bp_v0 pl). intros a b H. vectors. lra.
Qed.
Lemma intersect_restated : forall p0 p1 p2 q0 q1 q2, restated p0 q0 -> restated p1 q1 -> restated p2 q2 -> intersect_planes O q0 q1 q2 = intersect_planes O p0 p1 p2.
Proof.
  intros p0 p1 p2 q0 q1 q2 H0 H1 H2. unfold intersect_planes.
  now rewrite (normal_restated _ _ H0), (normal_restated _ _ H1), (normal_restated _ _ H2), (dist_restated _ _ H0), (dist_restated _ _ H1), (dist_restated _ _ H2).
Qed.
Lemma hull_restated : forall x l l', Forall2 restated l l' -> vertex_in_hull O x l' = vertex_in_hull O x l.
Proof.
  intros x l l' F. unfold vertex_in_hull. induction F as [|p q l l' H F IH]; [reflexivity|]. cbn [forallb].
  now rewrite IH, (normal_restated _ _ H), (dist_restated _ _ H).
Qed.
Lemma vertex_restated : forall tex e l l' p0 p1 p2 q0 q1 q2, Forall2 restated l l' -> restated p0 q0 -> restated p1 q1 -> restated p2 q2 ->
  build_plane_vertex O tex e l' q0 q1 q2 = build_plane_vertex O tex e l p0 p1 p2.
Proof.
  intros tex e l l' p0 p1 p2 q0 q1 q2 F H0 H1 H2. unfold build_plane_vertex. rewrite (intersect_restated _ _ _ _ _ _ H0 H1 H2).
  destruct (intersect_planes O p0 p1 p2) as [x|]; [|reflexivity]. rewrite (hull_restated x _ _ F).
  assert (N : vertex_normal O e q0 q1 q2 = vertex_normal O e p0 p1 p2).
  { unfold vertex_normal, phong_normal. now rewrite (normal_restated _ _ H0), (normal_restated _ _ H1), (normal_restated _ _ H2). }
  pose proof (normal_restated _ _ H0) as N0. destruct H0 as (_ & _ & Et & Eu & Er & Es & Ee).
  assert (Tg : vertex_tangent O q0 = vertex_tangent O p0) by (unfold vertex_tangent, standard_tangent; now rewrite Eu, N0, Er, Es).
  assert (U : forall size, vertex_uv O x q0 size = vertex_uv O x p0 size) by (intros size; unfold vertex_uv; now rewrite Eu, N0, Er, Es).
  rewrite N, Tg, Ee. destruct tex as [size|]; [now rewrite U|reflexivity].
Qed.
Lemma pairs_restated : forall (l l' m m' : list (brush_plane R)), Forall2 restated l l' -> Forall2 restated m m' ->
  Forall2 (fun x y => restated (fst x) (fst y) /\ restated (snd x) (snd y)) (list_prod l m) (list_prod l' m').
Proof.
  intros l l' m m' F G. induction F as [|p q l l' H F IH]; [constructor|]. cbn [list_prod]. apply Forall2_app; [|exact IH].
  clear -H G. induction G as [|a b m m' Ha G IH]; cbn [map]; constructor; auto.
Qed.
Lemma vertices_restated : forall tex e l l' p q, Forall2 restated l l' -> restated p q -> plane_vertices O tex e l' q = plane_vertices O tex e l p.
Proof.
  intros tex e l l' p q F H. unfold plane_vertices. f_equal.
  pose proof (pairs_restated _ _ _ _ F F) as G. induction G as [|x y m m' (H1 & H2) G IH]; [reflexivity|]. cbn [mapM].
  now rewrite IH, (vertex_restated tex e l l' p (fst x) (snd x) q (fst y) (snd y) F H H1 H2).
Qed.

Lemma sort_permutes : forall A (cmp : A -> A -> comparison) l, Permutation l (sort_by cmp l).
Proof.
  intros A cmp l. unfold sort_by. assert (Ins : forall x m, Permutation (x :: m) (sort_insert cmp x m)).
  { intros x m. induction m as [|y m IH]; [reflexivity|]. cbn [sort_insert]. destruct (cmp y x).
    all: try reflexivity; rewrite perm_swap; now constructor. }
  assert (G : forall l m, Permutation (l ++ m) (fold_left (fun acc x => sort_insert cmp x acc) l m)).
  { clear l. induction l as [|x l IH]; intros m; [reflexivity|]. cbn [app fold_left]. rewrite <- IH. rewrite <- Ins. apply Permutation_middle. }
  rewrite <- G. now rewrite app_nil_r.
Qed.

Theorem face_restated : forall tx e l l' p q f f', Forall2 restated l l' -> restated p q ->
  build_face O tx e l p = Ok f -> build_face O tx e l' q = Ok f' -> restated_face f f'.
Proof.
  intros tx e l l' p q f f' F H. unfold build_face. pose proof H as (_ & _ & Et & _). rewrite Et, (vertices_restated _ e l l' p q F H).
  destruct (plane_vertices O (hget tx (bp_texture p)) e l p) as [vs| | |]; try discriminate. cbn [bind]. intros H1 H2.
  apply ok_inj in H1, H2. subst f f'. unfold restated_face. cbn [f_center f_vertices f_indices f_texture]. split; [reflexivity|].
  match goal with |- Permutation (map ?g (sort_by ?c1 ?m)) (map _ (sort_by ?c2 _)) /\ _ => assert (P : Permutation (sort_by c1 m) (sort_by c2 m)) by (now rewrite <- !sort_permutes) end.
  split; [now apply Permutation_map|]. rewrite !map_length. split; [|reflexivity]. f_equal. symmetry. now apply Permutation_length.
Qed.

Lemma clockwise_cyclic : forall n a b c, clockwise n a b c -> clockwise n b c a.
Proof. intros n a b c. unfold clockwise. vectors. lra. Qed.
Lemma clockwise_one_way : forall n a b c, clockwise n a b c -> ~ clockwise n a c b.
Proof. intros n a b c. unfold clockwise. vectors. lra. Qed.
Lemma clockwise_scaled : forall n n' k a b c, 0 < k -> n' = V3 (k * vx n) (k * vy n) (k * vz n) -> clockwise n' a b c -> clockwise n a b c.
Proof.
  intros n n' k a b c K ->. unfold clockwise. generalize (outer (minus b a) (minus c a)). intros x.
  replace (inner (V3 (k * vx n) (k * vy n) (k * vz n)) x) with (k * inner n x) by (vectors; ring). nra.
Qed.
Lemma face_turning : forall tx e l p f, build_face O tx e l p = Ok f -> crisp l f -> polar_angle atan2 ->
  turning (fun v w x => clockwise (facing p) (vt_pos v) (vt_pos w) (vt_pos x)) (f_vertices f).
Proof.
  intros tx e l p f E K P l1 a l2 b l3 c l4 El.
  apply (any_clockwise parse cosine radians atan2 quat mat2 tx e l p f E K P (length l1) (length l1 + S (length l2)) (length l1 + S (length l2) + S (length l3))); [lia|lia| | |];
    rewrite El, nth_error_map.
  - rewrite nth_error_app2 by lia. now rewrite Nat.sub_diag.
  - rewrite nth_error_app2 by lia. replace (length l1 + S (length l2) - length l1)%nat with (S (length l2)) by lia. cbn [nth_error]. rewrite nth_error_app2 by lia. now rewrite Nat.sub_diag.
  - rewrite nth_error_app2 by lia. replace (length l1 + S (length l2) + S (length l3) - length l1)%nat with (S (length l2 + S (length l3))) by lia. cbn [nth_error].
    rewrite nth_error_app2 by lia. replace (length l2 + S (length l3) - length l2)%nat with (S (length l3)) by lia. cbn [nth_error].
    rewrite nth_error_app2 by lia. now rewrite Nat.sub_diag.
Qed.
Theorem face_elsewhere : forall tx e l l' p q f f', Forall2 restated l l' -> restated p q ->
  build_face O tx e l p = Ok f -> build_face O tx e l' q = Ok f' -> crisp l f -> polar_angle atan2 -> begun_elsewhere (f_vertices f) (f_vertices f').
Proof.
  intros tx e l l' p q f f' F H E E' K P. destruct (face_restated _ _ _ _ _ _ _ _ F H E E') as (_ & Pm & _).
  apply (turning_unique (fun v w x => clockwise (facing p) (vt_pos v) (vt_pos w) (vt_pos x))).
  - intros a b c. apply clockwise_cyclic.
  - intros a b c. apply clockwise_one_way.
  - exact (face_turning _ _ _ _ _ E K P).
  - assert (K' : crisp l' f').
    { intros v y Iv Iy. destruct (Forall2_in_r _ _ _ _ _ _ F Iy) as (x & Ix & (On & (k & Kp & Ef) & _)).
      specialize (K v x (Permutation_in v (Permutation_sym Pm) Iv) Ix). unfold within in *. rewrite Ef. unfold on_plane in On.
      rewrite Rmult_0_l in *. revert On K. generalize (facing x) (bp_v0 y) (bp_v0 x) (vt_pos v). intros n a b w On K. vectors. nra. }
    intros l1 a l2 b l3 c l4 El. destruct H as (_ & (k & Kp & Ef) & _). apply (clockwise_scaled _ _ _ _ _ _ Kp Ef).
    exact (face_turning _ _ _ _ _ E' K' P l1 a l2 b l3 c l4 El).
  - exact Pm.
Qed.

(** ** Brushes and entities *)
Lemma face_other : forall tx e e' planes plane, e_props e' = e_props e -> build_face O tx e' planes plane = build_face O tx e planes plane.
Proof.
  intros tx e e' planes plane P. unfold build_face, plane_vertices, build_plane_vertex, vertex_normal, is_phong, get_property. now rewrite P.
Qed.
Theorem brush_restated : forall tx e e' b b' g, e_props e' = e_props e -> Forall2 restated b b' -> build_brush O tx e b = Ok g ->
  exists g', build_brush O tx e' b' = Ok g' /\ restated_brush g g'.
Proof.
  intros tx e e' b b' g P F. unfold build_brush. intros H. apply bind_ok in H. destruct H as (fs & Ef & H). apply ok_inj in H. subst g. apply mapM_ok in Ef.
  assert (G : forall l l' fs, Forall2 restated l l' -> Forall2 (fun x f => build_face O tx e b x = Ok f) l fs ->
    exists gs, mapM (build_face O tx e' b') l' = Ok gs /\ Forall2 restated_face fs gs).
  { clear Ef fs. intros l l' fs Fl. revert fs. induction Fl as [|p q l l' H Fl IH]; intros fs Ef; inversion_clear Ef as [|? f ? fs' Hf Ef'].
    - exists []. split; [reflexivity|constructor].
    - destruct (IH _ Ef') as (gs & Eg & Fg). destruct (real_total parse cosine radians atan2 quat mat2 tx e b' q) as (f' & H').
      exists (f' :: gs). cbn [mapM]. rewrite (face_other tx e e' b' q P), H', Eg. split; [reflexivity|]. constructor; [|exact Fg].
      exact (face_restated _ _ _ _ _ _ _ _ F H Hf H'). }
  destruct (G _ _ _ F Ef) as (gs & -> & Fg). cbn [bind]. eexists. split; [reflexivity|]. split; cbn [bg_center bg_faces]; [|exact Fg].
  f_equal. clear -Fg. induction Fg as [|x y l l' (C & _) F IH]; [reflexivity|]. cbn [map]. now rewrite C, IH.
Qed.
Lemma points_in : forall l x, In x (unique_points O l) <-> In x l.
Proof.
  induction l as [|a l IH]; intros x; [reflexivity|]. cbn [unique_points]. destruct (existsb (fun c => v3_eqb O a c) l) eqn:E.
  - rewrite IH. split; [now right|]. intros [->|I]; [|exact I]. apply existsb_exists in E. destruct E as (y & Iy & E). apply eqb_iff in E. now subst y.
  - cbn [In]. rewrite IH. reflexivity.
Qed.
Lemma points_once : forall l, NoDup (unique_points O l).
Proof.
  induction l as [|a l IH]; [constructor|]. cbn [unique_points]. destruct (existsb (fun c => v3_eqb O a c) l) eqn:E; [exact IH|]. constructor; [|exact IH].
  rewrite points_in. intros I. assert (X : existsb (fun c => v3_eqb O a c) l = true); [|congruence]. apply existsb_exists. exists a. split; [exact I|]. now apply eqb_iff.
Qed.
Theorem entity_restated : forall tx e e' g, restated_entity e e' -> build_entity_geo O tx e = Ok g ->
  exists g', build_entity_geo O tx e' = Ok g' /\ eg_center g' = eg_center g /\ Forall2 restated_brush (eg_brushes g) (eg_brushes g') /\
    exists shapes shapes', convex_collision O g = ColConvex shapes /\ convex_collision O g' = ColConvex shapes' /\ Forall2 restated_convex shapes shapes'.
Proof.
  intros tx e e' g (P & F). unfold build_entity_geo. intros H. apply bind_ok in H. destruct H as (bs & Eb & H). apply ok_inj in H.
  assert (G : exists cs, mapM (build_brush O tx e') (e_brushes e') = Ok cs /\ Forall2 restated_brush bs cs).
  { apply mapM_ok in Eb. clear H. revert bs Eb. induction F as [|b b' l l' Hb F IH]; intros bs Eb; inversion_clear Eb as [|? h ? bs' Hh Eb'].
    - exists []. split; [reflexivity|constructor].
    - destruct (IH _ Eb') as (cs & Ec & Fc). destruct (brush_restated tx e e' b b' h P Hb Hh) as (h' & Hh' & R). exists (h' :: cs). cbn [mapM]. rewrite Hh', Ec. split; [reflexivity|now constructor]. }
  destruct G as (cs & -> & Fc). cbn [bind]. eexists. split; [reflexivity|]. rewrite P. subst g. cbn [eg_center eg_brushes].
  assert (Mc : map bg_center cs = map bg_center bs) by (clear -Fc; induction Fc as [|x y l l' (C & _) F IH]; [reflexivity|]; cbn [map]; now rewrite C, IH).
  rewrite Mc. split; [reflexivity|]. split; [exact Fc|]. do 2 eexists. split; [reflexivity|]. split; [reflexivity|]. cbn [eg_brushes]. clear -Fc.
  induction Fc as [|x y l l' (C & Ff) F IH]; cbn [map]; constructor; [|exact IH]. split; cbn [cx_center cx_points]; [exact C|].
  apply NoDup_Permutation; [apply points_once|apply points_once|]. intros z. rewrite !points_in.
  assert (Q : Permutation (flat_map (fun f => map vt_pos (f_vertices f)) (bg_faces x)) (flat_map (fun f => map vt_pos (f_vertices f)) (bg_faces y))).
  { clear -Ff. induction Ff as [|f f' l l' (_ & Pm & _) Ff IH]; [constructor|]. cbn [flat_map]. apply Permutation_app; [now apply Permutation_map|exact IH]. }
  split; apply Permutation_in; [exact Q|now symmetry].
Qed.
End Restate.
Theorem face_stated : forall parse cosine radians atan2 quat mat2 tx e l l' p q f, Forall2 restated l l' -> restated p q ->
  build_face (real_num parse cosine radians atan2 quat mat2) tx e l p = Ok f ->
  exists f', build_face (real_num parse cosine radians atan2 quat mat2) tx e l' q = Ok f' /\ restated_face f f'
    /\ (crisp l f -> polar_angle atan2 -> begun_elsewhere (f_vertices f) (f_vertices f')).
Proof.
  intros parse cosine radians atan2 quat mat2 tx e l l' p q f F H E. destruct (real_total parse cosine radians atan2 quat mat2 tx e l' q) as (f' & E').
  exists f'. split; [exact E'|]. split; [exact (face_restated _ _ _ _ _ _ _ _ _ _ _ _ _ _ F H E E')|]. intros K P. exact (face_elsewhere _ _ _ _ _ _ _ _ _ _ _ _ _ _ F H E E' K P).
Qed.
