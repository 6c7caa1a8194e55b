(** Texture alignment only touches texture coordinates and tangents: lemmas for C116. *)
From Coq Require Import Permutation.
From Verif Require Import Prelude F32 Text MapModel GeoModel LayerModel GameDataModel SceneModel RunModel
  GatherSpec GeoSpec LayerSpec SurfaceSpec TreeSpec PropertySpec MapSpec Utf8Spec RunSpec InvarianceSpec PointsSpec ReworkSpec AlignSpec
  BaseProofs TokenProofs MapProofs GatherProofs SurfaceProofs SurfaceFinal GeoProofs LayerProofs NodeProofs RunProofs InvarianceProofs SiblingProofs PointsProofs ReworkProofs.

(** ** Faces *)
Section Faces.
Context {T : Type} (O : num T).

Lemma normal_same : forall a b : brush_plane T, realigned a b -> plane_normal O a = plane_normal O b.
Proof. intros a b (E0 & E1 & E2 & _). unfold plane_normal. now rewrite E0, E1, E2. Qed.
Lemma dist_same : forall a b : brush_plane T, realigned a b -> plane_dist O a = plane_dist O b.
Proof. intros a b R. unfold plane_dist. rewrite (normal_same a b R). destruct R as (E0 & E1 & E2 & _). now rewrite E0. Qed.
Lemma meet_same : forall a b a1 b1 a2 b2 : brush_plane T, realigned a b -> realigned a1 b1 -> realigned a2 b2 -> intersect_planes O a a1 a2 = intersect_planes O b b1 b2.
Proof.
  intros a b a1 b1 a2 b2 R R1 R2. unfold intersect_planes.
  now rewrite (normal_same a b R), (normal_same a1 b1 R1), (normal_same a2 b2 R2), (dist_same a b R), (dist_same a1 b1 R1), (dist_same a2 b2 R2).
Qed.
Lemma hull_same : forall x l l', Forall2 realigned l l' -> vertex_in_hull O x l = vertex_in_hull O x l'.
Proof. intros x l l' F. unfold vertex_in_hull. induction F as [|a b l l' R F IH]; [reflexivity|]. cbn [forallb]. now rewrite IH, (normal_same a b R), (dist_same a b R). Qed.

Definition both_or_none (a b : option (vertex T)) : Prop := match a, b with Some v, Some w => same_but_uv v w | None, None => True | _, _ => False end.
Lemma tangent_same : forall a b, realigned a b -> paired (fun _ _ => True) (vertex_tangent O a) (vertex_tangent O b).
Proof.
  intros a b R. pose proof (normal_same a b R) as N. destruct R as (_ & _ & _ & _ & _ & K). unfold vertex_tangent. destruct (bp_uv a), (bp_uv b); try contradiction; [|now apply paired_ok].
  unfold standard_tangent. rewrite N. cbv zeta. match goal with |- context [match ?x with Some _ => _ | None => _ end] => destruct x as [[? ?]|] end; [now apply paired_ok|apply paired_fail; discriminate].
Qed.
Lemma uv_same : forall x a b t t', realigned a b -> paired (fun _ _ => True) (vertex_uv O x a t) (vertex_uv O x b t').
Proof.
  intros x a b t t' R. pose proof (normal_same a b R) as N. destruct R as (_ & _ & _ & _ & _ & K). unfold vertex_uv. destruct (bp_uv a), (bp_uv b); try contradiction; [|now apply paired_ok].
  rewrite N. cbv zeta. match goal with |- context [bind ?x _] => destruct x as [xy| | |] end; cbn [bind]; [now apply paired_ok|apply paired_fail; discriminate..].
Qed.
Lemma vertex_same : forall (tex tex' : option (N * N)) (e e' : entity T) l l' a b a1 b1 a2 b2, (tex = None <-> tex' = None) -> (forall k, get_property e k = get_property e' k) ->
  Forall2 realigned l l' -> realigned a b -> realigned a1 b1 -> realigned a2 b2 ->
  paired both_or_none (build_plane_vertex O tex e l a a1 a2) (build_plane_vertex O tex' e' l' b b1 b2).
Proof.
  intros tex tex' e e' l l' a b a1 b1 a2 b2 Ht He F R R1 R2. unfold build_plane_vertex. rewrite (meet_same a b a1 b1 a2 b2 R R1 R2).
  destruct (intersect_planes O b b1 b2) as [x|]; [|now apply paired_ok]. rewrite (hull_same x l l' F). destruct (vertex_in_hull O x l'); [|now apply paired_ok].
  assert (En : vertex_normal O e a a1 a2 = vertex_normal O e' b b1 b2).
  { unfold vertex_normal, is_phong, phong_normal. now rewrite !He, (normal_same a b R), (normal_same a1 b1 R1), (normal_same a2 b2 R2). }
  cbv zeta. eapply paired_bind; [apply (tangent_same a b R)|]. intros tg tg' _.
  apply paired_bind with (R := fun u u' => u = None <-> u' = None).
  - destruct tex as [t|], tex' as [t'|]; try (exfalso; destruct Ht as (H1 & H2); (now specialize (H1 eq_refl)) || (now specialize (H2 eq_refl))); [|now apply paired_ok].
    eapply paired_bind; [apply (uv_same x a b t t' R)|]. intros r r' _. apply paired_ok. split; discriminate.
  - intros u u' Hu. apply paired_ok. cbn. unfold same_but_uv. cbn [vt_pos vt_normal vt_color vt_uv]. destruct R as (_ & _ & _ & _ & Ex & _). rewrite Ex. auto.
Qed.
Lemma prod_same : forall A B (R : A -> B -> Prop) l l' m m', Forall2 R l l' -> Forall2 R m m' -> Forall2 (fun x y => R (fst x) (fst y) /\ R (snd x) (snd y)) (list_prod l m) (list_prod l' m').
Proof.
  intros A B R l l' m m' F G. induction F as [|x y l l' Rx F IH]; [constructor|]. cbn [list_prod]. apply Forall2_app; [|exact IH]. clear - G Rx. induction G; constructor; auto.
Qed.
Lemma somes_same : forall l l', Forall2 both_or_none l l' -> Forall2 same_but_uv (filter_map (fun o => o) l) (filter_map (fun o => o) l').
Proof. intros l l' F. induction F as [|[v|] [w|] l l' R F IH]; cbn in *; try contradiction; try constructor; auto. Qed.
Lemma vertices_same : forall (tex tex' : option (N * N)) (e e' : entity T) l l' a b, (tex = None <-> tex' = None) -> (forall k, get_property e k = get_property e' k) ->
  Forall2 realigned l l' -> realigned a b -> paired (Forall2 same_but_uv) (plane_vertices O tex e l a) (plane_vertices O tex' e' l' b).
Proof.
  intros tex tex' e e' l l' a b Ht He F R. unfold plane_vertices. eapply paired_bind.
  - eapply paired_mapM; [apply (prod_same _ _ _ _ _ _ _ F F)|]. intros x y (R1 & R2). exact (vertex_same tex tex' e e' l l' a b _ _ _ _ Ht He F R R1 R2).
  - intros vs ws G. apply paired_ok. now apply somes_same.
Qed.

Lemma eqb_same : forall v v' w w' : vertex T, same_but_uv v v' -> same_but_uv w w' -> v3_eqb O (vt_pos v) (vt_pos w) = v3_eqb O (vt_pos v') (vt_pos w').
Proof. intros v v' w w' (-> & _) (-> & _). reflexivity. Qed.
Lemma set_normal_same : forall (v v' : vertex T) n, same_but_uv v v' -> same_but_uv (set_normal v n) (set_normal v' n).
Proof. intros v v' n (A & B & C & D). repeat split; try assumption; apply D. Qed.
Lemma unique_same : forall ph vs ws, Forall2 same_but_uv vs ws -> Forall2 same_but_uv (unique_vertices O ph vs) (unique_vertices O ph ws).
Proof.
  intros ph vs ws H. induction H as [|v w l l' V H IH]; [constructor|]. cbn [unique_vertices].
  assert (Ee : existsb (fun c => v3_eqb O (vt_pos c) (vt_pos v)) l = existsb (fun c => v3_eqb O (vt_pos c) (vt_pos w)) l').
  { clear IH. induction H as [|a b l l' A H IH]; [reflexivity|]. cbn [existsb]. now rewrite IH, (eqb_same a b v w A V). }
  rewrite Ee. destruct (existsb _ l'); [exact IH|]. constructor; [|exact IH]. destruct ph; [|exact V].
  assert (Fd : same_but_uv
      (fold_left (fun acc next => if v3_eqb O (vt_pos next) (vt_pos acc) then set_normal acc (vt_normal next) else acc) l v)
      (fold_left (fun acc next => if v3_eqb O (vt_pos next) (vt_pos acc) then set_normal acc (vt_normal next) else acc) l' w)).
  { clear IH Ee. revert v w V. induction H as [|a b l l' A H IH]; intros v w V; [exact V|]. cbn [fold_left]. apply IH.
    rewrite (eqb_same a b v w A V). destruct (v3_eqb O (vt_pos b) (vt_pos w)); [|exact V].
    replace (vt_normal a) with (vt_normal b) by (symmetry; apply A). now apply set_normal_same. }
  cbv zeta. pose proof Fd as (_ & N & _). rewrite N. now apply set_normal_same.
Qed.
Lemma sort_same : forall A (r : A -> A -> Prop) cmp l l', (forall a a' b b', r a a' -> r b b' -> cmp a b = cmp a' b') ->
  Forall2 r l l' -> Forall2 r (sort_by cmp l) (sort_by cmp l').
Proof.
  intros A r cmp l l' C. unfold sort_by.
  assert (Ins : forall x x' m m', r x x' -> Forall2 r m m' -> Forall2 r (sort_insert cmp x m) (sort_insert cmp x' m')).
  { intros x x' m m' X M. induction M as [|a b m m' Ha M IH]; [repeat constructor; exact X|]. cbn [sort_insert].
    rewrite (C _ _ _ _ Ha X). destruct (cmp b x'); repeat constructor; auto. }
  assert (G : forall l l' m m', Forall2 r l l' -> Forall2 r m m' ->
    Forall2 r (fold_left (fun acc x => sort_insert cmp x acc) l m) (fold_left (fun acc x => sort_insert cmp x acc) l' m')).
  { clear l l'. intros l l' m m' H. revert m m'. induction H as [|a b l l' Ha H IH]; intros m m' M; [exact M|]. cbn [fold_left]. apply IH. now apply Ins. }
  intros H. apply G; [exact H|constructor].
Qed.
Lemma positions_same : forall vs ws, Forall2 (@same_but_uv T) vs ws -> map vt_pos vs = map vt_pos ws.
Proof. intros vs ws F. induction F as [|v w vs ws (E & _) F IH]; [reflexivity|]. cbn [map]. now rewrite E, IH. Qed.
Lemma moved_same : forall h vs ws, Forall2 (@same_but_uv T) vs ws -> Forall2 same_but_uv (map (move h) vs) (map (move h) ws).
Proof. intros h vs ws F. induction F as [|v w vs ws (A & B & C & D) F IH]; constructor; [|exact IH]. unfold same_but_uv, move. cbn [vt_pos vt_normal vt_color vt_uv]. rewrite A. auto. Qed.

Lemma face_same : forall tx tx' (e e' : entity T) l l' a b, resized tx tx' -> (forall k, get_property e k = get_property e' k) ->
  Forall2 realigned l l' -> realigned a b -> paired redrawn (build_face O tx e l a) (build_face O tx' e' l' b).
Proof.
  intros tx tx' e e' l l' a b Ht He F R. unfold build_face. pose proof R as (E0 & E1 & E2 & Et & _). rewrite Et. eapply paired_bind; [apply (vertices_same _ _ e e' l l' a b (Ht (bp_texture b)) He F R)|].
  intros vs ws G. cbv zeta. apply paired_ok. assert (Ep : is_phong e = is_phong e') by (unfold is_phong; now rewrite He). rewrite Ep.
  pose proof (unique_same (is_phong e') vs ws G) as U. rewrite (positions_same _ _ U), E0, E1, (normal_same a b R).
  set (c := mean O _). set (ua := n_normalize O _). set (va := v3_cross O _ _).
  assert (S : Forall2 same_but_uv (sort_by (wind_cmp O ua va) (map (move (fun x => v3_sub O x c)) (unique_vertices O (is_phong e') vs)))
    (sort_by (wind_cmp O ua va) (map (move (fun x => v3_sub O x c)) (unique_vertices O (is_phong e') ws)))).
  { apply sort_same; [|now apply moved_same]. intros x x' y y' (Hx & _) (Hy & _). unfold wind_cmp, angle. now rewrite Hx, Hy. }
  unfold redrawn. cbn [f_center f_indices f_texture f_vertices]. split; [reflexivity|]. split; [now rewrite !map_length, (Forall2_length _ _ _ _ _ S)|].
  split; [|now apply moved_same]. specialize (Ht (bp_texture b)). destruct (hget tx (bp_texture b)), (hget tx' (bp_texture b)); try reflexivity; exfalso; destruct Ht as (H1 & H2); (now specialize (H1 eq_refl)) || (now specialize (H2 eq_refl)).
Qed.

Definition same_brush (g g' : brush_geo T) : Prop := bg_center g = bg_center g' /\ Forall2 redrawn (bg_faces g) (bg_faces g').
Theorem brush_realigned : forall tx tx' (e e' : entity T) b b', resized tx tx' -> (forall k, get_property e k = get_property e' k) -> Forall2 realigned b b' ->
  paired same_brush (build_brush O tx e b) (build_brush O tx' e' b').
Proof.
  intros tx tx' e e' b b' Ht He F. unfold build_brush. eapply paired_bind; [apply (paired_mapM _ _ _ _ realigned redrawn _ _ _ _ F); intros x y R; now apply face_same|].
  intros fs fs' G. apply paired_ok. split; [|exact G]. cbn [bg_center]. f_equal. clear - G. induction G as [|f f' fs fs' (E & _) G IH]; [reflexivity|]. cbn [map]. now rewrite E, IH.
Qed.
End Faces.

(** ** Surfaces and collision shapes *)
Section Shapes.
Context (p : platform).
Local Notation O := (f32_num p).

Definition recoated (g g' : brush_geo f32) : Prop :=
  same_brush g g' /\ (forall f, In f (bg_faces g) -> in_bounds f) /\ (forall f, In f (bg_faces g') -> in_bounds f).
Lemma forallb_same : forall (h : face f32 -> bool) l l', (forall f g, redrawn f g -> h f = h g) -> Forall2 redrawn l l' -> forallb h l = forallb h l'.
Proof. intros h l l' H F. induction F as [|f g l l' R F IH]; [reflexivity|]. cbn [forallb]. now rewrite IH, (H f g R). Qed.
Lemma existsb_same : forall (h : face f32 -> bool) l l', (forall f g, redrawn f g -> h f = h g) -> Forall2 redrawn l l' -> existsb h l = existsb h l'.
Proof. intros h l l' H F. induction F as [|f g l l' R F IH]; [reflexivity|]. cbn [existsb]. now rewrite IH, (H f g R). Qed.
Lemma layer_recoated : forall t b b', recoated b b' -> in_layer t b = in_layer t b'.
Proof. intros t b b' ((_ & F) & _). unfold in_layer. apply forallb_same; [|exact F]. intros f g (_ & _ & E & _). now rewrite E. Qed.
Lemma selected_recoated : forall bl t c c' bs bs', Forall2 recoated bs bs' ->
  Forall2 redrawn (selected_faces (drawn_brush bl) (with_texture t) (EntityGeo c bs)) (selected_faces (drawn_brush bl) (with_texture t) (EntityGeo c' bs')).
Proof.
  intros bl t c c' bs bs' F. unfold selected_faces. cbn [eg_brushes].
  assert (G : Forall2 recoated (filter (drawn_brush bl) bs) (filter (drawn_brush bl) bs')).
  { apply filter_same; [exact F|]. intros b b' ((_ & G) & _). unfold drawn_brush. apply existsb_same; [|exact G]. intros f g (_ & _ & E & _). unfold drawn_face. now rewrite E. }
  induction G as [|b b' l l' ((_ & R) & _) G IH]; [constructor|]. cbn [flat_map]. apply Forall2_app; [|exact IH]. apply filter_same; [exact R|].
  intros f g (_ & _ & E & _). unfold with_texture. now rewrite E.
Qed.
Lemma recoated_bounds : forall c c' bs bs', Forall2 recoated bs bs' -> geometry_in_bounds (EntityGeo c bs) /\ geometry_in_bounds (EntityGeo c' bs').
Proof.
  intros c c' bs bs' F. split; intros b f Hb Hf; cbn [eg_brushes] in Hb.
  - destruct (Forall2_in_l _ _ _ _ _ _ F Hb) as (b' & _ & _ & H & _). now apply H.
  - destruct (Forall2_in_r _ _ _ _ _ _ F Hb) as (b' & _ & _ & _ & H). now apply H.
Qed.
Lemma nth_same : forall vs ws i, Forall2 (@same_but_uv f32) vs ws -> option_map vt_pos (nth_error vs i) = option_map vt_pos (nth_error ws i).
Proof. intros vs ws i F. revert i. induction F as [|v w vs ws (E & _) F IH]; intros [|i]; cbn; [reflexivity..|now rewrite E|apply IH]. Qed.
Lemma corners_same : forall l l', Forall2 redrawn l l' -> map (option_map vt_pos) (flat_map face_corners l) = map (option_map (@vt_pos f32)) (flat_map face_corners l').
Proof.
  intros l l' F. induction F as [|f g l l' (_ & Ei & _ & V) F IH]; [reflexivity|]. cbn [flat_map]. rewrite !map_app, IH. f_equal. unfold face_corners, corners. rewrite Ei, !map_map. apply map_ext. intros i. now apply nth_same.
Qed.
Lemma pos_eq_sym : forall a b, pos_eq O a b -> pos_eq O b a.
Proof. intros a b (X & Y & Z). repeat split; now apply (law_sym O (f32_eq_laws p)). Qed.
Lemma pos_eq_trans : forall a b c, pos_eq O a b -> pos_eq O b c -> pos_eq O a c.
Proof. intros a b c (X & Y & Z) (X' & Y' & Z'). repeat split; eapply (law_trans O (f32_eq_laws p)); eauto. Qed.
Lemma kept_same : forall pts pts' ix ix' cs cs', Forall2 (keeps_position O pts) ix cs -> Forall2 (keeps_position O pts') ix' cs' -> map (option_map vt_pos) cs = map (option_map (@vt_pos f32)) cs' ->
  exists xs ys, map (nth_error pts) ix = map Some xs /\ map (nth_error pts') ix' = map Some ys /\ Forall2 (fun x y => x = y \/ pos_eq O x y) xs ys.
Proof.
  intros pts pts' ix ix' cs cs' F. revert ix' cs'. induction F as [|i c ix cs (x & w & Ex & -> & Hx) F IH]; intros ix' cs' F' E; destruct F' as [|i' c' ix' cs' (y & w' & Ey & -> & Hy) F']; try discriminate E.
  - exists [], []. repeat split; constructor.
  - cbn [map option_map] in E. injection E as Ew E. destruct (IH ix' cs' F' E) as (xs & ys & H1 & H2 & H3). exists (x :: xs), (y :: ys). cbn [map]. rewrite H1, H2, Ex, Ey. repeat split. constructor; [|exact H3].
    rewrite Ew in Hx. destruct Hx as [->|Hx], Hy as [->|Hy]; auto; right; [now apply pos_eq_sym|eapply pos_eq_trans; [exact Hx|now apply pos_eq_sym]].
Qed.
Lemma surface_named : forall g bl t s, texture_surface O g bl t = Ok (Some s) -> s_texture s = t /\ s_vertices s <> [].
Proof.
  intros g bl t s E. unfold texture_surface in E. apply bind_ok in E. destruct E as ([[|v vs] ix] & _ & E); [discriminate|]. injection E as <-. split; [reflexivity|]. cbn. discriminate.
Qed.
Lemma surface_bare : forall g bl t s, geometry_in_bounds g -> texture_surface O g bl t = Ok (Some s) ->
  (forall f, In f (selected_faces (drawn_brush bl) (with_texture t) g) -> f_vertices f = []) -> False.
Proof.
  intros g bl t s Bg E N. destruct (surface_c31 p g bl t s Bg E) as (kept & (Dv & _) & F). apply (surface_named g bl t s) in E. destruct E as (_ & E). apply E. rewrite Dv.
  assert (K : forall out, In out kept -> out = []).
  { intros out Ho. destruct (Forall2_in_r _ _ _ _ _ _ F Ho) as (b & Hb & (sel & _ & Hs & Em) & _).
    assert (Z : face_vertices (brush_faces (with_texture t) b) = []).
    { unfold face_vertices. assert (Q : forall f, In f (brush_faces (with_texture t) b) -> f_vertices f = []) by (intros f Hf; apply N; unfold selected_faces; apply in_flat_map; eauto).
      revert Q. generalize (brush_faces (with_texture t) b). intros l Q. induction l as [|f l IH]; [reflexivity|]. cbn [flat_map]. rewrite (Q f (or_introl eq_refl)). apply IH. intros h Hh. apply Q. now right. }
    rewrite Z in Hs. destruct sel as [|i sel]; [destruct out; [reflexivity|discriminate Em]|]. destruct (proj1 (Hs i) (or_introl eq_refl)) as (H & _). inversion H. }
  revert K. clear. intros K. induction kept as [|o kept IH]; [reflexivity|]. cbn [concat]. rewrite (K o (or_introl eq_refl)). apply IH. intros x Hx. apply K. now right.
Qed.
Definition option_same (a b : option (surface f32)) : Prop := match a, b with Some s, Some s' => same_triangles p s s' | None, None => True | _, _ => False end.
Lemma surface_recoated : forall bl t g g', Forall2 recoated (eg_brushes g) (eg_brushes g') -> paired option_same (texture_surface O g bl t) (texture_surface O g' bl t).
Proof.
  intros bl t [c bs] [c' bs'] F. cbn [eg_brushes] in F. destruct (recoated_bounds c c' bs bs' F) as (B & B'). destruct (surface_c30 p _ bl t B) as (os & E & D). destruct (surface_c30 p _ bl t B') as (os' & E' & D').
  pose proof (selected_recoated bl t c c' bs bs' F) as S. rewrite E, E'. apply paired_ok. destruct os as [s|], os' as [s'|]; cbn [option_same]; [| | |exact I].
  - destruct D as (_ & _ & D), D' as (_ & _ & D'). split; [now rewrite (proj1 (surface_named _ _ _ _ E)), (proj1 (surface_named _ _ _ _ E'))|]. eapply kept_same; [exact D|exact D'|]. now apply corners_same.
  - apply (surface_bare _ bl t s B E). intros f Hf. destruct (Forall2_in_l _ _ _ _ _ _ S Hf) as (f' & Hf' & _ & _ & _ & V). rewrite (D' f' Hf') in V. now inversion V.
  - apply (surface_bare _ bl t s' B' E'). intros f Hf. destruct (Forall2_in_r _ _ _ _ _ _ S Hf) as (f' & Hf' & _ & _ & _ & V). rewrite (D f' Hf') in V. now inversion V.
Qed.

Definition aligned_alike (e e' : entity f32) : Prop :=
  (forall k, get_property e k = get_property e' k) /\ flat_map (map bp_texture) (e_brushes e) = flat_map (map bp_texture) (e_brushes e').
Lemma surfaces_same : forall l l', Forall2 option_same l l' -> Forall2 (same_triangles p) (filter_map (fun o => o) l) (filter_map (fun o => o) l').
Proof. intros l l' F. induction F as [|[v|] [w|] l l' R F IH]; cbn in *; try contradiction; try constructor; auto. Qed.
Lemma visual_recoated : forall e e' g g' bd bl, aligned_alike e e' -> Forall2 recoated (eg_brushes g) (eg_brushes g') -> paired (same_mesh p) (brush_visual O e g bd bl) (brush_visual O e' g' bd bl).
Proof.
  intros e e' g g' bd bl (_ & Et) F. unfold brush_visual. destruct (bd_visual bd); [|apply paired_ok; constructor] || (destruct (bd_visual bd); [apply paired_ok; constructor|]).
  change (fun b : list (brush_plane f32) => map bp_texture b) with (map (@bp_texture f32)). rewrite Et. cbv zeta. eapply paired_bind.
  - apply (paired_mapM _ _ _ _ eq option_same); [|intros t t' <-; now apply surface_recoated]. generalize (map Some (unique_textures bl (flat_map (map bp_texture) (e_brushes e'))) ++ [None]). intros l. induction l; constructor; auto.
  - intros l l' G. apply surfaces_same in G. destruct G as [|s s' r r' Rs G]; apply paired_ok; constructor; now constructor.
Qed.
Lemma layer_visual_recoated : forall l t bs bs', Forall2 recoated bs bs' -> paired (same_mesh p) (layer_visual O l t bs) (layer_visual O l t bs').
Proof.
  intros l t bs bs' F. unfold layer_visual. destruct (wl_visual l); try (apply paired_ok; constructor).
  eapply paired_bind; [apply surface_recoated; exact F|]. intros [s|] [s'|] R; cbn [option_same] in R; try contradiction; apply paired_ok; constructor; repeat (constructor; try exact R).
Qed.

(** Positions alone decide what collision shapes keep. *)
Lemma place_same : forall v v' vs ws, same_but_uv v v' -> Forall2 (@same_but_uv f32) vs ws -> position (fun c => same_position O c v) vs = position (fun c => same_position O c v') ws.
Proof.
  intros v v' vs ws V F. induction F as [|a b vs ws R F IH]; [reflexivity|]. cbn [position]. unfold same_position at 1 3. rewrite (eqb_same O a b v v' R V), IH. reflexivity.
Qed.
Lemma loop_same : forall vs ws, Forall2 (@same_but_uv f32) vs ws -> forall todo todo', Forall2 (fun x y => fst x = fst y /\ same_but_uv (snd x) (snd y)) todo todo' ->
  forall ix new nv nv', Forall2 same_but_uv nv nv' ->
  paired (fun r r' => fst r = fst r' /\ Forall2 same_but_uv (snd r) (snd r')) (filter_loop O (unique_position O) vs todo ix new nv) (filter_loop O (unique_position O) ws todo' ix new nv').
Proof.
  intros vs ws F todo todo' G. induction G as [|[i v] [i' v'] todo todo' (Ei & R) G IH]; intros ix new nv nv' H; [now apply paired_ok|]. cbn [fst snd] in *. subst i'. cbn [filter_loop].
  assert (U : unique_position O i v vs = unique_position O i v' ws) by (unfold unique_position, first_at; now rewrite (place_same v v' vs ws R F)). rewrite U.
  destruct (unique_position O i v' ws).
  - apply IH. apply Forall2_app; [exact H|]. now constructor.
  - rewrite (place_same v v' vs ws R F). destruct (position (fun c => same_position O c v') ws) as [k|]; cbn [unwrap bind]; [|apply paired_fail; discriminate]. now apply IH.
Qed.
Lemma enumerate_same : forall vs ws, Forall2 (@same_but_uv f32) vs ws -> Forall2 (fun x y => fst x = fst y /\ same_but_uv (snd x) (snd y)) (enumerate vs) (enumerate ws).
Proof.
  intros vs ws F. unfold enumerate. generalize 0. induction F as [|v w vs ws R F IH]; intros n; [constructor|]. cbn [enumerate_from]. constructor; [auto|]. apply IH.
Qed.
Lemma offsets_same : forall l l', Forall2 redrawn l l' -> forall n, concat_indices n (map (fun f => (f_vertices f, f_indices f)) l) = concat_indices n (map (fun f : face f32 => (f_vertices f, f_indices f)) l').
Proof.
  intros l l' F. induction F as [|f g l l' (_ & Ei & _ & V) F IH]; intros n; [reflexivity|]. cbn [map concat_indices]. now rewrite Ei, IH, (Forall2_length _ _ _ _ _ V).
Qed.
Lemma face_vertices_same : forall l l', Forall2 redrawn l l' -> Forall2 same_but_uv (flat_map f_vertices l) (flat_map (@f_vertices f32) l').
Proof. intros l l' F. induction F as [|f g l l' (_ & _ & _ & V) F IH]; [constructor|]. cbn [flat_map]. now apply Forall2_app. Qed.
Definition same_part (a b : list (vertex f32) * list nat) : Prop := snd a = snd b /\ Forall2 same_but_uv (fst a) (fst b).
Lemma gather_recoated : forall b b', recoated b b' -> paired same_part (gather_brush O (fun _ => true) (Some (unique_position O)) b) (gather_brush O (fun _ => true) (Some (unique_position O)) b').
Proof.
  intros b b' ((_ & F) & _). unfold gather_brush. assert (X : forall l : list (face f32), filter (fun _ => true) l = l) by (induction l as [|f l IH]; [reflexivity|cbn; now rewrite IH]).
  rewrite !X, (offsets_same _ _ F 0). unfold filter_vertices. pose proof (face_vertices_same _ _ F) as V.
  eapply paired_bind; [apply (loop_same _ _ V _ _ (enumerate_same _ _ V)); constructor|]. intros [[ix nx] nv] [[ix' nx'] nv'] (E & G). cbn [fst snd] in *. injection E as <- <-. apply paired_ok. now split.
Qed.
Lemma parts_same : forall l l', Forall2 same_part l l' -> forall n, concat_indices n l = concat_indices n l' /\ Forall2 same_but_uv (flat_map fst l) (flat_map fst l').
Proof.
  intros l l' F. induction F as [|[vs ix] [ws ix'] l l' (E & V) F IH]; intros n; [split; [reflexivity|constructor]|]. cbn [fst snd] in *. subst ix'. cbn [concat_indices flat_map fst].
  rewrite (Forall2_length _ _ _ _ _ V). destruct (IH (n + length ws)) as (-> & H). split; [reflexivity|]. now apply Forall2_app.
Qed.
Lemma collision_recoated : forall t g g', (True -> eg_center g = eg_center g') -> Forall2 recoated (eg_brushes g) (eg_brushes g') -> paired eq (collision_of O t g) (collision_of O t g').
Proof.
  intros t [c bs] [c' bs'] Ec F. cbn [eg_center eg_brushes] in *. specialize (Ec I). subst c'. destruct t; cbn [collision_of].
  all: try (apply paired_ok; reflexivity).
  - apply paired_ok. unfold convex_collision. f_equal. cbn [eg_brushes]. induction F as [|b b' l l' ((E & R) & _) F IH]; [reflexivity|]. cbn [map]. rewrite IH, E. do 3 f_equal.
    clear - R. induction R as [|f g l l' (_ & _ & _ & V) R IH]; [reflexivity|]. cbn [flat_map]. now rewrite IH, (positions_same _ _ V).
  - unfold concave_collision, gather_entity. cbn [eg_brushes eg_center]. assert (X : forall l : list (brush_geo f32), filter (fun _ => true) l = l) by (induction l as [|f l IH]; [reflexivity|cbn; now rewrite IH]). rewrite !X.
    apply paired_bind with (R := same_part).
    + eapply paired_bind; [apply (paired_mapM _ _ _ _ recoated same_part _ _ _ _ F); exact gather_recoated|]. intros l l' G. apply paired_ok. destruct (parts_same _ _ G 0) as (E & H). now split.
    + intros [vs ix] [ws ix'] (E & V). cbn [fst snd] in *. subst ix'. pose proof (positions_same _ _ V) as Q. destruct V; apply paired_ok; [reflexivity|]. now rewrite Q.
Qed.
End Shapes.

(** ** Runs *)
Section Run.
Context (p : platform).
Local Notation O := (f32_num p).

Definition realigned_parsed (e e' : entity f32) : Prop := (forall k, get_property e k = get_property e' k) /\ Forall2 (Forall2 realigned) (e_brushes e) (e_brushes e').
Lemma parsed_alike : forall e e', realigned_parsed e e' -> aligned_alike e e'.
Proof.
  intros e e' (H & F). split; [exact H|]. induction F as [|b b' l l' G F IH]; [reflexivity|]. cbn [flat_map]. rewrite IH. f_equal. clear - G. induction G as [|x y l l' (_ & _ & _ & E & _) G IH]; [reflexivity|]. cbn [map]. now rewrite E, IH.
Qed.
Lemma face_built_bounds : forall tx e b bg f, build_brush O tx e b = Ok bg -> In f (bg_faces bg) -> in_bounds f.
Proof.
  intros tx e b bg f E Hf. unfold build_brush in E. apply bind_ok in E. destruct E as (fs & E & G). injection G as <-. cbn [bg_faces] in Hf. apply mapM_ok in E. destruct (Forall2_in_r _ _ _ _ _ _ E Hf) as (pl & _ & B).
  apply face_fan in B. exact (proj1 (proj2 B)).
Qed.
Lemma brush_recoated : forall tx tx' e e' b b', resized tx tx' -> (forall k, get_property e k = get_property e' k) -> Forall2 realigned b b' ->
  paired recoated (build_brush O tx e b) (build_brush O tx' e' b').
Proof.
  intros tx tx' e e' b b' Ht He F. destruct (brush_realigned O tx tx' e e' b b' Ht He F) as (H1 & H2). split.
  - intros x Ex. destruct (H1 x Ex) as (y & Ey & R). exists y. split; [exact Ey|]. split; [exact R|]. split; intros f Hf; [exact (face_built_bounds _ _ _ _ _ Ex Hf)|exact (face_built_bounds _ _ _ _ _ Ey Hf)].
  - intros y Ey. destruct (H2 y Ey) as (x & Ex & R). exists x. split; [exact Ex|]. split; [exact R|]. split; intros f Hf; [exact (face_built_bounds _ _ _ _ _ Ex Hf)|exact (face_built_bounds _ _ _ _ _ Ey Hf)].
Qed.
Lemma geo_recoated : forall tx tx' e e', resized tx tx' -> realigned_parsed e e' ->
  paired (fun g g' => related True aligned_alike (Forall2 recoated) (e, g) (e', g')) (build_entity_geo O tx e) (build_entity_geo O tx' e').
Proof.
  intros tx tx' e e' Ht P. pose proof (parsed_alike e e' P) as Pd. destruct P as (Hp & F). unfold build_entity_geo. eapply paired_bind.
  - apply (paired_mapM _ _ _ _ (Forall2 realigned) recoated (build_brush O tx e) (build_brush O tx' e') _ _ F). intros b b' R. now apply brush_recoated.
  - intros bs bs' S. apply paired_ok. split; [exact Pd|]. cbn [fst snd eg_center eg_brushes]. split; [|exact S]. intros _. specialize (Hp (lit "origin")). unfold get_property in Hp. rewrite <- Hp.
    assert (Em : map bg_center bs = map bg_center bs') by (clear - S; induction S as [|x y l l' ((E & _) & _) S IH]; [reflexivity|]; cbn [map]; now rewrite E, IH). now rewrite Em.
Qed.
Lemma geometry_recoated : forall tx tx' es es', resized tx tx' -> Forall2 realigned_parsed es es' ->
  paired (fun gs gs' => Forall2 (related True aligned_alike (Forall2 recoated)) (combine es gs) (combine es' gs')) (build_geometry O tx es) (build_geometry O tx' es').
Proof.
  intros tx tx' es es' Ht F. unfold build_geometry. induction F as [|e e' es es' P F IH]; [apply paired_ok; constructor|]. cbn [mapM].
  eapply paired_bind; [apply (geo_recoated tx tx' e e' Ht P)|]. intros g g' Rg. cbv beta in Rg. eapply paired_bind; [exact IH|]. intros gs gs' Rs. cbv beta in Rs. apply paired_ok. cbn [combine]. now constructor.
Qed.

Lemma lines_realigned : forall b b' pls pls', Forall2 (realigned_line p) b b' -> Forall2 (reads_as p) b pls -> Forall2 (reads_as p) b' pls' -> Forall2 realigned pls pls'.
Proof.
  intros b b' pls pls' F. revert pls pls'. induction F as [|l l' b b' (pl & pl' & R & R' & A) F IH]; intros pls pls' G G'; inversion G; inversion G'; subst; constructor; [|auto].
  match goal with Q : reads_as p l ?x, Q' : reads_as p l' ?y |- realigned ?x ?y => rewrite <- (read_unique p _ _ _ R Q), <- (read_unique p _ _ _ R' Q') end. exact A.
Qed.
Lemma entity_realigned : forall d d' e e', realigned_entity p d d' -> entity_agrees (reads_as p) d e -> entity_agrees (reads_as p) d' e' -> realigned_parsed e e'.
Proof.
  intros d d' e e' (Hv & F) (G1 & B1) (G2 & B2). split; [intros k; now rewrite G1, G2, Hv|]. clear - F B1 B2. revert F B1 B2. generalize (doc_brushes d) (doc_brushes d') (e_brushes e) (e_brushes e'). intros l l' m m' F. revert m m'.
  induction F as [|b b' l l' P F IH]; intros m m' G G'; inversion G; inversion G'; subst; constructor; [eapply lines_realigned; eauto|auto].
Qed.
Lemma realigned_readable : forall d d', Forall2 (realigned_entity p) d d' ->
  (forall e b l, In e d -> In b (doc_brushes e) -> In l b -> exists ws pl, written ws l /\ plane_words (parse_f32 (p_modern_parse p)) (to_lowercase p) ws pl)
  /\ (forall e b l, In e d' -> In b (doc_brushes e) -> In l b -> exists ws pl, written ws l /\ plane_words (parse_f32 (p_modern_parse p)) (to_lowercase p) ws pl).
Proof.
  intros d d' F. split; intros e b l He Hb Hl.
  - destruct (Forall2_in_l _ _ _ _ _ _ F He) as (e' & _ & _ & Fb). destruct (Forall2_in_l _ _ _ _ _ _ Fb Hb) as (b' & _ & G). destruct (Forall2_in_l _ _ _ _ _ _ G Hl) as (l' & _ & pl & pl' & (ws & W) & _). eauto.
  - destruct (Forall2_in_r _ _ _ _ _ _ F He) as (e' & _ & _ & Fb). destruct (Forall2_in_r _ _ _ _ _ _ Fb Hb) as (b' & _ & G). destruct (Forall2_in_r _ _ _ _ _ _ G Hl) as (l' & _ & pl & pl' & _ & (ws & W) & _). eauto.
Qed.

Context (order : hmap (list (brush_geo f32)) -> list (str * list (brush_geo f32))) (permutes : forall m, Permutation (order m) m).
Theorem run_realigned : forall fuel c c' text text' d d', cf_blacklist c = cf_blacklist c' -> cf_forge c = cf_forge c' -> cf_game c = cf_game c' -> resized (cf_textures c) (cf_textures c') ->
  file_text (cf_map c) text -> file_text (cf_map c') text' -> text_document p text d -> text_document p text' d' -> Forall2 (realigned_entity p) d d' ->
  paired (reworked_run True (same_mesh p) eq) (run p order fuel c) (run p order fuel c').
Proof.
  intros fuel c c' text text' d d' Eb Ef Eg Et Ft Ft' (ls & ts & L & K & Sg) (ls' & ts' & L' & K' & Sg') F. rewrite !run_split. apply read_ok in Ft, Ft'. rewrite Ft, Ft'. cbn [bind].
  destruct (realigned_readable d d' F) as (R & R'). destruct (load_doc p text ls ts d L K Sg R) as (ps & es & Lo & Ag). destruct (load_doc p text' ls' ts' d' L' K' Sg' R') as (ps' & es' & Lo' & Ag').
  rewrite Lo, Lo'. cbn [bind].
  assert (G : Forall2 realigned_parsed es es').
  { clear - F Ag Ag'. revert es es' Ag Ag'. induction F as [|x y d d' P F IH]; intros es es' G G'; inversion G; inversion G'; subst; constructor; [eapply entity_realigned; eauto|auto]. }
  apply (built_reworked p order permutes True (same_mesh p) eq aligned_alike (Forall2 recoated) c c' Eb Ef Eg).
  - intros e e' (H & _). exact H.
  - apply pairwise_layers, layer_recoated.
  - constructor.
  - reflexivity.
  - intros v v' [|l l' P]; split; congruence || discriminate.
  - intros k k' ->. reflexivity.
  - intros e e' g g' bd H B. now apply visual_recoated.
  - intros l t bs bs' B. now apply layer_visual_recoated.
  - intros t g g' H B. now apply collision_recoated.
  - apply geometry_recoated; assumption.
Qed.
End Run.
