(** Turning and moving a whole map: proofs of C119. *)
From Coq Require Import Reals Lra Psatz.
From Flocq Require Import Core.
From Verif Require Import Prelude F32 Text MapModel GeoModel LayerModel GameDataModel SceneModel GatherSpec GeoSpec RealSpec WindSpec RigidSpec
  BaseProofs GeoProofs LayerProofs InvarianceProofs RealProofs WindProofs ShiftProofs ReworkProofs RigidProofs.
Local Open Scope R_scope.

Section Rigid.
Context (parse : str -> option R) (cosine radians : R -> R) (atan2 : R -> R -> R)
  (quat : vec3 R -> R -> vec3 R -> vec3 R) (mat2 : R -> vec2 R -> vec2 R).
Local Notation O := (real_num parse cosine radians atan2 quat mat2).
Context (M : vec3 R -> vec3 R) (t : vec3 R) (Rot : rotation M).
Local Notation go := (carry M t).
Local Notation kin := (carried_vertex M t True).
Local Notation kin_face := (carried_face M t True).
Definition kin_brush (b c : brush_geo R) : Prop := bg_center c = go (bg_center b) /\ Forall2 kin_face (bg_faces b) (bg_faces c).

(** ** Gathering *)
Lemma eqb_same : forall f x y, (forall a b, f a = f b -> a = b) -> v3_eqb O (f x) (f y) = v3_eqb O x y.
Proof. exact (eqb_inj parse cosine radians atan2 quat mat2). Qed.
Lemma position_same : forall A (r : A -> A -> Prop) (q q' : A -> bool) l l', Forall2 r l l' -> (forall a b, r a b -> q' b = q a) -> position q' l' = position q l.
Proof. intros A r q q' l l' F H. induction F as [|a b l l' Ra F IH]; [reflexivity|]. cbn [position]. rewrite (H _ _ Ra), IH. reflexivity. Qed.
Lemma place_kin : forall v v' w w', kin v v' -> kin w w' -> same_position O v' w' = same_position O v w.
Proof. intros v v' w w' (V & _) (W & _). unfold same_position. rewrite V, W. apply eqb_same. exact (go_inj M t Rot). Qed.
Lemma vertex_kin : forall v v' w w', kin v v' -> kin w w' -> same_vertex O v' w' = same_vertex O v w.
Proof.
  intros v v' w w' (V1 & V2 & V3' & V4) (W1 & W2 & W3 & W4). destruct (V4 I) as (V5 & V6). destruct (W4 I) as (W5 & W6). unfold same_vertex.
  rewrite V1, V2, V3', V5, V6, W1, W2, W3, W5, W6. cbn [fst snd].
  now rewrite (eqb_same go _ _ (go_inj M t Rot)), !(eqb_same M _ _ (turn_inj M Rot)).
Qed.
Definition steady (pred : nat -> vertex R -> list (vertex R) -> bool) : Prop :=
  forall i v v' l l', kin v v' -> Forall2 kin l l' -> pred i v' l' = pred i v l.
Lemma unique_steady : steady (unique O).
Proof.
  intros i v v' l l' V F. unfold unique, first_at. rewrite (position_same _ kin (fun c => same_vertex O c v) _ _ _ F); [reflexivity|]. intros a b Ab. now apply vertex_kin.
Qed.
Lemma place_steady : steady (unique_position O).
Proof.
  intros i v v' l l' V F. unfold unique_position, first_at. rewrite (position_same _ kin (fun c => same_position O c v) _ _ _ F); [reflexivity|]. intros a b Ab. now apply place_kin.
Qed.
Lemma loop_kin : forall pred vs vs', steady pred -> Forall2 kin vs vs' -> forall todo todo', Forall2 (fun x y => fst y = fst x /\ kin (snd x) (snd y)) todo todo' ->
  forall ix nix nv nv', Forall2 kin nv nv' ->
  paired (fun a b => fst b = fst a /\ Forall2 kin (snd a) (snd b)) (filter_loop O pred vs todo ix nix nv) (filter_loop O pred vs' todo' ix nix nv').
Proof.
  intros pred vs vs' St F todo todo' Ft. induction Ft as [|[i v] [i' v'] todo todo' (Ei & Rv) Ft IH]; intros ix nix nv nv' Fn; cbn [fst snd] in *.
  - apply paired_ok. cbn [fst snd]. auto.
  - subst i'. cbn [filter_loop]. rewrite (St i v v' vs vs' Rv F). destruct (pred i v vs).
    + apply IH. apply Forall2_app; [exact Fn|]. now constructor.
    + assert (Ep : position (fun comp => same_position O comp v') vs' = position (fun comp => same_position O comp v) vs).
      { apply (position_same _ kin _ _ _ _ F). intros a b Ab. now apply place_kin. }
      rewrite Ep. destruct (position _ vs) as [k|]; cbn [unwrap bind]; [|apply paired_fail; discriminate]. now apply IH.
Qed.
Lemma enumerate_kin : forall l l' i, Forall2 kin l l' -> Forall2 (fun x y => fst y = fst x /\ kin (snd x) (snd y)) (enumerate_from i l) (enumerate_from i l').
Proof. intros l l' i F. revert i. induction F as [|a b l l' Ab F IH]; intros i; cbn [enumerate_from]; [constructor|]. constructor; [split; [reflexivity|exact Ab]|apply IH]. Qed.
Definition gathered (a b : list (vertex R) * list nat) : Prop := Forall2 kin (fst a) (fst b) /\ snd b = snd a.
Lemma vertices_kin : forall pred vs vs' ix, steady pred -> Forall2 kin vs vs' -> paired gathered (filter_vertices O vs ix pred) (filter_vertices O vs' ix pred).
Proof.
  intros pred vs vs' ix St F. unfold filter_vertices. eapply paired_bind; [apply (loop_kin pred vs vs' St F); [now apply enumerate_kin|constructor]|].
  intros [[a1 a2] a3] [[b1 b2] b3] (E & Fv). cbn [fst snd] in *. injection E as -> ->. apply paired_ok. split; [exact Fv|reflexivity].
Qed.
Lemma concat_same : forall A (l l' : list (list A * list nat)) k, Forall2 (fun x y => length (fst y) = length (fst x) /\ snd y = snd x) l l' ->
  concat_indices k l' = concat_indices k l.
Proof.
  intros A l l' k F. revert k. induction F as [|[a x] [b y] l l' (E & Ex) F IH]; intros k; [reflexivity|]. cbn [concat_indices fst snd] in *. subst y. rewrite IH, E. reflexivity.
Qed.
Lemma flat_kin : forall A (r : A -> A -> Prop) (f : A -> list (vertex R)) l l', Forall2 r l l' -> (forall a b, r a b -> Forall2 kin (f a) (f b)) -> Forall2 kin (flat_map f l) (flat_map f l').
Proof. intros A r f l l' F H. induction F as [|a b l l' Ab F IH]; [constructor|]. cbn [flat_map]. apply Forall2_app; auto. Qed.
Lemma length_kin : forall A B (r : A -> B -> Prop) l l', Forall2 r l l' -> length l' = length l.
Proof. intros A B r l l' F. induction F; cbn; congruence. Qed.
Lemma brush_kin : forall q pred b b', (forall f f', f_texture f' = f_texture f -> q f = q f') -> steady pred -> kin_brush b b' ->
  paired gathered (gather_brush O q (Some pred) b) (gather_brush O q (Some pred) b').
Proof.
  intros q pred b b' Q St (_ & F). unfold gather_brush. cbv zeta.
  assert (Ff : Forall2 kin_face (filter q (bg_faces b)) (filter q (bg_faces b'))) by (apply filter_same; [exact F|]; intros x y (_ & _ & _ & E); now apply Q).
  assert (E : concat_indices 0 (map (fun f => (f_vertices f, f_indices f)) (filter q (bg_faces b'))) = concat_indices 0 (map (fun f => (f_vertices f, f_indices f)) (filter q (bg_faces b)))).
  { apply concat_same. clear -Ff. induction Ff as [|x y l l' (_ & Fv & Ei & _) Ff IH]; cbn [map]; [constructor|]. constructor; [|exact IH]. cbn [fst snd].
    split; [exact (length_kin _ _ _ _ _ Fv)|exact Ei]. }
  rewrite E. apply vertices_kin; [exact St|]. apply (flat_kin _ kin_face _ _ _ Ff). intros x y (_ & Fv & _). exact Fv.
Qed.
Lemma entity_kin : forall r q pred g g', (forall b b', kin_brush b b' -> r b = r b') -> (forall f f', f_texture f' = f_texture f -> q f = q f') -> steady pred ->
  Forall2 kin_brush (eg_brushes g) (eg_brushes g') -> paired gathered (gather_entity O r q (Some pred) g) (gather_entity O r q (Some pred) g').
Proof.
  intros r q pred g g' Hr Q St F. unfold gather_entity. apply paired_bind with (R := Forall2 gathered).
  - apply paired_mapM with (P := kin_brush); [apply filter_same; [exact F|exact Hr]|]. intros x y Rx. now apply brush_kin.
  - intros ps ps' Fp. apply paired_ok. split; cbn [fst snd].
    + apply (flat_kin _ gathered _ _ _ Fp). intros x y (Fv & _). exact Fv.
    + apply concat_same. eapply Forall2_impl; [|exact Fp]. intros x y (Fv & E). split; [exact (length_kin _ _ _ _ _ Fv)|exact E].
Qed.

(** ** Visuals *)
Lemma texture_kin : forall x (f f' : face R), f_texture f' = f_texture f -> has_texture x f = has_texture x f'.
Proof. intros x f f' E. unfold has_texture. now rewrite E. Qed.
Lemma listed_kin : forall bl b b', kin_brush b b' -> brush_not_blacklisted bl b = brush_not_blacklisted bl b'.
Proof.
  intros bl b b' (_ & F). unfold brush_not_blacklisted. induction F as [|x y l l' (_ & _ & _ & E) F IH]; [reflexivity|]. cbn [existsb]. now rewrite E, IH.
Qed.
Lemma map_kin : forall A (f g : vertex R -> A) l l', Forall2 kin l l' -> (forall v w, kin v w -> g w = f v) -> map g l' = map f l.
Proof. intros A f g l l' F H. induction F as [|a b l l' Ab F IH]; [reflexivity|]. cbn [map]. now rewrite IH, (H _ _ Ab). Qed.
Definition option_kin (a b : option (surface R)) : Prop :=
  match a, b with Some s, Some s' => carried_surface M t s s' | None, None => True | _, _ => False end.
Lemma surface_kin : forall bl x g g', Forall2 kin_brush (eg_brushes g) (eg_brushes g') -> paired option_kin (texture_surface O g bl x) (texture_surface O g' bl x).
Proof.
  intros bl x g g' F. unfold texture_surface. eapply paired_bind.
  - apply entity_kin; [intros b b'; apply listed_kin|intros f f'; apply texture_kin|exact unique_steady|exact F].
  - intros [vs ix] [vs' ix'] (Fv & E). cbn [fst snd] in *. subst ix'. apply paired_ok. destruct Fv as [|v w l l' Vw Fv]; [exact I|].
    cbn [option_kin]. assert (Fl : Forall2 kin (v :: l) (w :: l')) by now constructor. set (vs := v :: l) in *. set (ws := w :: l') in *. clearbody vs ws. clear Vw Fv v w l l'.
    unfold carried_surface. cbn [s_texture s_vertices s_normals s_tangents s_uvs s_colors s_indices]. split; [reflexivity|].
    rewrite !map_map. split; [apply (map_kin _ _ _ _ _ Fl); intros v w V; apply V|]. split; [apply (map_kin _ _ _ _ _ Fl); intros v w V; apply V|].
    split; [apply (map_kin _ _ _ _ _ Fl); intros v w V; apply V, I|].
    split; [f_equal; apply (map_kin _ _ _ _ _ Fl); intros v w V; apply V, I|]. split; [f_equal; apply (map_kin _ _ _ _ _ Fl); intros v w V; apply V|reflexivity].
Qed.
Definition pictured (e e' : entity R) : Prop := flat_map (fun b => map bp_texture b) (e_brushes e') = flat_map (fun b => map bp_texture b) (e_brushes e).
Lemma brush_visual_kin : forall e e' g g' bd bl, pictured e e' -> Forall2 kin_brush (eg_brushes g) (eg_brushes g') ->
  paired (carried_visual M t) (brush_visual O e g bd bl) (brush_visual O e' g' bd bl).
Proof.
  intros e e' g g' bd bl P F. unfold brush_visual. destruct (bd_visual bd); try (apply paired_ok; exact I). rewrite P. cbv zeta.
  set (tx := map Some _ ++ [None]). clearbody tx. apply paired_bind with (R := Forall2 option_kin).
  - apply paired_mapM with (P := eq); [clear; induction tx; constructor; auto|]. intros x y <-. now apply surface_kin.
  - intros ss ss' Fs. assert (Q : Forall2 (carried_surface M t) (filter_map (fun o => o) ss) (filter_map (fun o => o) ss')).
    { clear -Fs. induction Fs as [|[x|] [y|] l m Rx Fs IH]; cbn [filter_map option_kin] in *; try contradiction; auto. }
    destruct Q; apply paired_ok; cbn [carried_visual]; auto.
Qed.
Lemma layer_visual_kin : forall l x bs bs', Forall2 kin_brush bs bs' -> paired (carried_visual M t) (layer_visual O l x bs) (layer_visual O l x bs').
Proof.
  intros l x bs bs' F. unfold layer_visual. destruct (wl_visual l); try (apply paired_ok; exact I). apply paired_bind with (R := option_kin); [now apply surface_kin|].
  intros [s|] [s'|] Rs; try contradiction; apply paired_ok; cbn [carried_visual]; auto.
Qed.

(** ** Collision *)
Lemma points_kin : forall l, unique_points O (map go l) = map go (unique_points O l).
Proof.
  induction l as [|x l IH]; [reflexivity|]. cbn [map unique_points].
  assert (E : existsb (fun comp => v3_eqb O (go x) comp) (map go l) = existsb (fun comp => v3_eqb O x comp) l).
  { clear IH. induction l as [|y l IH]; [reflexivity|]. cbn [map existsb]. rewrite IH, (eqb_same go _ _ (go_inj M t Rot)). reflexivity. }
  rewrite E, IH. destruct (existsb _ l); reflexivity.
Qed.
Lemma collision_kin : forall h ty g g', eg_center g' = h (eg_center g) -> Forall2 kin_brush (eg_brushes g) (eg_brushes g') ->
  paired (carried_collision M t h) (collision_of O ty g) (collision_of O ty g').
Proof.
  intros h ty g g' C F. unfold collision_of. destruct ty.
  all: try (apply paired_ok; exact I).
  - apply paired_ok. unfold convex_collision. cbn [carried_collision]. induction F as [|b b' l l' (Cb & Fb) F IH]; cbn [map]; [constructor|]. constructor; [|exact IH].
    split; cbn [cx_center cx_points]; [exact Cb|]. rewrite <- points_kin. f_equal. clear -Fb. induction Fb as [|f f' l l' (_ & Fv & _) Fb IH]; [reflexivity|].
    cbn [flat_map]. rewrite map_app, IH. f_equal. rewrite map_map. apply (map_kin _ _ _ _ _ Fv). intros v w V. apply V.
  - unfold concave_collision. eapply paired_bind.
    + apply entity_kin; [reflexivity|reflexivity|exact place_steady|exact F].
    + intros [vs ix] [vs' ix'] (Fv & E). cbn [fst snd] in *. subst ix'. apply paired_ok. destruct Fv as [|v w l l' Vw Fv]; [exact I|]. cbn [carried_collision].
      constructor; [|constructor]. split; cbn [cc_center cc_vertices cc_indices]; [exact C|]. split; [|reflexivity]. rewrite map_map. apply (map_kin _ _ _ (v :: l) (w :: l')); [now constructor|].
      intros a b V. apply V.
Qed.

(** ** Trees *)
Definition off_origin (e e' : entity R) : Prop := forall k, k <> lit "origin" -> get_property e' k = get_property e k.
Definition related (d d' : entity R * entity_geo R) : Prop :=
  off_origin (fst d) (fst d') /\ pictured (fst d) (fst d') /\ eg_center (snd d') = go (eg_center (snd d)) /\ Forall2 kin_brush (eg_brushes (snd d)) (eg_brushes (snd d')).
Ltac off H := rewrite ?(H (lit "classname")), ?(H (lit "_tb_group")), ?(H (lit "_tb_id")), ?(H (lit "_tb_type")), ?(H (lit "_tb_name")) by discriminate.

Section Scene.
Context (gd : game_data R) (fd : forge_data R) (bl : blacklist).
Lemma visual_kin : forall e e' g g', related (e, g) (e', g') -> paired (carried_visual M t) (entity_visual O gd bl e g) (entity_visual O gd bl e' g').
Proof.
  intros e e' g g' (P & Pi & C & F). cbn [fst snd] in *. unfold entity_visual. off P. destruct (get_property e (lit "classname")) as [c|]; [|apply paired_fail; discriminate].
  destruct (find_def gd c) as [d|]; [|now apply paired_ok]. destruct (ed_data d) as [q|q bd]; [now apply paired_ok|]. now apply brush_visual_kin.
Qed.
Lemma entity_collision_kin : forall e e' g g', related (e, g) (e', g') -> paired (carried_collision M t go) (entity_collision O gd e g) (entity_collision O gd e' g').
Proof.
  intros e e' g g' (P & Pi & C & F). cbn [fst snd] in *. unfold entity_collision. off P. destruct (get_property e (lit "classname")) as [c|]; [|apply paired_fail; discriminate].
  destruct (find_def gd c) as [d|]; [|now apply paired_ok]. destruct (ed_data d) as [q|q bd]; [now apply paired_ok|]. now apply collision_kin.
Qed.
Definition agreeing (m m' : properties R) : Prop := forall k, k <> lit "origin" -> hget m' k = hget m k.
Lemma hput_agrees : forall m m' k x y, agreeing m m' -> (k <> lit "origin" -> x = y) -> agreeing (hput m k x) (hput m' k y).
Proof.
  intros m m' k x y A E j Hj. rewrite !hget_hput. destruct (str_eqb j k) eqn:J; [|now apply A].
  apply str_eqb_eq in J. subst j. now rewrite E.
Qed.
Lemma properties_kin : forall e e', off_origin e e' -> paired agreeing (get_properties O fd e) (get_properties O fd e').
Proof.
  intros e e' P. unfold get_properties, add_internal_integer, add_internal_string. off P.
  assert (R0 : forall m, agreeing m m) by (intros m k _; reflexivity).
  destruct (find_forge fd _) as [fe|]; [|now apply paired_ok].
  match goal with |- paired _ (bind ?x _) _ => destruct x as [m| | |] end; cbn [bind]; try (apply paired_fail; discriminate).
  match goal with |- paired _ (bind ?x _) _ => destruct x as [m'| | |] end; cbn [bind]; try (apply paired_fail; discriminate).
  apply paired_ok. cbv zeta.
  match goal with |- agreeing (fold_left _ _ ?x) _ => generalize x; intros m0 end.
  assert (G : forall l a b, agreeing a b -> agreeing (fold_left (fun m fp => hput m (fp_name fp) (property_value O (fp_data fp) (get_property e (fp_name fp)))) l a)
    (fold_left (fun m fp => hput m (fp_name fp) (property_value O (fp_data fp) (get_property e' (fp_name fp)))) l b)).
  { induction l as [|x l IH]; intros a b A; [exact A|]. cbn [fold_left]. apply IH. apply hput_agrees; [exact A|]. intros N. now rewrite (P _ N). }
  apply G, R0.
Qed.
Lemma geometry_nodes_kin : forall h f c v v' k k', carried_visual M t v v' -> carried_collision M t h k k' ->
  Forall2 (carried_node M t h f) (visual_nodes c v) (visual_nodes (h c) v') /\ Forall2 (carried_node M t h f) (collision_nodes c k) (collision_nodes (h c) k').
Proof.
  intros h f c v v' k k' V K. split.
  - destruct v, v'; try contradiction; cbn [visual_nodes]; repeat constructor. exact V.
  - destruct k, k'; try contradiction; cbn [collision_nodes]; repeat constructor; exact K.
Qed.
Lemma build_kin : forall data data', Forall2 related data data' -> forall fuel f o o' d d',
  (forall c, v3_add O o' (go c) = f (v3_add O o c)) -> related d d' ->
  paired (carried_node M t go f) (build_entity O fuel gd fd bl data o d) (build_entity O fuel gd fd bl data' o' d').
Proof.
  intros data data' F fuel. induction fuel as [|fuel IH]; intros f o o' [e g] [e' g'] Ho R; [apply paired_fail; discriminate|].
  pose proof R as (P & Pi & C & Fb). cbn [fst snd] in P, Pi, C, Fb. cbn [build_entity].
  apply paired_bind with (R := carried_visual M t); [now apply visual_kin|]. intros v v' Rv.
  apply paired_bind with (R := carried_collision M t go); [now apply entity_collision_kin|]. intros k k' Rk.
  apply paired_bind with (R := Forall2 (carried_node M t go M)).
  { apply paired_mapM with (P := related).
    - apply filter_same; [now apply tl_same|]. intros x y (Px & _). unfold is_child. off Px. off P. reflexivity.
    - intros x y Rx. apply IH; [|exact Rx]. intros c. rewrite C. clear -Rot.
      change (v3_add O (v3_neg O (eg_center g)) c) with (along c (v3_neg O (eg_center g))). rewrite turn_add by exact Rot.
      assert (En : forall a, v3_neg O a = scaled (-1) a) by (intros a; unfold v3_neg; cbn [n_vneg real_num]; apply v3_ext; vectors; ring).
      rewrite !En, turn_scale by exact Rot. unfold carry. generalize (M c) (M (eg_center g)); intros x y. unfold v3_add, along. cbn [n_add real_num]. apply v3_ext; vectors; ring. }
  intros ch ch' Rch. off P. destruct (get_property e (lit "classname")) as [c|]; cbn [unwrap bind]; [|apply paired_fail; discriminate].
  apply paired_bind with (R := agreeing); [now apply properties_kin|]. intros ps ps' Ps. apply paired_ok.
  rewrite C, Ho. constructor.
  - unfold carried_actor, get_entity_type, get_component_class, get_application_type, entity_point. off P.
    cbn [a_name a_type a_component a_application a_properties]. repeat split. exact Ps.
  - destruct (geometry_nodes_kin go M (eg_center g) v v' k k' Rv Rk) as (A & B). apply Forall2_app; [exact A|]. apply Forall2_app; [exact B|exact Rch].
Qed.
Definition layer_kin (l l' : str * list (brush_geo R)) : Prop := fst l = fst l' /\ Forall2 kin_brush (snd l) (snd l').
Local Notation still := (fun x : vec3 R => x).
Definition node_kin (o o' : option (node R)) : Prop :=
  match o, o' with Some n, Some n' => carried_node M t still still n n' | None, None => True | _, _ => False end.
Lemma build_layer_kin : forall l l', layer_kin l l' -> paired node_kin (build_layer O gd l) (build_layer O gd l').
Proof.
  intros [x bs] [x' bs'] (Et & Rb). cbn [fst snd] in *. subst x'. unfold build_layer.
  destruct (filter (fun l => str_eqb (wl_texture l) x) (gd_layers gd)) as [|l [|]]; [now apply paired_ok| |now apply paired_ok].
  apply paired_bind with (R := carried_visual M t); [now apply layer_visual_kin|]. intros v v' Rv.
  apply paired_bind with (R := carried_collision M t still); [now apply collision_kin|]. intros k k' Rk.
  destruct (geometry_nodes_kin still M (v3_zero O) v v' k k' Rv Rk) as (A & B). pose proof (Forall2_app A B) as F. cbv beta in F.
  destruct F as [|n n' ns ns' N F]; apply paired_ok; [exact I|]. cbn [node_kin]. apply (CarriedActor M t still still (v3_zero O)).
  - repeat split.
  - now constructor.
Qed.
Lemma somes_kin : forall ls ls', Forall2 node_kin ls ls' -> Forall2 (carried_node M t still still) (filter_map (fun o => o) ls) (filter_map (fun o => o) ls').
Proof. intros ls ls' F. induction F as [|[x|] [y|] l m R F IH]; cbn [filter_map node_kin] in *; try contradiction; [constructor|constructor; assumption|exact IH]. Qed.
Lemma top_kin : forall c, v3_add O (v3_zero O) (go c) = go (v3_add O (v3_zero O) c).
Proof.
  assert (Z : forall c, v3_add O (v3_zero O) c = c) by (intros c; unfold v3_add, v3_zero; cbn [n_add n_zero real_num]; apply v3_ext; vectors; ring).
  intros c. now rewrite !Z.
Qed.
Lemma scene_kin : forall fuel x x' data data' layers layers', related x x' -> Forall2 related data data' -> Forall2 layer_kin layers layers' ->
  paired (carried_scene M t) (build_scene O fuel gd fd bl (x :: data) layers) (build_scene O fuel gd fd bl (x' :: data') layers').
Proof.
  intros fuel x x' data data' layers layers' Rx F Fl. assert (F' : Forall2 related (x :: data) (x' :: data')) by now constructor. unfold build_scene. cbn [firstn tl].
  apply paired_bind with (R := fun ws ws' => exists w w', ws = [w] /\ ws' = [w'] /\ carried_node M t go go w w').
  { cbn [mapM]. apply paired_bind with (R := carried_node M t go go); [apply (build_kin _ _ F'); [exact top_kin|exact Rx]|]. intros w w' Rw. apply paired_ok. eauto. }
  intros ws ws' (w & w' & -> & -> & Rw). apply paired_bind with (R := Forall2 node_kin).
  { apply paired_mapM with (P := layer_kin); [exact Fl|exact build_layer_kin]. }
  intros ls ls' Rl. apply paired_bind with (R := Forall2 (carried_node M t go go)).
  { apply paired_mapM with (P := related).
    - apply filter_same; [exact F|]. intros y y' (Ry & _). off Ry. reflexivity.
    - intros y y' Ry. apply (build_kin _ _ F'); [exact top_kin|exact Ry]. }
  intros os os' Fo. apply paired_ok. exists w, (filter_map (fun o => o) ls), os, w', (filter_map (fun o => o) ls'), os'.
  repeat (split; [auto using somes_kin; fail|]). exact Fo.
Qed.
Lemma layer_filter_kin : forall data data', Forall2 related data data' ->
  paired (fun r r' => exists x x' rest rest', fst r = x :: rest /\ fst r' = x' :: rest' /\ related x x' /\ Forall2 related rest rest' /\ Forall2 layer_kin (snd r) (snd r'))
    (layer_filter data) (layer_filter data').
Proof.
  intros data data' F. unfold layer_filter. rewrite !partition_filter.
  assert (Hw : forall x y, related x y -> is_worldspawn x = is_worldspawn y) by (intros x y (P & _); unfold is_worldspawn; off P; reflexivity).
  assert (W : Forall2 related (filter is_worldspawn data) (filter is_worldspawn data')) by (apply filter_same; assumption).
  assert (N : Forall2 related (filter (fun x => negb (is_worldspawn x)) data) (filter (fun x => negb (is_worldspawn x)) data')).
  { apply filter_same; [exact F|]. intros x y R. now rewrite (Hw x y R). }
  destruct W as [|[e g] [e' g'] l l' R W]; [apply paired_fail; discriminate|]. destruct W as [|[e2 g2] [e2' g2'] l l' R2 W]; [|apply paired_fail; discriminate].
  destruct R as (P & Pi & C & Fb). cbn [fst snd] in *. rewrite (layers_split (eg_brushes g)), (layers_split (eg_brushes g')). apply paired_ok. cbn [fst snd].
  assert (L : forall x b b', kin_brush b b' -> in_layer x b = in_layer x b').
  { intros x b b' (_ & H). unfold in_layer. induction H as [|f f' l l' (_ & _ & _ & E) H IH]; [reflexivity|]. cbn [forallb]. now rewrite E, IH. }
  assert (Fa : forall x l l', Forall2 kin_brush l l' -> Forall2 kin_brush (filter (in_layer x) l) (filter (in_layer x) l')) by (intros x l l' H; apply filter_same; [exact H|exact (L x)]).
  assert (Fn : forall x l l', Forall2 kin_brush l l' -> Forall2 kin_brush (filter (fun b => negb (in_layer x b)) l) (filter (fun b => negb (in_layer x b)) l'))
    by (intros x l l' H; apply filter_same; [exact H|]; intros a b Ab; now rewrite (L x _ _ Ab)).
  do 4 eexists. split; [reflexivity|]. split; [reflexivity|]. split; [repeat split; cbn [fst snd eg_center eg_brushes]; auto|]. split; [exact N|].
  repeat constructor; cbn [fst snd]; auto.
Qed.
End Scene.

(** ** Whole maps *)
Lemma comps_of : forall x y z, ~ In 32%N x -> ~ In 32%N y -> ~ In 32%N z -> split_char 32 (x ++ [32%N] ++ y ++ [32%N] ++ z) = [x; y; z].
Proof.
  intros x y z X Y Z. cbn [app]. rewrite split_char_app_sep by exact X. rewrite split_char_app_sep by exact Y. now rewrite split_char_none.
Qed.
Lemma entity_go : forall tx e e' g, carried_entity parse M t e e' -> (forall b, In b (e_brushes e) -> forall pl, In pl b -> locked pl) ->
  (forall b h, In b (e_brushes e) -> build_brush O tx e b = Ok h -> full h) ->
  build_entity_geo O tx e = Ok g -> exists g', build_entity_geo O tx e' = Ok g' /\ eg_center g' = go (eg_center g) /\ Forall2 kin_brush (eg_brushes g) (eg_brushes g').
Proof.
  intros tx e e' g (Eb & P & Or) Lk Fu. unfold build_entity_geo. destruct (mapM (build_brush O tx e) (e_brushes e)) as [bs| | |] eqn:E; try discriminate. cbn [bind].
  intros H. assert (Hg : g = EntityGeo (match hget (e_props e) (lit "origin") with Some origin => let comps := split_char 32 origin in V3 (origin_comp O comps 0) (origin_comp O comps 1) (origin_comp O comps 2) | None => mean O (map bg_center bs) end) bs)
    by (injection H as <-; reflexivity). clear H. subst g. cbn [eg_center eg_brushes].
  assert (Ph : alike_phong e e') by (split; apply P; discriminate).
  assert (G : exists cs, mapM (build_brush O tx e') (e_brushes e') = Ok cs /\ Forall2 kin_brush bs cs).
  { rewrite Eb. apply mapM_ok in E. clear Eb Or. induction E as [|b h l bs Hb E IH]; [exists []; split; [reflexivity|constructor]|].
    destruct IH as (cs & Ec & Fc); [intros c Ic; apply Lk; now right|intros c k Ic; apply Fu; now right|].
    destruct (brush_go parse cosine radians atan2 quat mat2 M t Rot tx e e' b h Ph Hb) as (h' & Hb' & (C & F)).
    exists (h' :: cs). cbn [map mapM]. rewrite Hb', Ec. split; [reflexivity|]. constructor; [|exact Fc]. split; [apply C; apply (Fu b h); [now left|exact Hb]|].
    eapply Forall2_impl; [|exact F]. intros f f' (F1 & F2 & F3). split; [exact F1|]. split; [|exact F3]. eapply Forall2_impl; [|exact F2].
    intros v w (V1 & V2 & V3' & V4). split; [exact V1|]. split; [exact V2|]. split; [exact V3'|]. intros _. apply V4. apply Lk. now left. }
  destruct G as (cs & Ec & Fc). rewrite Ec. cbn [bind]. eexists. split; [reflexivity|]. cbn [eg_center eg_brushes]. split; [|exact Fc].
  destruct Or as [(N & N' & Ne)|(c & (x & y & z & Ex & X & Y & Z & Px & Py & Pz) & (x' & y' & z' & Ex' & X' & Y' & Z' & Px' & Py' & Pz'))].
  - rewrite N, N'. assert (Mc : map bg_center cs = map go (map bg_center bs)).
    { clear -Fc. induction Fc as [|b c l l' (C & _) F IH]; [reflexivity|]. cbn [map]. now rewrite C, IH. }
    rewrite Mc. apply mean_go; [exact Rot|]. apply mapM_ok in E. destruct E; [contradiction|discriminate].
  - rewrite Ex, Ex'. cbv zeta. rewrite !comps_of by assumption. unfold origin_comp. cbn [nth n_parse real_num]. rewrite Px, Py, Pz, Px', Py', Pz'.
    destruct c as [c1 c2 c3]. cbn [vx vy vz]. destruct (go (V3 c1 c2 c3)); reflexivity.
Qed.

Theorem map_go : forall fuel gd fd bl tx es es' nodes,
  Forall2 (carried_entity parse M t) es es' ->
  (forall e b pl, In e es -> In b (e_brushes e) -> In pl b -> locked pl) ->
  (forall e b g, In e es -> In b (e_brushes e) -> build_brush O tx e b = Ok g -> full g) ->
  exact_scene O fuel gd fd bl tx es = Ok nodes ->
  exists nodes', exact_scene O fuel gd fd bl tx es' = Ok nodes' /\ carried_scene M t nodes nodes'.
Proof.
  intros fuel gd fd bl tx es es' nodes F Lk Fu. unfold exact_scene. intros H. apply bind_ok in H. destruct H as (geo & Eg & H). unfold build_geometry in *.
  assert (G : exists geo', mapM (build_entity_geo O tx) es' = Ok geo' /\ Forall2 related (combine es geo) (combine es' geo')).
  { clear H. revert geo Eg. induction F as [|e e' l l' Ce F IH]; intros geo Eg.
    - cbn [mapM] in Eg. injection Eg as <-. exists []. split; [reflexivity|constructor].
    - cbn [mapM] in Eg. apply bind_ok in Eg. destruct Eg as (g & Hg & Eg). apply bind_ok in Eg. destruct Eg as (gs & Hgs & Eg). injection Eg as <-.
      destruct (IH (fun x b pl Ix => Lk x b pl (or_intror Ix)) (fun x b k Ix => Fu x b k (or_intror Ix)) gs Hgs) as (gs' & Hgs' & R).
      destruct (entity_go tx e e' g Ce (fun b Ib pl => Lk e b pl (or_introl eq_refl) Ib) (fun b k => Fu e b k (or_introl eq_refl)) Hg) as (g' & Hg' & C & Fb).
      exists (g' :: gs'). cbn [mapM]. rewrite Hg', Hgs'. split; [reflexivity|]. cbn [combine]. constructor; [|exact R].
      destruct Ce as (Eb & P & _). split; [exact P|]. split; [|split; [exact C|exact Fb]]. unfold pictured. cbn [fst]. rewrite Eb. clear.
      induction (e_brushes e) as [|b bs IH]; [reflexivity|]. cbn [map flat_map]. now rewrite IH, map_map. }
  destruct G as (geo' & Eg' & R). rewrite Eg'. cbn [bind].
  assert (Q : paired (carried_scene M t) ('(data, layers) <- layer_filter (combine es geo) ;; build_scene O fuel gd fd bl data layers)
    ('(data, layers) <- layer_filter (combine es' geo') ;; build_scene O fuel gd fd bl data layers)).
  { eapply paired_bind; [exact (layer_filter_kin _ _ R)|]. intros [d ls] [d' ls'] (x & x' & rest & rest' & E & E' & Rx & Fr & Fl). cbn [fst snd] in *. subst d d'. now apply scene_kin. }
  destruct Q as (Q & _). destruct (Q nodes H) as (n' & E' & C). exists n'. split; [exact E'|exact C].
Qed.
End Rigid.
