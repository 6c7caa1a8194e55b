(** What a run may depend on: lemmas for C76 to C78. *)
From Coq Require Import Permutation.
From Verif Require Import Prelude F32 Text MapModel GeoModel LayerModel GameDataModel SceneModel RunModel
  LayerSpec TreeSpec PropertySpec MapSpec Utf8Spec RunSpec InvarianceSpec
  BaseProofs TokenProofs ParserProofs MapProofs GeoProofs GeoFinal LayerProofs NodeProofs PropertyProofs RunProofs.

Lemma alike_refl : forall T (e : entity T), alike e e.
Proof. split; auto. Qed.

(** ** Geometry *)
Section Geo.
Context (p : platform).
Local Notation O := (f32_num p).

Lemma face_alike : forall tx tx' e e' b pl, alike e e' -> hget tx (bp_texture pl) = hget tx' (bp_texture pl) ->
  build_face O tx e b pl = build_face O tx' e' b pl.
Proof.
  intros tx tx' e e' b pl (_ & A) H. unfold build_face. rewrite <- H.
  assert (Ph : is_phong e = is_phong e') by (unfold is_phong, get_property; now rewrite A). rewrite Ph.
  assert (V : plane_vertices O (hget tx (bp_texture pl)) e b pl = plane_vertices O (hget tx (bp_texture pl)) e' b pl).
  { unfold plane_vertices. f_equal. apply mapM_ext. intros x _. unfold build_plane_vertex, vertex_normal, get_property. rewrite Ph, A. reflexivity. }
  rewrite V. reflexivity.
Qed.
Lemma entity_geo_alike : forall tx tx' e e', alike e e' ->
  (forall b pl, In b (e_brushes e) -> In pl b -> hget tx (bp_texture pl) = hget tx' (bp_texture pl)) ->
  build_entity_geo O tx e = build_entity_geo O tx' e'.
Proof.
  intros tx tx' e e' A H. pose proof A as (B & K). unfold build_entity_geo. rewrite <- B.
  assert (E : mapM (build_brush O tx e) (e_brushes e) = mapM (build_brush O tx' e') (e_brushes e)).
  { apply mapM_ext. intros b Hb. unfold build_brush.
    assert (F : mapM (build_face O tx e b) b = mapM (build_face O tx' e' b) b) by (apply mapM_ext; intros pl Hp; apply face_alike; eauto).
    rewrite F. reflexivity. }
  rewrite E, K. reflexivity.
Qed.
Lemma geometry_alike : forall tx tx' es es', Forall2 alike es es' ->
  (forall t, named es t -> hget tx t = hget tx' t) -> build_geometry O tx es = build_geometry O tx' es'.
Proof.
  intros tx tx' es es' F H. unfold build_geometry. induction F as [|e e' es es' A F IH]; [reflexivity|]. cbn [mapM].
  rewrite (entity_geo_alike tx tx' e e' A).
  - rewrite IH; [reflexivity|]. intros t (x & b & pl & I & R). apply H. exists x, b, pl. split; [now right|exact R].
  - intros b pl Ib Ip. apply H. exists e, b, pl. repeat split; auto. now left.
Qed.
End Geo.

(** ** Scene *)
Section Scene.
Context (p : platform).
Local Notation O := (f32_num p).
Context (c c' : config) (es : list (entity f32)) (A : agree_on es c c').
Local Notation gd := (cf_game c).
Local Notation gd' := (cf_game c').
Local Notation fd := (cf_forge c).
Local Notation fd' := (cf_forge c').
Local Notation bl := (cf_blacklist c).
Local Notation bl' := (cf_blacklist c').

Lemma find_same : forall e cl, In e es -> hget (e_props e) (lit "classname") = Some cl -> find_def gd cl = find_def gd' cl.
Proof.
  intros e cl I H. pose proof (find_def_spec gd cl) as S1. pose proof (find_def_spec gd' cl) as S2.
  assert (D : forall d, first_with (fun d => ed_classname d = cl) (gd_entities gd) d <-> first_with (fun d => ed_classname d = cl) (gd_entities gd') d).
  { intros d. destruct (agree_game _ _ _ A e d I) as (L & R). split; intros F.
    - destruct L as (cl' & E & F'); [exists cl; auto|]. rewrite H in E. injection E as <-. exact F'.
    - destruct R as (cl' & E & F'); [exists cl; auto|]. rewrite H in E. injection E as <-. exact F'. }
  assert (In' : forall (g : game_data f32) d, first_with (fun d => ed_classname d = cl) (gd_entities g) d -> In d (gd_entities g) /\ ed_classname d = cl).
  { intros g d (l1 & l2 & -> & E & _). split; [apply in_or_app; cbn; auto|exact E]. }
  destruct (find_def gd cl) as [d|], (find_def gd' cl) as [d'|]; [| | |reflexivity].
  - apply D in S1. f_equal. eapply first_with_unique; eauto.
  - apply D in S1. destruct (In' _ _ S1). now destruct (S2 d).
  - apply D in S2. destruct (In' _ _ S2). now destruct (S1 d').
Qed.

Lemma forge_same : forall e, In e es -> find_forge fd (get_property e (lit "classname")) = find_forge fd' (get_property e (lit "classname")).
Proof.
  intros e I. pose proof (find_forge_spec fd e) as S1. pose proof (find_forge_spec fd' e) as S2.
  assert (In' : forall (f : forge_data f32) fe, forge_by f e fe -> ~ forge_none f e).
  { intros f fe (cl & E & l1 & l2 & Ef & N & _) X. apply (X fe cl); auto. rewrite Ef. apply in_or_app. cbn. auto. }
  destruct (find_forge fd _) as [fe|], (find_forge fd' _) as [fe'|]; [| | |reflexivity].
  - apply (agree_forge _ _ _ A e fe I) in S1. destruct S1 as (c1 & E1 & F1), S2 as (c2 & E2 & F2).
    assert (c2 = c1) by congruence. subst. f_equal. eapply first_with_unique; eauto.
  - apply (agree_forge _ _ _ A e fe I) in S1. now destruct (In' _ _ S1).
  - apply (agree_forge _ _ _ A e fe' I) in S2. now destruct (In' _ _ S2).
Qed.

Lemma existsb_str : forall t l, existsb (str_eqb t) l = true <-> In t l.
Proof.
  intros t l. rewrite existsb_exists. split; [intros (x & I & E); apply str_eqb_eq in E; now subst|]. intros I. exists t. split; [exact I|apply str_eqb_refl].
Qed.
Lemma same_bool : forall a b : bool, (a = true <-> b = true) -> a = b.
Proof. intros [] [] H; try reflexivity; [symmetry|]; now apply H. Qed.
Lemma brush_black : forall t, named es t -> is_blacklisted_brush bl t = is_blacklisted_brush bl' t.
Proof. intros t N. apply same_bool. unfold is_blacklisted_brush. rewrite !existsb_str. now apply A. Qed.
Lemma plane_black : forall t, named es t -> is_blacklisted_plane bl t = is_blacklisted_plane bl' t.
Proof. intros t N. apply same_bool. unfold is_blacklisted_plane. rewrite !existsb_str. now apply A. Qed.

Lemma unique_textures_same : forall ts, (forall t, In t ts -> named es t) -> unique_textures bl ts = unique_textures bl' ts.
Proof.
  induction ts as [|t ts IH]; intros H; [reflexivity|]. cbn [unique_textures].
  rewrite (plane_black t), IH by (intros; apply H; cbn; auto). reflexivity.
Qed.

(** Every face has the texture of a plane in [es]. *)
Definition dressed (g : entity_geo f32) : Prop := forall b f t, In b (eg_brushes g) -> In f (bg_faces b) -> f_texture f = Some t -> named es t.

Lemma existsb_ext_in : forall X (f g : X -> bool) l, (forall x, In x l -> f x = g x) -> existsb f l = existsb g l.
Proof. induction l as [|x l IH]; intros H; [reflexivity|]. cbn. rewrite H by (cbn; auto). f_equal. apply IH. intros; apply H; cbn; auto. Qed.

Lemma visual_same : forall e e' g, alike e e' -> In e es -> dressed g -> entity_visual O gd bl e g = entity_visual O gd' bl' e' g.
Proof.
  intros e e' g (B & K) I D. unfold entity_visual, get_property. rewrite <- K. destruct (hget (e_props e) (lit "classname")) as [cl|] eqn:E; [|reflexivity].
  rewrite (find_same e cl I E). destruct (find_def gd' cl) as [d|]; [|reflexivity]. destruct (ed_data d) as [|q bd]; [reflexivity|].
  unfold brush_visual. rewrite <- B. destruct (bd_visual bd); [reflexivity|].
  rewrite unique_textures_same.
  - assert (M : forall l, mapM (texture_surface O g bl) l = mapM (texture_surface O g bl') l).
    { intros l. apply mapM_ext. intros t _. unfold texture_surface, gather_entity.
      assert (Fl : filter (brush_not_blacklisted bl) (eg_brushes g) = filter (brush_not_blacklisted bl') (eg_brushes g)).
      { apply filter_ext_in. intros b Hb. unfold brush_not_blacklisted. apply existsb_ext_in. intros f Hf.
        destruct (f_texture f) as [t'|] eqn:Et; [|reflexivity]. f_equal. apply brush_black. eapply D; eauto. }
      rewrite Fl. reflexivity. }
    cbv zeta. rewrite M. reflexivity.
  - intros t Ht. apply in_flat_map in Ht. destruct Ht as (b & Hb & Ht). apply in_map_iff in Ht. destruct Ht as (pl & <- & Hp). exists e, b, pl. auto.
Qed.
Lemma collision_same : forall e e' g, alike e e' -> In e es -> entity_collision O gd e g = entity_collision O gd' e' g.
Proof.
  intros e e' g (B & K) I. unfold entity_collision, get_property. rewrite <- K. destruct (hget (e_props e) (lit "classname")) as [cl|] eqn:E; [|reflexivity].
  rewrite (find_same e cl I E). reflexivity.
Qed.
Lemma point_same : forall e e', alike e e' -> In e es -> entity_point gd e = entity_point gd' e'.
Proof.
  intros e e' (B & K) I. unfold entity_point, get_property. rewrite <- K. destruct (hget (e_props e) (lit "classname")) as [cl|] eqn:E; [|reflexivity].
  now rewrite (find_same e cl I E).
Qed.
Lemma properties_same : forall e e', alike e e' -> In e es -> get_properties O fd e = get_properties O fd' e'.
Proof.
  intros e e' (B & K) I. unfold get_properties.
  assert (G : forall k, get_property e k = get_property e' k) by exact K.
  rewrite (forge_same e I), <- (G (lit "classname")). destruct (find_forge fd' _) as [fe|]; [|reflexivity].
  unfold add_internal_integer, add_internal_string. rewrite <- !G.
  assert (Fo : forall l m, fold_left (fun m fp => hput m (fp_name fp) (property_value O (fp_data fp) (get_property e (fp_name fp)))) l m
             = fold_left (fun m fp => hput m (fp_name fp) (property_value O (fp_data fp) (get_property e' (fp_name fp)))) l m).
  { induction l as [|x l IH]; intros m; [reflexivity|]. cbn [fold_left]. rewrite G. apply IH. }
  destruct (match get_property e (lit "_tb_id") with Some _ => _ | None => _ end) as [m| | |]; cbn [bind]; try reflexivity.
  destruct (match get_property e (lit "_tb_group") with Some _ => _ | None => _ end) as [m'| | |]; cbn [bind]; try reflexivity.
  cbv zeta. rewrite Fo. reflexivity.
Qed.

Definition same_data : list (entity f32 * entity_geo f32) -> list (entity f32 * entity_geo f32) -> Prop :=
  Forall2 (fun d d' => alike (fst d) (fst d') /\ snd d = snd d' /\ In (fst d) es /\ dressed (snd d)).

Lemma mapM_same : forall X Y (R : X -> X -> Prop) (f g : X -> res Y) l l', Forall2 R l l' -> (forall x y, R x y -> f x = g y) -> mapM f l = mapM g l'.
Proof. intros X Y R f g l l' F H. induction F as [|x y l l' E F IH]; [reflexivity|]. cbn [mapM]. rewrite (H x y E), IH. reflexivity. Qed.
Lemma filter_same : forall X (R : X -> X -> Prop) (f g : X -> bool) l l', Forall2 R l l' -> (forall x y, R x y -> f x = g y) -> Forall2 R (filter f l) (filter g l').
Proof. intros X R f g l l' F H. induction F as [|x y l l' E F IH]; [constructor|]. cbn [filter]. rewrite (H x y E). destruct (g y); auto. Qed.
Lemma tl_same : forall X (R : X -> X -> Prop) l l', Forall2 R l l' -> Forall2 R (tl l) (tl l').
Proof. intros X R l l' F. destruct F; [constructor|assumption]. Qed.

Lemma entity_same : forall data data', same_data data data' -> forall fuel origin d d',
  alike (fst d) (fst d') -> snd d = snd d' -> In (fst d) es -> dressed (snd d) ->
  build_entity O fuel gd fd bl data origin d = build_entity O fuel gd' fd' bl' data' origin d'.
Proof.
  intros data data' Sd fuel. induction fuel as [|fuel IH]; intros origin [e g] [e' g'] Al Eg I D; [reflexivity|].
  cbn [fst snd] in *. subst g'. cbn [build_entity]. rewrite (visual_same e e' g Al I D), (collision_same e e' g Al I).
  destruct (entity_visual O gd' bl' e' g) as [v| | |]; cbn [bind]; try reflexivity.
  destruct (entity_collision O gd' e' g) as [k| | |]; cbn [bind]; try reflexivity.
  assert (G : forall k, get_property e k = get_property e' k) by exact (proj2 Al).
  rewrite (mapM_same _ _ (fun d d' => alike (fst d) (fst d') /\ snd d = snd d' /\ In (fst d) es /\ dressed (snd d))
    (build_entity O fuel gd fd bl data (v3_neg O (eg_center g))) (build_entity O fuel gd' fd' bl' data' (v3_neg O (eg_center g)))
    (filter (fun c => is_child e (fst c)) (tl data)) (filter (fun c => is_child e' (fst c)) (tl data'))).
  - rewrite (G (lit "classname")), (properties_same e e' Al I). unfold get_entity_type, get_component_class, get_application_type.
    rewrite (point_same e e' Al I). reflexivity.
  - apply filter_same; [now apply tl_same|]. intros x y ((_ & K) & _). unfold is_child. rewrite <- (G (lit "_tb_id")).
    unfold get_property in *. now rewrite K.
  - intros x y (R1 & R2 & R3 & R4). apply IH; auto.
Qed.

Lemma layer_same : forall t bs, t = water \/ t = slime -> build_layer O gd (t, bs) = build_layer O gd' (t, bs).
Proof.
  intros t bs H. unfold build_layer.
  assert (E : forall l, filter (fun l => str_eqb (wl_texture l) t) (gd_layers gd) = [l] <-> filter (fun l => str_eqb (wl_texture l) t) (gd_layers gd') = [l]).
  { intros l. rewrite !(filter_single _ _ (fun l => wl_texture l = t)) by (intros; apply str_eqb_eq). now apply A. }
  destruct (filter (fun l => str_eqb (wl_texture l) t) (gd_layers gd)) as [|l [|l2 ll]] eqn:E1.
  - destruct (filter (fun l => str_eqb (wl_texture l) t) (gd_layers gd')) as [|l' [|l2' ll']]; try reflexivity. discriminate (proj2 (E l') eq_refl).
  - rewrite (proj1 (E l) eq_refl). reflexivity.
  - destruct (filter (fun l => str_eqb (wl_texture l) t) (gd_layers gd')) as [|l' [|l2' ll']]; try reflexivity. discriminate (proj2 (E l') eq_refl).
Qed.

Lemma scene_same : forall data data' layers fuel, same_data data data' -> (forall t bs, In (t, bs) layers -> t = water \/ t = slime) ->
  build_scene O fuel gd fd bl data layers = build_scene O fuel gd' fd' bl' data' layers.
Proof.
  intros data data' layers fuel Sd L. unfold build_scene.
  assert (M : forall l l', same_data l l' -> mapM (build_entity O fuel gd fd bl data (v3_zero O)) l = mapM (build_entity O fuel gd' fd' bl' data' (v3_zero O)) l').
  { intros l l' F. eapply mapM_same; [exact F|]. intros x y (R1 & R2 & R3 & R4). now apply entity_same. }
  rewrite (M (firstn 1 data) (firstn 1 data')).
  - destruct (mapM _ (firstn 1 data')); cbn [bind]; try reflexivity.
    assert (Ly : mapM (build_layer O gd) layers = mapM (build_layer O gd') layers) by (apply mapM_ext; intros [t bs] It; apply layer_same; eauto).
    rewrite Ly. destruct (mapM (build_layer O gd') layers); cbn [bind]; try reflexivity.
    rewrite (M _ (filter (fun d => match get_property (fst d) (lit "_tb_group") with None => true | _ => false end) (tl data'))); [reflexivity|].
    apply filter_same; [now apply tl_same|]. intros x y ((_ & K) & _). unfold get_property. now rewrite K.
  - destruct Sd; cbn; constructor; auto.
Qed.

(** ** Layers *)
Lemma layer_filter_same : forall data data', same_data data data' ->
  match layer_filter data, layer_filter data' with
  | Ok (d, l), Ok (d', l') => same_data d d' /\ l = l' /\ (forall t bs, In (t, bs) l -> t = water \/ t = slime)
  | Panic w, Panic w' => w = w'
  | _, _ => False
  end.
Proof.
  intros data data' Sd. unfold layer_filter. rewrite !partition_filter.
  assert (W : same_data (filter is_worldspawn data) (filter is_worldspawn data')).
  { apply filter_same; [exact Sd|]. intros x y ((_ & K) & _). unfold is_worldspawn, get_property. now rewrite K. }
  assert (N : same_data (filter (fun x => negb (is_worldspawn x)) data) (filter (fun x => negb (is_worldspawn x)) data')).
  { apply filter_same; [exact Sd|]. intros x y ((_ & K) & _). unfold is_worldspawn, get_property. now rewrite K. }
  destruct W as [|[e g] [e' g'] l l' (Al & Eg & I & D) W]; [reflexivity|]. cbn [fst snd] in *. subst g'.
  destruct W as [|[e2 g2] [e2' g2'] l l' R2 W]; [|reflexivity].
  rewrite (layers_split (eg_brushes g)). split; [|split; [reflexivity|]].
  - constructor; [|exact N]. cbn [fst snd]. repeat split; try apply Al; auto. intros b f t Hb. apply D. cbn [eg_brushes] in Hb.
    apply filter_In in Hb. destruct Hb as [Hb _]. apply filter_In in Hb. apply Hb.
  - intros t bs [E|[E|[]]]; injection E as <- _; auto.
Qed.
End Scene.

(** ** Runs *)
Lemma dressed_geometry : forall p tx es gs, build_geometry (f32_num p) tx es = Ok gs -> forall e g, In (e, g) (combine es gs) -> dressed es g.
Proof.
  intros p tx es gs E e g I b f t Hb Hf Ht. pose proof (in_combine_l _ _ _ _ I) as Ie. apply geometry_shape in E. apply (in_combine_Forall2 _ _ _ _ _ _ _ E) in I.
  destruct I as (I & _). destruct (Forall2_in_r _ _ _ _ _ _ I Hb) as (br & Ib & F & _).
  destruct (Forall2_in_r _ _ _ _ _ _ F Hf) as (pl & Ip & B). apply face_texture in B.
  destruct B as (B & _). apply B in Ht. destruct Ht as [-> _]. exists e, br, pl. auto.
Qed.

Lemma same_combine : forall (es es' : list (entity f32)) gs (P : entity f32 -> entity_geo f32 -> Prop), Forall2 alike es es' ->
  (forall e g, In (e, g) (combine es gs) -> P e g) ->
  Forall2 (fun d d' => alike (fst d) (fst d') /\ snd d = snd d' /\ P (fst d) (snd d)) (combine es gs) (combine es' gs).
Proof.
  intros es es' gs P F. revert gs. induction F as [|e e' es es' A F IH]; intros [|g gs] H; cbn [combine]; try constructor.
  - cbn. repeat split; try apply A. apply H. now left.
  - apply IH. intros; apply H. now right.
Qed.

Theorem run_same : forall p order, (forall m, Permutation (order m) m) -> forall fuel c c' text text' ps ps' es es',
  file_text (cf_map c) text -> file_text (cf_map c') text' -> load p text = Ok (ps, es) -> load p text' = Ok (ps', es') ->
  Forall2 alike es es' -> agree_on es c c' -> run p order fuel c = run p order fuel c'.
Proof.
  intros p order P fuel c c' text text' ps ps' es es' Ft Ft' L L' F A. apply read_ok in Ft, Ft'.
  rewrite !run_split, Ft, Ft'. cbn [bind]. rewrite L, L'. cbn [bind].
  rewrite (geometry_alike p (cf_textures c) (cf_textures c') es es' F (agree_sizes _ _ _ A)).
  destruct (build_geometry (f32_num p) (cf_textures c') es') as [gs| | |] eqn:G; cbn [bind]; try reflexivity.
  rewrite <- (geometry_alike p (cf_textures c) (cf_textures c') es es' F (agree_sizes _ _ _ A)) in G.
  assert (Sd : same_data es (combine es gs) (combine es' gs)).
  { apply (same_combine es es' gs (fun e g => In e es /\ dressed es g) F). intros e g I.
    split; [eapply in_combine_l; exact I|eapply dressed_geometry; eauto]. }
  pose proof (layer_filter_same es _ _ Sd) as K.
  destruct (layer_filter (combine es gs)) as [[d l]| | |], (layer_filter (combine es' gs)) as [[d' l']| | |]; try contradiction; cbn [bind]; [|now subst].
  destruct K as (Sd' & <- & Ly). apply (scene_same p c c' es A); [exact Sd'|].
  intros t bs I. apply (Ly t bs). eapply Permutation_in; [apply P|exact I].
Qed.

Lemma agree_refl : forall es c c', same_but_map c c' -> agree_on es c c'.
Proof. intros es c c' (E1 & E2 & E3 & E4). constructor; intros; rewrite ?E1, ?E2, ?E3, ?E4; tauto. Qed.
Lemma alike_list : forall T (es : list (entity T)), Forall2 alike es es.
Proof. intros T es. induction es; constructor; auto using alike_refl. Qed.

(** Same lines, comments and unrecognised lines aside. *)
Theorem run_lines : forall p order fuel c c' text text' ls ls', same_but_map c c' ->
  file_text (cf_map c) text -> file_text (cf_map c') text' ->
  lines_spec (p_keep_bare_cr p) text ls -> lines_spec (p_keep_bare_cr p) text' ls' ->
  filter (fun l => negb (inert_line l)) ls = filter (fun l => negb (inert_line l)) ls' ->
  run p order fuel c = run p order fuel c'.
Proof.
  intros p order fuel c c' text text' ls ls' (E1 & E2 & E3 & E4) Ft Ft' L L' E. apply read_ok in Ft, Ft'.
  rewrite !run_split, Ft, Ft', E1, E2, E3, E4. cbn [bind]. now rewrite (load_same p text text' ls ls' L L' E).
Qed.

Theorem run_agree : forall p order, (forall m, Permutation (order m) m) -> forall fuel c c', cf_map c = cf_map c' ->
  (forall text ps es, file_text (cf_map c) text -> load p text = Ok (ps, es) -> agree_on es c c') ->
  run p order fuel c = run p order fuel c'.
Proof.
  intros p order P fuel c c' E A. destruct (read_to_string (cf_map c)) as [text| | |] eqn:R.
  2-4: rewrite !run_split, <- E, R; reflexivity.
  destruct (load p text) as [[ps es]| | |] eqn:L.
  2-4: rewrite !run_split, <- E, R; cbn [bind]; rewrite L; reflexivity.
  apply read_ok in R. eapply run_same; eauto; [now rewrite <- E|apply alike_list].
Qed.

Lemma read_unique : forall p l a b,
  (exists ws, written ws l /\ plane_words (parse_f32 (p_modern_parse p)) (to_lowercase p) ws a) ->
  (exists ws, written ws l /\ plane_words (parse_f32 (p_modern_parse p)) (to_lowercase p) ws b) -> a = b.
Proof.
  intros p l a b (ws & W & A) (ws' & W' & B).
  apply (plane_read_iff _ (f32_num p) (to_lowercase p) l ws a W) in A. apply (plane_read_iff _ (f32_num p) (to_lowercase p) l ws' b W') in B. congruence.
Qed.
Lemma Forall2_functional : forall X Y (R : X -> Y -> Prop), (forall x a b, R x a -> R x b -> a = b) ->
  forall l a b, Forall2 R l a -> Forall2 R l b -> a = b.
Proof. intros X Y R H l a b F. revert b. induction F; intros b' G; inv G; [reflexivity|]. f_equal; eauto. Qed.

Theorem run_docs : forall p order, (forall m, Permutation (order m) m) -> forall fuel c c' text text' d d', same_but_map c c' ->
  file_text (cf_map c) text -> file_text (cf_map c') text' -> text_document p text d -> text_document p text' d' ->
  (forall e l, In e d -> In l (doc_planes e) -> plane_readable p l) -> Forall2 doc_alike d d' ->
  run p order fuel c = run p order fuel c'.
Proof.
  intros p order P fuel c c' text text' d d' Sb Ft Ft' (ls & ts & L & K & Sg) (ls' & ts' & L' & K' & Sg') R F.
  assert (R' : forall e b l, In e d -> In b (doc_brushes e) -> In l b ->
     exists ws pl, written ws l /\ plane_words (parse_f32 (p_modern_parse p)) (to_lowercase p) ws pl).
  { intros e b l Ie Ib Il. apply (R e l Ie). unfold doc_planes. apply in_concat. eauto. }
  destruct (load_doc p text ls ts d L K Sg R') as (ps & es & Lo & Ag).
  destruct (load_doc p text' ls' ts' d' L' K' Sg') as (ps' & es' & Lo' & Ag').
  { intros e' b l Ie Ib Il. destruct (Forall2_in_r _ _ _ _ _ _ F Ie) as (e & I & B & _). apply (R' e b l); congruence. }
  eapply run_same; eauto using agree_refl. clear - F Ag Ag'.
  revert es es' Ag Ag'. induction F as [|x x' d d' (B & V) F IH]; intros es es' Ag Ag'; inv Ag; inv Ag'; constructor; auto.
  match goal with H : entity_agrees _ x _, H' : entity_agrees _ x' _ |- _ => destruct H as (G & Bs), H' as (G' & Bs') end. split.
  - rewrite <- B in Bs'. eapply Forall2_functional; [|exact Bs|exact Bs']. intros; eapply Forall2_functional; eauto. apply read_unique.
  - intros k. specialize (G k). specialize (G' k). unfold get_property in *. now rewrite G, G', V.
Qed.
