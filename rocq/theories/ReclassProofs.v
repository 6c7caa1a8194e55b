(** Other names for the classes: lemmas for C146. *)
From Verif Require Import Prelude F32 Text MapModel GeoModel LayerModel GameDataModel SceneModel RunModel
  GatherSpec TextSpec LayerSpec TreeSpec PropertySpec MapSpec Utf8Spec RunSpec InvarianceSpec ActorSpec PointsSpec ReclassSpec
  BaseProofs TextProofs TokenProofs MapProofs GeoProofs LayerProofs NodeProofs RunProofs InvarianceProofs PointsProofs PropertyProofs ShuffleProofs ReworkProofs.

Lemma find_renamed : forall A B (named : str -> Prop) (r : str -> str) (f : A -> str) (g : B -> str) (S : A -> B -> Prop) s l m,
  (forall a b, named a -> named b -> r a = r b -> a = b) -> named s -> (forall x, In x l -> named (f x)) ->
  Forall2 (fun a b => g b = r (f a) /\ S a b) l m ->
  match find (fun d => str_eqb (f d) s) l, find (fun d => str_eqb (g d) (r s)) m with
  | Some x, Some y => In x l /\ S x y
  | None, None => True
  | _, _ => False
  end.
Proof.
  intros A B named r f g S s l m Inj Ns Nl F. induction F as [|x y l m (E & Sxy) F IH]; [exact I|]. cbn [find]. rewrite E.
  assert (Q : str_eqb (r (f x)) (r s) = str_eqb (f x) s).
  { destruct (str_eqb (f x) s) eqn:H; [apply str_eqb_eq in H; rewrite H; apply str_eqb_refl|]. destruct (str_eqb (r (f x)) (r s)) eqn:H'; [|reflexivity].
    apply str_eqb_eq in H'. apply Inj in H'; [|apply Nl; now left|exact Ns]. rewrite H', str_eqb_refl in H. discriminate. }
  rewrite Q. destruct (str_eqb (f x) s); [split; [now left|exact Sxy]|]. specialize (IH (fun z Hz => Nl z (or_intror Hz))).
  destruct (find (fun d => str_eqb (f d) s) l), (find (fun d => str_eqb (g d) (r s)) m); try exact IH. destruct IH as (I & H). split; [now right|exact H].
Qed.

Section Scene.
Context (p : platform) (gd gd' : game_data f32) (fd fd' : forge_data f32) (bl : blacklist) (r : str -> str) (named : str -> Prop).
Context (r_world : r (lit "worldspawn") = lit "worldspawn") (n_world : named (lit "worldspawn")) (r_inj : forall s t, named s -> named t -> r s = r t -> s = t)
  (n_game : forall k, In k (gd_entities gd) -> named (ed_classname k)) (n_forge : forall k, In k (fd_definitions fd) -> named (fe_name k))
  (layers_same : gd_layers gd = gd_layers gd')
  (game : Forall2 (fun k k' => ed_classname k' = r (ed_classname k) /\ ed_data k = ed_data k') (gd_entities gd) (gd_entities gd'))
  (forge : Forall2 (fun k k' => fe_name k' = r (fe_name k) /\ fe_properties k = fe_properties k') (fd_definitions fd) (fd_definitions fd'))
  (quiet : forall k q, In k (fd_definitions fd) -> In q (fe_properties k) -> fp_name q <> lit "classname").
Local Notation O := (f32_num p).

Definition renamed_entity (e e' : entity f32) : Prop :=
  e_brushes e = e_brushes e' /\ get_property e' (lit "classname") = option_map r (get_property e (lit "classname"))
  /\ (forall s, get_property e (lit "classname") = Some s -> named s) /\ forall k, k <> lit "classname" -> get_property e k = get_property e' k.

Lemma def_renamed : forall s, named s ->
  match find_def gd s, find_def gd' (r s) with Some x, Some y => ed_data x = ed_data y | None, None => True | _, _ => False end.
Proof.
  intros s Ns. pose proof (find_renamed _ _ named r ed_classname ed_classname (fun k k' => ed_data k = ed_data k') s _ _ r_inj Ns n_game game) as H. unfold find_def.
  destruct (find _ (gd_entities gd)), (find _ (gd_entities gd')); try exact H. apply H.
Qed.
Lemma forge_renamed : forall s, named s ->
  match find_forge fd (Some s), find_forge fd' (Some (r s)) with Some x, Some y => In x (fd_definitions fd) /\ fe_properties x = fe_properties y | None, None => True | _, _ => False end.
Proof. intros s Ns. exact (find_renamed _ _ named r fe_name fe_name (fun k k' => fe_properties k = fe_properties k') s _ _ r_inj Ns n_forge forge). Qed.
Lemma forge_nameless : forall f : forge_data f32, find_forge f None = None.
Proof. intros f. unfold find_forge. induction (fd_definitions f) as [|x l IH]; [reflexivity|]. exact IH. Qed.

Lemma properties_renamed : forall e e', renamed_entity e e' -> get_properties O fd e = get_properties O fd' e'.
Proof.
  intros e e' (_ & C & N & V). unfold get_properties. rewrite C. destruct (get_property e (lit "classname")) as [s|]; cbn [option_map]; [|now rewrite !forge_nameless].
  pose proof (forge_renamed s (N s eq_refl)) as H. destruct (find_forge fd (Some s)) as [x|], (find_forge fd' (Some (r s))) as [y|]; try contradiction; [|reflexivity].
  destruct H as (I & H). unfold add_internal_integer, add_internal_string.
  rewrite (V (lit "_tb_id")), (V (lit "_tb_group")), (V (lit "_tb_type")), (V (lit "_tb_name")) by discriminate. rewrite <- H.
  assert (F : forall l m, incl l (fe_properties x) -> fold_left (fun m fp => hput m (fp_name fp) (property_value O (fp_data fp) (get_property e (fp_name fp)))) l m
    = fold_left (fun m fp => hput m (fp_name fp) (property_value O (fp_data fp) (get_property e' (fp_name fp)))) l m).
  { induction l as [|fp l IH]; intros m J; [reflexivity|]. cbn [fold_left]. rewrite (V (fp_name fp)); [|apply (quiet x fp I); apply J; now left]. apply IH. intros z Hz. apply J. now right. }
  destruct (match get_property e' (lit "_tb_id") with Some _ => _ | None => _ end) as [m| | |]; cbn [bind]; try reflexivity.
  destruct (match get_property e' (lit "_tb_group") with Some _ => _ | None => _ end) as [m1| | |]; cbn [bind]; try reflexivity. cbv zeta. now rewrite F.
Qed.
Lemma point_renamed : forall e e', renamed_entity e e' -> entity_point gd e = entity_point gd' e'.
Proof.
  intros e e' (_ & C & N & _). unfold entity_point. rewrite C. destruct (get_property e (lit "classname")) as [s|]; cbn [option_map]; [|reflexivity].
  pose proof (def_renamed s (N s eq_refl)) as H. destruct (find_def gd s), (find_def gd' (r s)); try contradiction; [|reflexivity]. cbn [option_map]. unfold def_point. now rewrite H.
Qed.

Lemma face_renamed : forall tx e e' b pl, renamed_entity e e' -> build_face O tx e b pl = build_face O tx e' b pl.
Proof.
  intros tx e e' b pl (_ & _ & _ & A). unfold build_face.
  assert (Ph : is_phong e = is_phong e') by (unfold is_phong; rewrite A; [reflexivity|discriminate]). rewrite Ph.
  assert (V : plane_vertices O (hget tx (bp_texture pl)) e b pl = plane_vertices O (hget tx (bp_texture pl)) e' b pl).
  { unfold plane_vertices. f_equal. apply mapM_ext. intros x _. unfold build_plane_vertex, vertex_normal. rewrite Ph, (A (lit "_phong_angle")) by discriminate. reflexivity. }
  rewrite V. reflexivity.
Qed.
Lemma geo_renamed : forall tx e e', renamed_entity e e' -> build_entity_geo O tx e = build_entity_geo O tx e'.
Proof.
  intros tx e e' S. pose proof S as (B & _ & _ & A). unfold build_entity_geo. rewrite <- B.
  assert (E : mapM (build_brush O tx e) (e_brushes e) = mapM (build_brush O tx e') (e_brushes e)).
  { apply mapM_ext. intros b _. unfold build_brush. assert (F : mapM (build_face O tx e b) b = mapM (build_face O tx e' b) b) by (apply mapM_ext; intros pl _; now apply face_renamed). now rewrite F. }
  specialize (A (lit "origin")). unfold get_property in A. rewrite E, A by discriminate. reflexivity.
Qed.
Lemma geometry_renamed : forall tx es es', Forall2 renamed_entity es es' -> build_geometry O tx es = build_geometry O tx es'.
Proof. intros tx es es' F. unfold build_geometry. induction F as [|e e' es es' S F IH]; [reflexivity|]. cbn [mapM]. now rewrite (geo_renamed tx e e' S), IH. Qed.

Definition renamed_data (d d' : entity f32 * entity_geo f32) : Prop := renamed_entity (fst d) (fst d') /\ snd d = snd d'.
Lemma visual_recalled : forall c v, Forall2 (recalled r) (visual_nodes (T := f32) c v) (visual_nodes c v).
Proof. intros c v. unfold visual_nodes. destruct v; repeat constructor. Qed.
Lemma collision_recalled : forall c v, Forall2 (recalled r) (collision_nodes (T := f32) c v) (collision_nodes c v).
Proof. intros c v. unfold collision_nodes. destruct v; repeat constructor. Qed.

Lemma entity_recalled : forall data data', Forall2 renamed_data data data' -> forall fuel o d d', renamed_data d d' ->
  paired (recalled r) (build_entity O fuel gd fd bl data o d) (build_entity O fuel gd' fd' bl data' o d').
Proof.
  intros data data' F fuel. induction fuel as [|fuel IH]; intros o [e g] [e' g'] (I & Eg); [apply paired_fail; discriminate|]. cbn [fst snd] in *. subst g'.
  pose proof I as (B & Cl & N & V). cbn [build_entity].
  assert (Ev : entity_visual O gd bl e g = entity_visual O gd' bl e' g).
  { unfold entity_visual. rewrite Cl. destruct (get_property e (lit "classname")) as [s|]; cbn [option_map]; [|reflexivity]. pose proof (def_renamed s (N s eq_refl)) as H.
    destruct (find_def gd s), (find_def gd' (r s)); try contradiction; [|reflexivity]. rewrite H. match goal with |- match ?x with _ => _ end = _ => destruct x end; [reflexivity|]. unfold brush_visual. rewrite ?B. reflexivity. }
  assert (Ek : entity_collision O gd e g = entity_collision O gd' e' g).
  { unfold entity_collision. rewrite Cl. destruct (get_property e (lit "classname")) as [s|]; cbn [option_map]; [|reflexivity]. pose proof (def_renamed s (N s eq_refl)) as H.
    destruct (find_def gd s), (find_def gd' (r s)); try contradiction; [|reflexivity]. now rewrite H. }
  rewrite <- Ev, <- Ek. destruct (entity_visual O gd bl e g) as [v| | |]; cbn [bind]; try (apply paired_fail; discriminate).
  destruct (entity_collision O gd e g) as [k| | |]; cbn [bind]; try (apply paired_fail; discriminate).
  eapply paired_bind.
  { apply paired_mapM with (P := renamed_data) (Q := recalled r).
    - apply filter_same; [now apply tl_same|]. intros x y ((_ & _ & _ & W) & _). unfold is_child. now rewrite (W (lit "_tb_group")), (V (lit "_tb_id")) by discriminate.
    - intros x y M. now apply IH. }
  intros ch ch' Rch. rewrite Cl. destruct (get_property e (lit "classname")) as [c|] eqn:Ec; cbn [unwrap bind option_map]; [|apply paired_fail; discriminate].
  rewrite <- (properties_renamed e e' I). destruct (get_properties O fd e) as [ps| | |]; cbn [bind]; try (apply paired_fail; discriminate). apply paired_ok.
  unfold get_entity_type, get_component_class, get_application_type. rewrite <- (point_renamed e e' I). apply RcActor.
  repeat apply Forall2_app; auto using visual_recalled, collision_recalled.
Qed.
Lemma layer_kept : forall l, build_layer O gd l = build_layer O gd' l.
Proof. intros [t bs]. unfold build_layer. now rewrite layers_same. Qed.
Lemma scene_recalled : forall fuel data data' layers, Forall2 renamed_data data data' ->
  paired (recalled_tree r) (build_scene O fuel gd fd bl data layers) (build_scene O fuel gd' fd' bl data' layers).
Proof.
  intros fuel data data' layers F. unfold build_scene. eapply paired_bind with (R := fun w w' => Forall2 (recalled r) w w' /\ length w <= 1).
  { assert (X : paired (Forall2 (recalled r)) (mapM (build_entity O fuel gd fd bl data (v3_zero O)) (firstn 1 data)) (mapM (build_entity O fuel gd' fd' bl data' (v3_zero O)) (firstn 1 data'))).
    { apply paired_mapM with (P := renamed_data) (Q := recalled r); [|intros x y M; now apply entity_recalled]. destruct F as [|x y l l' M F]; cbn [firstn]; [constructor|]. constructor; [exact M|constructor]. }
    assert (Y : forall w, mapM (build_entity O fuel gd fd bl data (v3_zero O)) (firstn 1 data) = Ok w -> length w <= 1).
    { intros w E. apply mapM_ok in E. apply Forall2_length in E. rewrite <- E, firstn_length. lia. }
    destruct X as (X1 & X2). split.
    - intros w E. destruct (X1 w E) as (w' & E' & R). exists w'. eauto.
    - intros w' E'. destruct (X2 w' E') as (w & E & R). exists w. eauto. }
  intros w w' (Rw & Lw). rewrite (mapM_ext _ _ (build_layer O gd) (build_layer O gd')) by (intros; apply layer_kept).
  destruct (mapM (build_layer O gd') layers) as [ls| | |]; cbn [bind]; try (apply paired_fail; discriminate). eapply paired_bind.
  { apply paired_mapM with (P := renamed_data) (Q := recalled r); [|intros x y M; now apply entity_recalled]. apply filter_same; [now apply tl_same|].
    intros x y ((_ & _ & _ & W) & _). now rewrite (W (lit "_tb_group")) by discriminate. }
  intros q q' Rq. apply paired_ok. exists w, (filter_map (fun o => o) ls), q, w', q'. repeat split; auto.
Qed.
Lemma filter_recalled : forall data data', Forall2 renamed_data data data' ->
  paired (fun a b => Forall2 renamed_data (fst a) (fst b) /\ snd a = snd b) (layer_filter data) (layer_filter data').
Proof.
  intros data data' F. unfold layer_filter. rewrite !partition_filter.
  assert (Q : forall x y, renamed_data x y -> is_worldspawn x = is_worldspawn y).
  { intros x y ((_ & C & N & _) & _). unfold is_worldspawn. rewrite C. destruct (get_property (fst x) (lit "classname")) as [s|]; cbn [option_map]; [|reflexivity].
    destruct (str_eqb s (lit "worldspawn")) eqn:E; [apply str_eqb_eq in E; subst s; now rewrite r_world|]. destruct (str_eqb (r s) (lit "worldspawn")) eqn:E'; [|reflexivity].
    apply str_eqb_eq in E'. rewrite <- r_world in E'. apply r_inj in E'; [|now apply N|exact n_world]. subst s. discriminate. }
  assert (W : Forall2 renamed_data (filter is_worldspawn data) (filter is_worldspawn data')) by now apply filter_same.
  assert (N : Forall2 renamed_data (filter (fun x => negb (is_worldspawn x)) data) (filter (fun x => negb (is_worldspawn x)) data')) by (apply filter_same; [exact F|]; intros x y M; now rewrite (Q x y M)).
  destruct W as [|[e g] [e' g'] l l' (I & Eg) W]; [apply paired_fail; discriminate|]. cbn [fst snd] in *. subst g'. destruct W as [|[e2 g2] [e2' g2'] l l' M W]; [|apply paired_fail; discriminate].
  destruct (split_layers layer_textures (eg_brushes g) []) as [rest ls]. apply paired_ok. cbn [fst snd]. split; [|reflexivity]. constructor; [now split|exact N].
Qed.
End Scene.

Section Run.
Context (p : platform) (order : hmap (list (brush_geo f32)) -> list (str * list (brush_geo f32))).

Lemma loaded_reclassed : forall text text' d d' ps es, text_document p text d -> text_document p text' d' -> Forall2 (fun e e' : doc_entity => doc_brushes e = doc_brushes e') d d' -> load p text = Ok (ps, es) ->
  exists ps' es', load p text' = Ok (ps', es').
Proof.
  intros text text' d d' ps es Td (ls' & ts' & L' & K' & Sg') F El. pose proof (agreed_readable p d es (loaded_document p text d ps es Td El)) as R.
  destruct (load_doc p text' ls' ts' d' L' K' Sg') as (ps' & es' & Lo & _); [|eauto].
  intros e b l He Hb Hl. destruct (Forall2_in_r _ _ _ _ _ _ F He) as (x & Ix & B). apply (R x b l Ix); [now rewrite B|exact Hl].
Qed.

Theorem run_reclassed : forall fuel c c' r text text' d d', file_text (cf_map c) text -> file_text (cf_map c') text' ->
  text_document p text d -> text_document p text' d' -> renaming c d r -> discreet c -> reclassed_config r c c' -> Forall2 (reclassed r) d d' ->
  paired (recalled_tree r) (run p order fuel c) (run p order fuel c').
Proof.
  intros fuel c c' r text text' d d' Ft Ft' Td Td' (Rw & Inj) Qt (E1 & E2 & E3 & E4 & E5) F. apply read_ok in Ft, Ft'. rewrite !run_split, Ft, Ft', <- E1, <- E2. cbn [bind].
  assert (B : Forall2 (fun e e' : doc_entity => doc_brushes e = doc_brushes e') d d') by (eapply Forall2_impl; [|exact F]; intros x y H; apply H).
  assert (B' : Forall2 (fun e e' : doc_entity => doc_brushes e = doc_brushes e') d' d) by (clear - B; induction B; constructor; auto).
  destruct (load p text) as [[ps es]| | |] eqn:L.
  2-4: apply paired_fail; [cbn [bind]; discriminate|]; intros y E; apply bind_ok in E; destruct E as ([ps' es'] & L' & _);
    destruct (loaded_reclassed text' text d' d ps' es' Td' Td B' L') as (ps & es & X); congruence.
  destruct (loaded_reclassed text text' d d' ps es Td Td' B L) as (ps' & es' & L'). rewrite L'. cbn [bind].
  pose proof (loaded_document p text d ps es Td L) as Ag. pose proof (loaded_document p text' d' ps' es' Td' L') as Ag'.
  assert (S : Forall2 (renamed_entity r (class_name c d)) es es').
  { assert (X : forall D, incl D d -> forall D', Forall2 (reclassed r) D D' -> forall es es', Forall2 (entity_agrees (reads_as p)) D es -> Forall2 (entity_agrees (reads_as p)) D' es' ->
      Forall2 (renamed_entity r (class_name c d)) es es'); [|exact (X d (incl_refl d) d' F es es' Ag Ag')].
    intros D. induction D as [|x D IH]; intros J D' G us us' A A'; inversion G; subst; inversion A; inversion A'; subst; constructor.
    - match goal with H : reclassed r x _ |- _ => destruct H as (Hb & Hc & Hv) end.
      match goal with H : entity_agrees _ x ?u, H' : entity_agrees _ _ ?u' |- renamed_entity _ _ ?u ?u' => destruct H as (G1 & Bs); destruct H' as (G2 & Bs') end. split; [|split; [|split]].
      + rewrite <- Hb in Bs'. eapply Forall2_functional; [|exact Bs|exact Bs']. intros; eapply Forall2_functional; eauto. apply read_unique.
      + rewrite G1, G2. exact Hc.
      + intros s Hs. rewrite G1 in Hs. apply (NameEntity c d x s); [apply J; now left|exact Hs].
      + intros k Hk. rewrite G1, G2. now apply Hv.
    - eapply IH; eauto. intros q Hq. apply J. now right. }
  rewrite <- (geometry_renamed p r (class_name c d) (cf_textures c) es es' S). destruct (build_geometry (f32_num p) (cf_textures c) es) as [gs| | |]; cbn [bind]; try (apply paired_fail; discriminate).
  assert (M : Forall2 (renamed_data r (class_name c d)) (combine es gs) (combine es' gs)).
  { clear - S. revert gs. induction S as [|x y es es' H S IH]; intros [|g gs]; cbn [combine]; constructor; [now split|apply IH]. }
  eapply paired_bind; [apply (filter_recalled r (class_name c d) Rw (NameWorld c d) Inj _ _ M)|]. intros [dt ly] [dt' ly'] (Md & El). cbn [fst snd] in *. subst ly'.
  apply (scene_recalled p (cf_game c) (cf_game c') (cf_forge c) (cf_forge c') (cf_blacklist c) r (class_name c d)); auto.
  - intros k I. now apply NameGame.
  - intros k I. now apply NameForge.
Qed.
End Run.
