(** Which keys of an entity a run looks at: lemmas for C143. *)
From Verif Require Import Prelude F32 Text MapModel GeoModel LayerModel GameDataModel SceneModel RunModel
  GatherSpec TextSpec LayerSpec TreeSpec PropertySpec MapSpec Utf8Spec RunSpec InvarianceSpec ActorSpec PointsSpec HeedSpec
  BaseProofs TextProofs TokenProofs MapProofs GeoProofs LayerProofs NodeProofs RunProofs InvarianceProofs PointsProofs PropertyProofs ShuffleProofs ReworkProofs.

(** The parsed entities of such a pair. *)
Record heard (fd : forge_data f32) (e e' : entity f32) : Prop := Heard {
  heard_brushes : e_brushes e = e_brushes e';
  heard_always : forall k, In k [lit "classname"; lit "origin"; lit "_tb_id"; lit "_tb_group"] -> get_property e k = get_property e' k;
  heard_phong : e_brushes e <> [] -> get_property e (lit "_phong") = get_property e' (lit "_phong");
  heard_angle : e_brushes e <> [] -> is_phong e = true -> get_property e (lit "_phong_angle") = get_property e' (lit "_phong_angle");
  heard_texts : forall fe k, find_forge fd (get_property e (lit "classname")) = Some fe -> internal_string k -> get_property e k = get_property e' k;
  heard_fields : forall fe fp, find_forge fd (get_property e (lit "classname")) = Some fe -> In fp (fe_properties fe) -> get_property e (fp_name fp) = get_property e' (fp_name fp)
}.

Section Scene.
Context (p : platform) (gd : game_data f32) (fd : forge_data f32) (bl : blacklist).
Local Notation O := (f32_num p).

Lemma heard_class : forall e e', heard fd e e' -> get_property e (lit "classname") = get_property e' (lit "classname").
Proof. intros e e' H. apply (heard_always _ _ _ H). now left. Qed.
Lemma heard_group : forall e e', heard fd e e' -> get_property e (lit "_tb_group") = get_property e' (lit "_tb_group").
Proof. intros e e' H. apply (heard_always _ _ _ H). do 3 right. now left. Qed.
Lemma heard_id : forall e e', heard fd e e' -> get_property e (lit "_tb_id") = get_property e' (lit "_tb_id").
Proof. intros e e' H. apply (heard_always _ _ _ H). do 2 right. now left. Qed.

Lemma heard_properties : forall e e', heard fd e e' -> get_properties O fd e = get_properties O fd e'.
Proof.
  intros e e' H. unfold get_properties. rewrite <- (heard_class e e' H). destruct (find_forge fd (get_property e (lit "classname"))) as [fe|] eqn:Ef; [|reflexivity].
  unfold add_internal_integer, add_internal_string. rewrite (heard_id e e' H), (heard_group e e' H).
  rewrite (heard_texts _ _ _ H fe (lit "_tb_type") Ef (or_introl eq_refl)), (heard_texts _ _ _ H fe (lit "_tb_name") Ef (or_intror eq_refl)).
  assert (F : forall l m, incl l (fe_properties fe) -> fold_left (fun m fp => hput m (fp_name fp) (property_value O (fp_data fp) (get_property e (fp_name fp)))) l m
    = fold_left (fun m fp => hput m (fp_name fp) (property_value O (fp_data fp) (get_property e' (fp_name fp)))) l m).
  { induction l as [|fp l IH]; intros m I; [reflexivity|]. cbn [fold_left]. rewrite (heard_fields _ _ _ H fe fp Ef); [|apply I; now left]. apply IH. intros x Hx. apply I. now right. }
  destruct (match get_property e' (lit "_tb_id") with Some _ => _ | None => _ end) as [m| | |]; cbn [bind]; try reflexivity.
  destruct (match get_property e' (lit "_tb_group") with Some _ => _ | None => _ end) as [m1| | |]; cbn [bind]; try reflexivity. cbv zeta. now rewrite F.
Qed.

Lemma heard_face : forall tx e e' b pl, e_brushes e <> [] -> heard fd e e' -> build_face O tx e b pl = build_face O tx e' b pl.
Proof.
  intros tx e e' b pl N H. unfold build_face.
  assert (Ph : is_phong e = is_phong e') by (unfold is_phong; now rewrite (heard_phong _ _ _ H N)). rewrite <- Ph.
  assert (V : plane_vertices O (hget tx (bp_texture pl)) e b pl = plane_vertices O (hget tx (bp_texture pl)) e' b pl).
  { unfold plane_vertices. f_equal. apply mapM_ext. intros x _. unfold build_plane_vertex, vertex_normal. rewrite <- Ph. destruct (is_phong e) eqn:E; [|reflexivity]. now rewrite (heard_angle _ _ _ H N E). }
  rewrite V. reflexivity.
Qed.
Lemma heard_geo : forall tx e e', heard fd e e' -> build_entity_geo O tx e = build_entity_geo O tx e'.
Proof.
  intros tx e e' H. unfold build_entity_geo. rewrite <- (heard_brushes _ _ _ H).
  assert (E : mapM (build_brush O tx e) (e_brushes e) = mapM (build_brush O tx e') (e_brushes e)).
  { apply mapM_ext. intros b Ib. assert (N : e_brushes e <> []) by (destruct (e_brushes e); [contradiction|discriminate]). unfold build_brush.
    assert (F : mapM (build_face O tx e b) b = mapM (build_face O tx e' b) b) by (apply mapM_ext; intros pl _; now apply heard_face). now rewrite F. }
  pose proof (heard_always _ _ _ H (lit "origin") (or_intror (or_introl eq_refl))) as Og. unfold get_property in Og. rewrite E, Og. reflexivity.
Qed.
Lemma heard_geometry : forall tx es es', Forall2 (heard fd) es es' -> build_geometry O tx es = build_geometry O tx es'.
Proof. intros tx es es' F. unfold build_geometry. induction F as [|e e' es es' H F IH]; [reflexivity|]. cbn [mapM]. now rewrite (heard_geo tx e e' H), IH. Qed.

Definition heard_data (d d' : entity f32 * entity_geo f32) : Prop := heard fd (fst d) (fst d') /\ snd d = snd d'.
Lemma mapM_heard : forall B (f g : entity f32 * entity_geo f32 -> res B) l l', (forall x y, heard_data x y -> f x = g y) -> Forall2 heard_data l l' -> mapM f l = mapM g l'.
Proof. intros B f g l l' H F. induction F as [|x y l l' R F IH]; [reflexivity|]. cbn [mapM]. now rewrite (H x y R), IH. Qed.

Lemma heard_entity : forall data data', Forall2 heard_data data data' -> forall fuel o d d', heard_data d d' ->
  build_entity O fuel gd fd bl data o d = build_entity O fuel gd fd bl data' o d'.
Proof.
  intros data data' F fuel. induction fuel as [|fuel IH]; intros o [e g] [e' g'] (H & Eg); [reflexivity|]. cbn [fst snd] in *. subst g'.
  pose proof (heard_class e e' H) as Cl. cbn [build_entity].
  assert (Ev : entity_visual O gd bl e g = entity_visual O gd bl e' g).
  { unfold entity_visual. rewrite Cl. destruct (get_property e' (lit "classname")) as [c|]; [|reflexivity]. destruct (find_def gd c) as [[]|]; try reflexivity.
    unfold brush_visual. rewrite ?(heard_brushes _ _ _ H). reflexivity. }
  assert (Ek : entity_collision O gd e g = entity_collision O gd e' g) by (unfold entity_collision; now rewrite Cl).
  assert (Ec : mapM (build_entity O fuel gd fd bl data (v3_neg O (eg_center g))) (filter (fun c => is_child e (fst c)) (tl data))
    = mapM (build_entity O fuel gd fd bl data' (v3_neg O (eg_center g))) (filter (fun c => is_child e' (fst c)) (tl data'))).
  { apply mapM_heard; [intros x y R; now apply IH|]. apply filter_same; [now apply tl_same|]. intros x y (R & _). unfold is_child. now rewrite (heard_group _ _ R), (heard_id _ _ H). }
  assert (Ep : entity_point gd e = entity_point gd e') by (unfold entity_point; now rewrite Cl).
  rewrite Ev, Ek, Ec, Cl, (heard_properties e e' H). unfold get_entity_type, get_component_class, get_application_type. rewrite Ep. reflexivity.
Qed.
Lemma heard_scene : forall fuel data data' layers, Forall2 heard_data data data' -> build_scene O fuel gd fd bl data layers = build_scene O fuel gd fd bl data' layers.
Proof.
  intros fuel data data' layers F. unfold build_scene.
  rewrite (mapM_heard _ (build_entity O fuel gd fd bl data (v3_zero O)) (build_entity O fuel gd fd bl data' (v3_zero O)) (firstn 1 data) (firstn 1 data')).
  2: intros x y R; now apply heard_entity. 2: destruct F as [|x y l l' M F]; cbn [firstn]; [apply Forall2_nil|apply Forall2_cons; [exact M|apply Forall2_nil]].
  rewrite (mapM_heard _ (build_entity O fuel gd fd bl data (v3_zero O)) (build_entity O fuel gd fd bl data' (v3_zero O))
    (filter (fun d => match get_property (fst d) (lit "_tb_group") with None => true | _ => false end) (tl data))
    (filter (fun d => match get_property (fst d) (lit "_tb_group") with None => true | _ => false end) (tl data'))); [reflexivity| |].
  - intros x y R; now apply heard_entity.
  - apply filter_same; [now apply tl_same|]. intros x y (R & _). now rewrite (heard_group _ _ R).
Qed.
Lemma heard_filter : forall data data', Forall2 heard_data data data' ->
  match layer_filter data, layer_filter data' with
  | Ok (d, l), Ok (d', l') => Forall2 heard_data d d' /\ l = l'
  | Ok _, _ | _, Ok _ => False
  | a, b => a = b
  end.
Proof.
  intros data data' F. unfold layer_filter. rewrite !partition_filter.
  assert (Q : forall x y, heard_data x y -> is_worldspawn x = is_worldspawn y) by (intros x y (I & _); unfold is_worldspawn; now rewrite (heard_class _ _ I)).
  assert (W : Forall2 heard_data (filter is_worldspawn data) (filter is_worldspawn data')) by now apply filter_same.
  assert (N : Forall2 heard_data (filter (fun x => negb (is_worldspawn x)) data) (filter (fun x => negb (is_worldspawn x)) data')) by (apply filter_same; [exact F|]; intros x y M; now rewrite (Q x y M)).
  destruct W as [|[e g] [e' g'] l l' (I & Eg) W]; [reflexivity|]. cbn [fst snd] in *. subst g'. destruct W as [|[e2 g2] [e2' g2'] l l' M W]; [|reflexivity].
  destruct (split_layers layer_textures (eg_brushes g) []) as [rest ls]. split; [|reflexivity]. constructor; [now split|exact N].
Qed.
End Scene.

Section Run.
Context (p : platform) (order : hmap (list (brush_geo f32)) -> list (str * list (brush_geo f32))).

Lemma parsed_declaration : forall fd d e fe, entity_agrees (reads_as p) d e -> find_forge fd (get_property e (lit "classname")) = Some fe -> class_declaration fd d fe.
Proof.
  intros fd d e fe (G & _) E. pose proof (find_forge_spec fd e) as Sp. rewrite E in Sp. destruct Sp as (c & C & F). exists c. split; [|exact F].
  unfold doc_class. rewrite <- G. exact C.
Qed.
Lemma parsed_heard : forall fd d d' e e', heard_alike fd d d' -> entity_agrees (reads_as p) d e -> entity_agrees (reads_as p) d' e' -> heard fd e e'.
Proof.
  intros fd d d' e e' (B & V) A A'. pose proof A as (G & Bs). pose proof A' as (G' & Bs').
  assert (N : e_brushes e <> [] -> doc_brushes d <> []) by (intros H X; apply H; rewrite X in Bs; now inv Bs).
  constructor.
  - rewrite <- B in Bs'. eapply Forall2_functional; [|exact Bs|exact Bs']. intros; eapply Forall2_functional; eauto. apply read_unique.
  - intros k [<-|[<-|[<-|[<-|[]]]]]; rewrite G, G'; apply V; constructor.
  - intros H. rewrite G, G'. apply V. apply HeedSmooth. auto.
  - intros H P. rewrite G, G'. apply V. apply HeedAngle; [auto|]. unfold is_phong in P. rewrite G in P. destruct (doc_value d (lit "_phong")) as [s|]; [|discriminate]. apply str_eqb_eq in P. now subst.
  - intros fe k F I. rewrite G, G'. apply V. eapply HeedText; [eapply parsed_declaration; eauto|exact I].
  - intros fe fp F I. rewrite G, G'. apply V. eapply HeedDeclared; [eapply parsed_declaration; eauto|exact I].
Qed.

Theorem run_heard : forall fuel c c' text text' d d', same_but_map c c' -> file_text (cf_map c) text -> file_text (cf_map c') text' ->
  text_document p text d -> text_document p text' d' -> (forall e l, In e d -> In l (doc_planes e) -> plane_readable p l) ->
  Forall2 (heard_alike (cf_forge c)) d d' -> run p order fuel c = run p order fuel c'.
Proof.
  intros fuel c c' text text' d d' (E1 & E2 & E3 & E4) Ft Ft' (ls & ts & L & K & Sg) (ls' & ts' & L' & K' & Sg') R F. apply read_ok in Ft, Ft'.
  assert (R' : forall e b l, In e d -> In b (doc_brushes e) -> In l b -> exists ws pl, written ws l /\ plane_words (parse_f32 (p_modern_parse p)) (to_lowercase p) ws pl).
  { intros e b l Ie Ib Il. apply (R e l Ie). unfold doc_planes. apply in_concat. eauto. }
  destruct (load_doc p text ls ts d L K Sg R') as (ps & es & Lo & Ag). destruct (load_doc p text' ls' ts' d' L' K' Sg') as (ps' & es' & Lo' & Ag').
  { intros e' b l Ie Ib Il. destruct (Forall2_in_r _ _ _ _ _ _ F Ie) as (e & I & B & _). apply (R' e b l); congruence. }
  rewrite !run_split, Ft, Ft', <- E1, <- E2, <- E3, <- E4. cbn [bind]. rewrite Lo, Lo'. cbn [bind].
  assert (H : Forall2 (heard (cf_forge c)) es es').
  { clear - F Ag Ag'. revert es es' Ag Ag'. induction F as [|x y d d' P F IH]; intros es es' G G'; inversion G; inversion G'; subst; constructor; [eapply parsed_heard; eauto|auto]. }
  rewrite (heard_geometry p _ _ es es' H). destruct (build_geometry (f32_num p) (cf_textures c) es') as [gs| | |]; cbn [bind]; try reflexivity.
  assert (M : Forall2 (heard_data (cf_forge c)) (combine es gs) (combine es' gs)).
  { clear - H. revert gs. induction H as [|x y es es' I H IH]; intros [|g gs]; cbn [combine]; constructor; [now split|apply IH]. }
  pose proof (heard_filter _ _ _ M) as Q.
  destruct (layer_filter (combine es gs)) as [[dt ly]| | |], (layer_filter (combine es' gs)) as [[dt' ly']| | |]; try contradiction; cbn [bind]; try congruence.
  destruct Q as (Q & <-). now apply heard_scene.
Qed.
End Run.
