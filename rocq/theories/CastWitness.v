(** A cube cut in two with convex shapes, to try C149 on. *)
From Coq Require Import Reals Lra Lia Permutation.
From Verif Require Import Prelude F32 Text MapModel GeoModel LayerModel GameDataModel SceneModel LayerSpec InvarianceSpec GeoSpec RealSpec WindSpec SolidSpec RigidSpec RestateSpec CutSpec CastSpec
  BaseProofs GeoProofs LayerProofs RealProofs WindProofs WindWitness SolidProofs SolidWitness CutProofs CutWitness CastProofs.
Local Open Scope R_scope.

Definition cellar : list (entity R) := [Entity [(lit "classname", lit "worldspawn")] [cut :: cube; other :: cube]].
Definition cellar_game : game_data R :=
  GameData [EntityDef (lit "worldspawn") (DBrush (PointData (EClass (lit "Static")) CompNone ADictionary []) (BrushData VNone CConvex))] [].

Section Cellar.
Context (parse : str -> option R) (cosine radians : R -> R) (atan2 : R -> R -> R) (quat : vec3 R -> R -> vec3 R -> vec3 R) (mat2 : R -> vec2 R -> vec2 R).
Local Notation O := (real_num parse cosine radians atan2 quat mat2).

Lemma square_fair : forall tx e planes, (forall q, In q planes -> square_on q) -> incl cube planes -> fair_brush O tx e planes.
Proof.
  intros tx e planes Q I. split.
  - intros plane f Ip E. split; [apply square_proper; auto|]. split; [exact (square_crisp _ _ _ _ _ _ _ _ _ _ _ Q (Q _ Ip) E)|apply square_sharp; auto].
  - destruct cube_bounded as (m & B). exists m. intros x S. apply B. intros q Iq. apply S, I, Iq.
Qed.
Lemma parts_fair : forall tx e, fair_brush O tx e cube /\ fair_brush O tx e (cut :: cube) /\ fair_brush O tx e (other :: cube).
Proof.
  intros tx e. split; [|split]; apply square_fair.
  - intros q I; apply all_square; auto.
  - apply incl_refl.
  - intros q [<-|I]; apply all_square; auto.
  - apply incl_tl, incl_refl.
  - intros q [<-|I]; apply all_square; auto.
  - apply incl_tl, incl_refl.
Qed.
Lemma any_brush : forall tx e planes, exists g, build_brush O tx e planes = Ok g.
Proof.
  intros tx e b. unfold build_brush. assert (F : forall l, exists fs, mapM (build_face O tx e b) l = Ok fs).
  { induction l as [|pl l (fs & IH)]; [eexists; reflexivity|]. cbn [mapM]. destruct (real_total parse cosine radians atan2 quat mat2 tx e b pl) as (f & ->). rewrite IH. eexists; reflexivity. }
  destruct (F b) as (fs & ->). eexists; reflexivity.
Qed.
Lemma no_layer : forall tx e planes g t, build_brush O tx e planes = Ok g -> In lid planes -> t <> lit "brick" -> in_layer t g = false.
Proof.
  intros tx e planes g t E I N. unfold build_brush in E. apply bind_ok in E. destruct E as (fs & Ef & E). injection E as <-. apply mapM_ok in Ef.
  destruct (Forall2_in_l _ _ _ _ _ _ Ef I) as (f & If & Eq). unfold in_layer. apply Bool.not_true_is_false. intros Al. cbn [bg_faces] in Al. rewrite forallb_forall in Al. specialize (Al f If).
  unfold build_face in Eq. apply bind_ok in Eq. destruct Eq as (vs & _ & Eq). injection Eq as <-. cbn [f_texture] in Al.
  destruct (hget tx _); [|discriminate]. apply str_eqb_eq in Al. apply N. now symmetry.
Qed.

Theorem cellar_built : forall tx, (forall e planes, In e cellar -> In planes (e_brushes e) -> fair_brush O tx e planes)
  /\ exists nodes n0 c shapes shape, exact_scene O 1 cellar_game (ForgeData [] [] []) (Blacklist [] []) tx cellar = Ok nodes
    /\ In n0 nodes /\ InvarianceSpec.within (NCollision c (ColConvex shapes)) n0 /\ In shape shapes /\ length shapes = 2%nat.
Proof.
  intros tx. split.
  { intros e planes [<-|[]] Ip. cbn [e_brushes] in Ip. destruct Ip as [<-|[<-|[]]]; apply parts_fair. }
  set (w := Entity [(lit "classname", lit "worldspawn")] [cut :: cube; other :: cube]).
  destruct (any_brush tx w (cut :: cube)) as (g1 & E1). destruct (any_brush tx w (other :: cube)) as (g2 & E2).
  assert (N1 : forall t, t <> lit "brick" -> in_layer t g1 = false) by (intros t; apply (no_layer _ _ _ _ _ E1); cbn; auto).
  assert (N2 : forall t, t <> lit "brick" -> in_layer t g2 = false) by (intros t; apply (no_layer _ _ _ _ _ E2); cbn; auto).
  unfold exact_scene, build_geometry, cellar. fold w. cbn [mapM]. unfold build_entity_geo. change (e_brushes w) with [cut :: cube; other :: cube]. cbn [mapM]. rewrite E1, E2. cbn [bind].
  set (ce := mean O _). clearbody ce. cbn [combine]. unfold layer_filter. rewrite partition_filter. change (filter is_worldspawn _) with [(w, EntityGeo ce [g1; g2])].
  change (filter (fun x => negb (is_worldspawn x)) _) with (@nil (entity R * entity_geo R)). cbv beta iota. rewrite layers_split.
  cbn [eg_brushes filter]. rewrite !N1, !N2 by (intros X; vm_compute in X; discriminate). cbn [negb filter]. rewrite !N1, !N2 by (intros X; vm_compute in X; discriminate). cbn [negb filter eg_center bind].
  unfold build_scene. cbn [firstn tl mapM build_entity]. unfold entity_visual, entity_collision. change (get_property w (lit "classname")) with (Some (lit "worldspawn")).
  change (find_def cellar_game (lit "worldspawn")) with (Some (EntityDef (T := R) (lit "worldspawn") (DBrush (PointData (EClass (lit "Static")) CompNone ADictionary []) (BrushData VNone CConvex)))).
  cbn [ed_data brush_visual bd_visual bd_collision collision_of bind]. unfold convex_collision. cbn [eg_brushes map].
  change (filter _ (@nil (entity R * entity_geo R))) with (@nil (entity R * entity_geo R)). cbn [mapM bind unwrap].
  change (get_properties O (ForgeData [] [] []) w) with (Ok (A := properties R) []). cbn [bind build_layer gd_layers cellar_game filter filter_map app].
  do 5 eexists. split; [reflexivity|]. split; [left; reflexivity|]. split; [eapply WithinChild; [|apply Within]; apply in_or_app; right; now left|]. split; [left; reflexivity|reflexivity].
Qed.

Theorem parts_cast : forall tx e, exists g g1 g2 k, build_brush O tx e cube = Ok g /\ build_brush O tx e (cut :: cube) = Ok g1 /\ build_brush O tx e (other :: cube) = Ok g2
  /\ collision_of O CConvex (EntityGeo o0 [g; g1; g2]) = Ok k.
Proof.
  intros tx e. destruct (any_brush tx e cube) as (g & E). destruct (any_brush tx e (cut :: cube)) as (g1 & E1). destruct (any_brush tx e (other :: cube)) as (g2 & E2).
  exists g, g1, g2. eexists. split; [exact E|]. split; [exact E1|]. split; [exact E2|]. reflexivity.
Qed.
End Cellar.
