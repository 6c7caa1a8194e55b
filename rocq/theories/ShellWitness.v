(** A hall with a unit cube in it, to try C125 on. *)
From Coq Require Import Reals Lra Lia.
From Verif Require Import Prelude F32 Text MapModel GeoModel LayerModel GameDataModel SceneModel GatherSpec SurfaceSpec InvarianceSpec GeoSpec RealSpec WindSpec SolidSpec RigidSpec EdgeSpec ShellSpec
  BaseProofs ShiftProofs LayerProofs GeoProofs SurfaceProofs RealProofs WindWitness SolidWitness RigidWitness EdgeWitness ShellProofs.
Local Open Scope R_scope.

Definition cube_hall : list (entity R) := lit_hall (lit "1 2 3") cube.
Section Hall.
Context (parse : str -> option R) (cosine radians : R -> R) (quat : vec3 R -> R -> vec3 R -> vec3 R) (mat2 : R -> vec2 R -> vec2 R).
Local Notation O := (real_num parse cosine radians real_atan2 quat mat2).
Lemma cube_good : forall tx e, good_brush O tx e cube.
Proof.
  intros tx e. split; [|split; [exact cube_bounded|split; [exists middle; exact cube_deep|exact cube_once]]].
  intros plane f I E. split; [now apply cube_proper|]. split; [exact (cube_crisp _ _ _ _ _ _ _ _ _ _ I E)|now apply cube_sharp].
Qed.
Lemma hall_good : forall tx e planes, In e cube_hall -> In planes (e_brushes e) -> good_brush O tx e planes.
Proof.
  intros tx e planes Ie Ip. destruct Ie as [<-|[<-|[]]]; cbn [e_brushes] in Ip; [destruct Ip as [<-|[]]; apply cube_good|destruct Ip].
Qed.
Lemma cube_brick : forall pl, In pl cube -> bp_texture pl = lit "brick".
Proof. intros pl I. cbn in I. repeat destruct I as [<-|I]; try reflexivity. destruct I. Qed.

Theorem hall_shells : forall tx, exists nodes n0 c k T n1 c' v T',
  exact_scene O 1 hall_game (ForgeData [] [] []) (Blacklist [] []) tx cube_hall = Ok nodes
  /\ In n0 nodes /\ InvarianceSpec.within (NCollision c k) n0 /\ In T (shells (NCollision c k))
  /\ In n1 nodes /\ InvarianceSpec.within (NVisual c' v) n1 /\ In T' (shells (NVisual c' v)).
Proof.
  intros tx. destruct (any_hall_built parse cosine radians real_atan2 quat mat2 (lit "1 2 3") cube tx) as (nodes & E). exists nodes. fold cube_hall in E.
  pose proof E as Rn. unfold exact_scene in Rn. apply bind_ok in Rn. destruct Rn as (geo & Eg & Rn). apply bind_ok in Rn. destruct Rn as ([data layers] & El & Rn).
  unfold build_geometry, cube_hall, lit_hall in Eg. cbn [mapM] in Eg. apply bind_ok in Eg. destruct Eg as (g1 & E1 & Eg). apply bind_ok in Eg. destruct Eg as (gs & E2 & Eg). injection Eg as <-.
  apply bind_ok in E2. destruct E2 as (g2 & _ & E2). cbn [bind] in E2. injection E2 as <-.
  unfold build_entity_geo in E1. cbn [e_brushes mapM] in E1. apply bind_ok in E1. destruct E1 as (bs & Eb & E1). apply bind_ok in Eb. destruct Eb as (b & Eb & X). cbn [bind] in X. injection X as <-.
  assert (Ew : exists ce, g1 = EntityGeo ce [b]) by (injection E1 as <-; eauto). destruct Ew as (ce & ->). clear E1.
  unfold build_brush in Eb. apply bind_ok in Eb. destruct Eb as (fs & Ef & Eb). injection Eb as <-. apply mapM_ok in Ef.
  assert (Fx : exists f, In f fs /\ f_vertices f <> [] /\ forall t, f_texture f = Some t -> t = lit "brick").
  { destruct (Forall2_in_l _ _ _ _ _ _ Ef (or_introl eq_refl : In lid cube)) as (f & If & Eq). exists f. split; [exact If|]. split.
    - pose proof (cube_three _ _ _ _ _ _ _ _ _ _ (or_introl eq_refl : In lid cube) Eq) as L. destruct (f_vertices f); [cbn in L; lia|discriminate].
    - unfold build_face in Eq. apply bind_ok in Eq. destruct Eq as (vs & _ & Eq). injection Eq as <-. cbn [f_texture]. intros t. destruct (hget tx _); [|discriminate]. intros X. now injection X. }
  destruct Fx as (f & If & Nv & Tx). set (b := BrushGeo (mean O (map f_center fs)) fs) in *.
  unfold layer_filter in El. rewrite partition_filter in El. cbn [combine cube_hall lit_hall] in El.
  change (filter is_worldspawn _) with [(Entity [(lit "classname", lit "worldspawn")] [cube], EntityGeo ce [b])] in El.
  cbv beta iota in El. rewrite layers_split in El.
  assert (NL : forall t, t <> lit "brick" -> in_layer t b = false).
  { intros t N. unfold in_layer. apply Bool.not_true_is_false. intros Al. rewrite forallb_forall in Al. specialize (Al f If). destruct (f_texture f) as [t'|]; [|discriminate].
    apply str_eqb_eq in Al. rewrite (Tx _ eq_refl) in Al. now apply N. }
  cbn [eg_brushes filter] in El. rewrite !NL in El by (intros X; vm_compute in X; discriminate). cbn [negb filter] in El. rewrite !NL in El by (intros X; vm_compute in X; discriminate). cbn [negb filter eg_center] in El. injection El as <- <-.
  set (w := Entity [(lit "classname", lit "worldspawn")] [cube]) in *. set (gw := EntityGeo ce [b]) in *.
  unfold build_scene in Rn. apply bind_ok in Rn. destruct Rn as (world & Ew & Rn). apply bind_ok in Rn. destruct Rn as (ls & _ & Rn). apply bind_ok in Rn. destruct Rn as (os & _ & Rn). injection Rn as <-.
  cbn [firstn mapM] in Ew. apply bind_ok in Ew. destruct Ew as (n0 & Ew & X). cbn [bind] in X. injection X as <-.
  cbn [build_entity] in Ew. apply bind_ok in Ew. destruct Ew as (v & Ev & Ew). apply bind_ok in Ew. destruct Ew as (k & Ek & Ew). apply bind_ok in Ew. destruct Ew as (ch & _ & Ew).
  apply bind_ok in Ew. destruct Ew as (nm & _ & Ew). apply bind_ok in Ew. destruct Ew as (pr & _ & Ew). injection Ew as <-.
  assert (Bd : geometry_in_bounds gw).
  { intros b' f' [<-|[]] If'. cbn [b bg_faces] in If'. destruct (Forall2_in_r _ _ _ _ _ _ Ef If') as (pl & _ & Eq). exact (proj1 (proj2 (face_fan _ _ _ _ _ _ Eq))). }
  unfold entity_visual in Ev. unfold entity_collision in Ek. change (get_property w (lit "classname")) with (Some (lit "worldspawn")) in Ev, Ek.
  assert (Fd : find_def hall_game (lit "worldspawn") = Some (EntityDef (lit "worldspawn") (DBrush (PointData (EClass (lit "Static")) CompNone ADictionary []) (BrushData VMesh CConcave)))) by reflexivity.
  cbv iota beta in Ev, Ek. rewrite Fd in Ev, Ek.
  cbn [ed_data bd_collision] in Ev, Ek.
  assert (laws := real_laws parse cosine radians real_atan2 quat mat2).
  destruct (concave_full O laws gw Bd) as (kept & vs & ix & Ek' & _ & _ & _ & Nk). rewrite Ek in Ek'.
  destruct (mesh_full O laws w gw (BrushData VMesh CConcave) (Blacklist [] []) Bd eq_refl) as (l & Ev' & _ & _ & Sf & _). rewrite Ev in Ev'.
  destruct vs as [|p vs]; [exfalso; apply Nv; exact (proj1 Nk eq_refl b f (or_introl eq_refl) If)|]. injection Ek' as ->.
  assert (Sl : exists s, In s l).
  { destruct (Sf (f_texture f) f) as (s & Is & _); [|apply in_flat_map; exists b; split; [|]| exact Nv|eauto].
    - destruct (f_texture f) as [t|] eqn:Et; [|exact Logic.I]. rewrite (Tx _ eq_refl). split; [|intros []]. exists cube, lid. split; [now left|]. split; [now left|reflexivity].
    - apply filter_In. split; [now left|]. unfold drawn_brush. apply existsb_exists. exists f. split; [exact If|]. unfold drawn_face. destruct (f_texture f); reflexivity.
    - apply filter_In. split; [exact If|]. now apply with_texture_true. }
  destruct Sl as (s & Is). destruct l as [|s' l]; [destruct Is|]. injection Ev' as ->.
  do 8 eexists. split; [exact E|]. split; [apply in_or_app; left; now left|]. split; [eapply WithinChild; [|apply Within]; apply in_or_app; right; now left|]. split; [now left|].
  split; [apply in_or_app; left; now left|]. split; [eapply WithinChild; [|apply Within]; apply in_or_app; left; now left|]. now left.
Qed.
End Hall.
