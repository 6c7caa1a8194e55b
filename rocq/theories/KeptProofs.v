(** Where the corners of faces go: lemmas for C98 and C99. *)
From Coq Require Import Permutation.
From Verif Require Import Prelude F32 Text MapModel GeoModel LayerModel GameDataModel SceneModel RunModel
  GatherSpec SurfaceSpec GeoSpec LayerSpec TreeSpec PropertySpec MapSpec Utf8Spec RunSpec InvarianceSpec PointsSpec KeptSpec
  BaseProofs TokenProofs ParserProofs MapProofs GatherProofs GeoProofs GeoFinal LayerProofs SurfaceProofs SurfaceFinal NodeProofs RunProofs SoundProofs InvarianceProofs PointsProofs.

Section Kept.
Context (p : platform).
Local Notation O := (f32_num p).
Local Notation laws := (f32_eq_laws p).

(** All corners of a face are among the points. *)
Definition covers (l : list (vec3 f32)) (f : face f32) : Prop :=
  forall w, In w (f_vertices f) -> exists v, In v l /\ (v = vt_pos w \/ pos_eq O v (vt_pos w)).

Lemma kept_covers : forall eqb R fp bs kept b f, (forall a b, eqb a b = true <-> R a b) -> (forall a b, R a b -> vertex_pos_eq O a b) ->
  Forall2 (fun b out => restriction (first_of_equals R (face_vertices (brush_faces fp b))) (face_vertices (brush_faces fp b)) out) bs kept ->
  In b bs -> In f (bg_faces b) -> fp f = true -> covers (map vt_pos (concat kept)) f.
Proof.
  intros eqb R fp bs kept b f Rf Rp F Hb Hf Hp w Hw. destruct (Forall2_in_l _ _ _ _ _ _ F Hb) as (out & Ho & Rs).
  destruct (restriction_cover p eqb R Rf Rp _ _ w Rs) as (z & Hz & E).
  { apply in_flat_map. exists f. split; [apply filter_In; auto|exact Hw]. }
  exists (vt_pos z). split; [apply in_map, in_concat; eauto|]. destruct E as [->|E]; [now left|right; exact E].
Qed.

Lemma surface_covers : forall g bl t b f, geometry_in_bounds g -> In b (eg_brushes g) -> drawn_brush bl b = true -> In f (bg_faces b) -> f_texture f = t ->
  f_vertices f <> [] -> exists s, texture_surface O g bl t = Ok (Some s) /\ s_texture s = t /\ covers (s_vertices s) f.
Proof.
  intros g bl t b f H Hb Hd Hf Ht Hv. destruct (surface_full O laws g bl t H) as (os & E & kept & rs & F1 & _ & M).
  assert (C : covers (map vt_pos (concat kept)) f).
  { eapply kept_covers; [apply eqb_vertex|apply vertex_refines|exact F1| |exact Hf|]; [apply filter_In; auto|now apply with_texture_true]. }
  destruct os as [s|].
  - exists s. destruct M as (_ & St & (D & _) & _). rewrite D. auto.
  - exfalso. destruct (f_vertices f) as [|w ws] eqn:Ev; [congruence|]. destruct (C w) as (v & Iv & _); [rewrite Ev; now left|]. rewrite M in Iv. destruct Iv.
Qed.

Lemma collision_covers : forall t g b f k, geometry_in_bounds g -> t <> CNone -> In b (eg_brushes g) -> In f (bg_faces b) -> f_vertices f <> [] ->
  collision_of O t g = Ok k -> forall c, exists n l, collision_nodes c k = [n] /\ n = NCollision c k /\ In l (point_lists n) /\ covers l f.
Proof.
  intros t g b f k H Ht Hb Hf Hv E c. destruct t; [congruence| |].
  - destruct (convex_full O laws g) as (shapes & E' & F). rewrite E in E'. injection E' as ->.
    destruct (Forall2_in_l _ _ _ _ _ _ F Hb) as (x & Hx & _ & _ & _ & C1 & _). do 2 eexists. split; [reflexivity|]. split; [reflexivity|].
    split; [cbn [point_lists]; apply in_map; exact Hx|]. intros w Hw. now apply (C1 f).
  - destruct (concave_full O laws g H) as (kept & vs & ix & E' & F & V & _). rewrite E in E'. injection E' as ->.
    assert (C : covers vs f).
    { rewrite V. eapply (kept_covers (same_position O) (vertex_pos_eq O) (fun _ => true) (eg_brushes g)); [apply position_reflects|auto| |exact Hb|exact Hf|reflexivity].
      eapply Forall2_impl; [|exact F]. cbv beta. intros b' out (Rs & _). unfold brush_faces.
      assert (FT : forall (l : list (face f32)), filter (fun _ => true) l = l) by (intros l; induction l as [|y l IH]; simpl; congruence). rewrite FT. exact Rs. }
    destruct vs as [|x vs].
    + exfalso. destruct (f_vertices f) as [|w ws] eqn:Ev; [congruence|]. destruct (C w) as (v & Iv & _); [rewrite Ev; now left|]. destruct Iv.
    + do 2 eexists. split; [reflexivity|]. split; [reflexivity|]. split; [cbn [point_lists map]; left; reflexivity|exact C].
Qed.

(** ** Reaching entities *)
Section Scene.
Context (gd : game_data f32) (fd : forge_data f32) (bl : blacklist) (data : list (entity f32 * entity_geo f32)).

Inductive linked : entity f32 * entity_geo f32 -> Prop :=
| LinkFirst x : In x (firstn 1 data) -> linked x
| LinkTop x : In x (tl data) -> get_property (fst x) (lit "_tb_group") = None -> linked x
| LinkMember x y : linked x -> In y (tl data) -> is_child (fst x) (fst y) = true -> linked y.

Lemma within_trans : forall a b c : node f32, within a b -> within b c -> within a c.
Proof. intros a b c A B. induction B; [exact A|]. econstructor; eauto. Qed.

(** What [build_entity] was made of. *)
Definition built (x : entity f32 * entity_geo f32) (n : node f32) : Prop := exists fuel origin, build_entity O fuel gd fd bl data origin x = Ok n.

Lemma linked_built : forall fuel layers nodes, build_scene O fuel gd fd bl data layers = Ok nodes ->
  forall x, linked x -> exists n0 n, In n0 nodes /\ within n n0 /\ built x n.
Proof.
  intros fuel layers nodes E. unfold build_scene in E. apply bind_ok in E. destruct E as (w & Ew & E). apply bind_ok in E. destruct E as (ls & _ & E).
  apply bind_ok in E. destruct E as (os & Eo & E). injection E as <-. apply mapM_ok in Ew, Eo.
  intros x L. induction L as [x I|x I G|x y L IH I C].
  - destruct (Forall2_in_l _ _ _ _ _ _ Ew I) as (n & In_ & En). exists n, n. split; [apply in_or_app; auto|]. split; [constructor|]. do 2 eexists; exact En.
  - destruct (Forall2_in_l _ _ _ _ _ x Eo) as (n & In_ & En); [apply filter_In; split; [exact I|]; now rewrite G|].
    exists n, n. split; [apply in_or_app; right; apply in_or_app; auto|]. split; [constructor|]. do 2 eexists; exact En.
  - destruct IH as (n0 & n & I0 & W & fuel' & origin & En). destruct fuel' as [|fuel']; [discriminate|]. destruct x as [e g]. cbn [build_entity] in En.
    apply bind_ok in En. destruct En as (v & Ev & En). apply bind_ok in En. destruct En as (k & Ek & En).
    apply bind_ok in En. destruct En as (ch & Ec & En). apply bind_ok in En. destruct En as (nm & _ & En). apply bind_ok in En. destruct En as (pr & _ & En).
    injection En as <-. apply mapM_ok in Ec. destruct (Forall2_in_l _ _ _ _ _ y Ec) as (m & Im & Em); [apply filter_In; auto|].
    exists n0, m. split; [exact I0|]. split; [|do 2 eexists; exact Em].
    eapply within_trans; [|exact W]. apply WithinChild with m; [|constructor]. apply in_or_app. right. apply in_or_app. now right.
Qed.

Lemma built_visual : forall e g n c k q bd b f, geometry_in_bounds g -> built (e, g) n -> get_property e (lit "classname") = Some c ->
  first_with (fun k => ed_classname k = c) (gd_entities gd) k -> ed_data k = GameDataModel.DBrush q bd -> bd_visual bd = VMesh ->
  In b (eg_brushes g) -> drawn_brush bl b = true -> In f (bg_faces b) -> f_vertices f <> [] ->
  (forall t, f_texture f = Some t -> mentions e t /\ ~ In t (bl_plane bl)) ->
  exists ss s, within (NVisual (eg_center g) (VisMesh ss)) n /\ In s ss /\ s_texture s = f_texture f /\ covers (s_vertices s) f.
Proof.
  intros e g n c k q bd b f B (fuel & origin & En) Hc Hk Hd Hm Hb Hdr Hf Hv Ht. destruct fuel as [|fuel]; [discriminate|]. cbn [build_entity] in En.
  apply bind_ok in En. destruct En as (v & Ev & En). apply bind_ok in En. destruct En as (kk & _ & En).
  apply bind_ok in En. destruct En as (ch & _ & En). apply bind_ok in En. destruct En as (nm & _ & En). apply bind_ok in En. destruct En as (pr & _ & En). injection En as <-.
  destruct (find_def_defined gd e k) as (c' & Hc' & Fd); [exists c; split; [exact Hc|exact Hk]|]. unfold entity_visual in Ev. rewrite Hc', Fd, Hd in Ev.
  destruct (mesh_full O laws e g bd bl B Hm) as (l & E & _ & _ & Co & Su). rewrite E in Ev.
  assert (Sel : In f (selected_faces (drawn_brush bl) (with_texture (f_texture f)) g)).
  { unfold selected_faces. apply in_flat_map. exists b. split; [now apply filter_In|]. apply filter_In. split; [exact Hf|]. now apply with_texture_true. }
  destruct (Co (f_texture f) f) as (s & Hs & Es); auto; [destruct (f_texture f) as [t|]; [now apply Ht|exact I]|].
  destruct (surface_covers g bl (f_texture f) b f B Hb Hdr Hf eq_refl Hv) as (s' & Es' & St & Cs).
  pose proof (Su s Hs) as Es2. rewrite Es in Es2. assert (s' = s) by congruence. subst s'.
  destruct l as [|s0 l]; [destruct Hs|]. injection Ev as <-. exists (s0 :: l), s. split; [|auto].
  eapply WithinChild; [|constructor]. apply in_or_app. left. now left.
Qed.

Lemma built_collision : forall e g n c k q bd b f, geometry_in_bounds g -> built (e, g) n -> get_property e (lit "classname") = Some c ->
  first_with (fun k => ed_classname k = c) (gd_entities gd) k -> ed_data k = GameDataModel.DBrush q bd -> bd_collision bd <> CNone ->
  In b (eg_brushes g) -> In f (bg_faces b) -> f_vertices f <> [] ->
  exists shape l, within (NCollision (eg_center g) shape) n /\ In l (point_lists (NCollision (eg_center g) shape)) /\ covers l f.
Proof.
  intros e g n c k q bd b f B (fuel & origin & En) Hc Hk Hd Hm Hb Hf Hv. destruct fuel as [|fuel]; [discriminate|]. cbn [build_entity] in En.
  apply bind_ok in En. destruct En as (v & _ & En). apply bind_ok in En. destruct En as (kk & Ek & En).
  apply bind_ok in En. destruct En as (ch & _ & En). apply bind_ok in En. destruct En as (nm & _ & En). apply bind_ok in En. destruct En as (pr & _ & En). injection En as <-.
  destruct (find_def_defined gd e k) as (c' & Hc' & Fd); [exists c; split; [exact Hc|exact Hk]|]. unfold entity_collision in Ek. rewrite Hc', Fd, Hd in Ek.
  destruct (collision_covers _ g b f kk B Hm Hb Hf Hv Ek (eg_center g)) as (m & l & Em & -> & Il & C).
  exists kk, l. split; [|auto]. eapply WithinChild; [|constructor]. apply in_or_app. right. apply in_or_app. left. rewrite Em. now left.
Qed.

Lemma built_layer : forall l bs o, geometry_in_bounds (EntityGeo (v3_zero O) bs) -> only_one (fun l' => wl_texture l' = wl_texture l) (gd_layers gd) l ->
  build_layer O gd (wl_texture l, bs) = Ok o -> forall b f, In b bs -> In f (bg_faces b) -> f_texture f = Some (wl_texture l) -> f_vertices f <> [] ->
  (wl_visual l = VMesh -> exists n s, o = Some n /\ within (NVisual (v3_zero O) (VisMesh [s])) n /\ s_texture s = Some (wl_texture l) /\ covers (s_vertices s) f)
  /\ (wl_collision l <> CNone -> exists n shape pts, o = Some n /\ within (NCollision (v3_zero O) shape) n
        /\ In pts (point_lists (NCollision (v3_zero O) shape)) /\ covers pts f).
Proof.
  intros l bs o B Ol E b f Hb Hf Ht Hv. unfold build_layer in E.
  assert (Fl : filter (fun l' => str_eqb (wl_texture l') (wl_texture l)) (gd_layers gd) = [l]) by (apply layer_choice; exact Ol).
  rewrite Fl in E. apply bind_ok in E. destruct E as (v & Ev & E). apply bind_ok in E. destruct E as (k & Ek & E). split.
  - intros M. unfold layer_visual in Ev. rewrite M in Ev.
    destruct (surface_covers (EntityGeo (v3_zero O) bs) blacklist_default (Some (wl_texture l)) b f B Hb) as (s & Es & St & Cs); auto.
    { unfold drawn_brush. apply existsb_exists. exists f. split; [exact Hf|]. unfold drawn_face. rewrite Ht. reflexivity. }
    rewrite Es in Ev. cbn [bind] in Ev. injection Ev as <-. cbn [visual_nodes app] in E. injection E as <-.
    do 2 eexists. split; [reflexivity|]. split; [eapply WithinChild; [now left|constructor]|]. auto.
  - intros M. destruct (collision_covers _ _ b f k B M Hb Hf Hv Ek (v3_zero O)) as (m & pts & Em & -> & Il & C). rewrite Em in E.
    destruct (visual_nodes (v3_zero O) v ++ [NCollision (v3_zero O) k]) as [|x xs] eqn:Ex; [destruct (visual_nodes (v3_zero O) v); discriminate|].
    injection E as <-. do 3 eexists. split; [reflexivity|]. split; [eapply WithinChild; [rewrite <- Ex; apply in_or_app; right; now left|constructor]|]. exact (conj Il C).
Qed.
End Scene.
End Kept.
