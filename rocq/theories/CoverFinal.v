(** Triangles of whole runs cover the sides of the map file: lemmas for C107. *)
From Coq Require Import Reals Lra Lia ZArith Permutation.
From Flocq Require Import Core.
From Verif Require Import Prelude F32 Text MapModel GeoModel LayerModel GameDataModel SceneModel RunModel
  GatherSpec SurfaceSpec GeoSpec NumberSpec LayerSpec TreeSpec PropertySpec MapSpec Utf8Spec RunSpec InvarianceSpec RealSpec WindSpec ErrorSpec PointsSpec UvSpec MeshSpec
  CornerSpec MeanSpec SolidSpec WoundSpec TriangleSpec KeptSpec CoverSpec
  BaseProofs GatherProofs FloatProofs NumberProofs ColorProofs ArithProofs ExactProofs GeoProofs GeoFinal LayerProofs SurfaceProofs SurfaceFinal NodeProofs RunProofs SoundProofs InvarianceProofs
  ErrorProofs ErrorFinal PointsProofs PointsFinal KeptProofs KeptFinal TriangleProofs TriangleFinal CoverProofs.
Local Open Scope R_scope.

Section Final.
Context (p : platform).
Local Notation O := (f32_num p).
Local Notation laws := (f32_eq_laws p).

(** ** From faces to arrays *)
Lemma face_offset : forall (faces : list (face f32)) f, (forall f, In f faces -> exists n, length (face_corners f) = (3 * n)%nat) -> In f faces ->
  exists h, forall i, (i < length (face_corners f))%nat -> nth_error (flat_map face_corners faces) (3 * h + i) = nth_error (face_corners f) i.
Proof.
  induction faces as [|g faces IH]; intros f M I; [destruct I|]. cbn [flat_map]. destruct I as [->|I].
  - exists 0%nat. intros i Hi. now apply nth_error_app1.
  - destruct (IH f) as (h & H); [intros; apply M; now right|exact I|]. destruct (M g (or_introl eq_refl)) as (n & Ln). exists (n + h)%nat. intros i Hi.
    rewrite nth_error_app2 by lia. rewrite Ln. replace (3 * (n + h) + i - 3 * n)%nat with (3 * h + i)%nat by lia. auto.
Qed.

Lemma draws_triangle : forall points ix faces f m w w' w'', draws O points ix faces -> (forall f, In f faces -> is_fan (length (f_vertices f)) (f_indices f)) -> In f faces ->
  (m + 2 < length (f_vertices f))%nat -> nth_error (f_vertices f) 0 = Some w -> nth_error (f_vertices f) (m + 1) = Some w' -> nth_error (f_vertices f) (m + 2) = Some w'' ->
  exists k a b c, kth_triangle points ix k a b c /\ (a = vt_pos w \/ pos_eq O a (vt_pos w)) /\ (b = vt_pos w' \/ pos_eq O b (vt_pos w')) /\ (c = vt_pos w'' \/ pos_eq O c (vt_pos w'')).
Proof.
  intros points ix faces f m w w' w'' (_ & _ & Df) Fl If Lm V0 V1 V2.
  destruct (face_offset faces f) as (h & H); [|exact If|].
  { intros g Hg. destruct (Fl g Hg) as (Lg & _). unfold face_corners, corners. rewrite map_length. eauto. }
  destruct (Fl f If) as (Lf & Bf & Kf). destruct (Kf m) as (F0 & F1 & F2); [lia|].
  assert (Lc : length (face_corners f) = length (f_indices f)) by (unfold face_corners, corners; apply map_length).
  assert (Get : forall i j v, nth_error (f_indices f) i = Some j -> nth_error (f_vertices f) j = Some v ->
    exists l q, nth_error ix (3 * h + i) = Some l /\ nth_error points l = Some q /\ (q = vt_pos v \/ pos_eq O q (vt_pos v))).
  { intros i j v Hi Hj. assert (Li : (i < length (face_corners f))%nat) by (rewrite Lc; apply nth_error_Some; congruence).
    pose proof (H i Li) as N0. rewrite (fan_corner f i j Hi) in N0. destruct (Forall2_nth_r _ _ _ _ _ _ _ Df N0) as (l & Hl & q & v' & Hq & Ev & Pv).
    exists l, q. split; [exact Hl|]. split; [exact Hq|]. assert (v' = v) by congruence. subst v'. exact Pv. }
  destruct (Get (3 * m)%nat 0%nat w F0 V0) as (l0 & q0 & X0 & Q0 & P0). destruct (Get (3 * m + 1)%nat (m + 1)%nat w' F1 V1) as (l1 & q1 & X1 & Q1 & P1).
  destruct (Get (3 * m + 2)%nat (m + 2)%nat w'' F2 V2) as (l2 & q2 & X2 & Q2 & P2).
  exists (h + m)%nat, q0, q1, q2. split; [|auto]. exists l0, l1, l2.
  replace (3 * (h + m))%nat with (3 * h + 3 * m)%nat by lia. replace (3 * h + 3 * m + 1)%nat with (3 * h + (3 * m + 1))%nat by lia. replace (3 * h + 3 * m + 2)%nat with (3 * h + (3 * m + 2))%nat by lia.
  repeat (split; [assumption|]). assumption.
Qed.

(** An array with a good side among its faces shows it. *)
Lemma draws_shown : forall points ix faces tx e planes pl f b, draws O points ix faces -> (forall f, In f faces -> is_fan (length (f_vertices f)) (f_indices f)) -> In f faces ->
  (forall v, In v points -> finite_point v) -> build_face O tx e planes pl = Ok f -> (forall q, In q planes -> grid_plane q) -> In pl planes -> (Z.of_nat (length planes) <= 4000)%Z ->
  good_side p planes pl b -> forall x, side (map plane_of planes) (plane_of pl) x -> shown (allowance b) points ix x.
Proof.
  intros points ix faces tx e planes pl f b D Fl If Fin E G Ipl L GS x Sx. assert (G' : forall q, In q (pl :: planes) -> grid_plane q) by (intros q [<-|I]; auto).
  destruct (face_covers_side p tx e planes pl f b E G' L GS) as (_ & A & _). destruct (A x Sx) as (m & w & w' & w'' & y & Lm & V0 & V1 & V2 & Ty & Ny).
  destruct (draws_triangle points ix faces f m w w' w'' D Fl If Lm V0 V1 V2) as (k & a & c & d & Tr & Pa & Pc & Pd).
  destruct (corners_inside p tx e planes pl f E G' L) as (_ & Fw).
  assert (Eq : forall q v, (q = vt_pos v \/ pos_eq O q (vt_pos v)) -> In q points -> In v (f_vertices f) -> point_of q = point_of (vt_pos v)).
  { intros q v [->|Q] Iq Iv; [reflexivity|]. apply (pos_eq_point p) in Q; [exact Q|apply finite_fins; now apply Fin|apply finite_fins; now apply Fw]. }
  exists k, a, c, d, y. split; [exact Tr|]. destruct Tr as (i & j & l & _ & _ & _ & A0 & A1 & A2). apply nth_error_In in A0, A1, A2, V0, V1, V2.
  rewrite (Eq a w), (Eq c w'), (Eq d w'') by assumption. auto.
Qed.

(** ** What nodes are made of *)
Lemma surface_drawn : forall g bl t b f, geometry_in_bounds g -> In b (eg_brushes g) -> drawn_brush bl b = true -> In f (bg_faces b) -> f_texture f = t ->
  f_vertices f <> [] -> exists s faces, texture_surface O g bl t = Ok (Some s) /\ s_texture s = t /\ draws O (s_vertices s) (s_indices s) faces /\ In f faces
    /\ forall f, In f faces -> exists b, In b (eg_brushes g) /\ In f (bg_faces b).
Proof.
  intros g bl t b f H Hb Hd Hf Ht Hv. destruct (surface_covers p g bl t b f H Hb Hd Hf Ht Hv) as (s & E & St & _).
  destruct (surface_c30 p g bl t H) as (os & E' & D). assert (os = Some s) by congruence. subst os.
  exists s, (selected_faces (drawn_brush bl) (with_texture t) g). split; [exact E|]. split; [exact St|]. split; [exact D|]. split.
  - unfold selected_faces. apply in_flat_map. exists b. split; [now apply filter_In|]. apply filter_In. split; [exact Hf|]. now apply with_texture_true.
  - intros f' Hf'. unfold selected_faces in Hf'. apply in_flat_map in Hf'. destruct Hf' as (b' & Hb' & Hf'). apply filter_In in Hb', Hf'. exists b'. tauto.
Qed.

Lemma concave_drawn : forall g b f k, geometry_in_bounds g -> In b (eg_brushes g) -> In f (bg_faces b) -> f_vertices f <> [] ->
  collision_of O CConcave g = Ok k -> exists vs ix faces, k = ColConcave [Concave (eg_center g) vs ix] /\ draws O vs ix faces /\ In f faces
    /\ forall f, In f faces -> exists b, In b (eg_brushes g) /\ In f (bg_faces b).
Proof.
  intros g b f k H Hb Hf Hv E. destruct (collision_covers p CConcave g b f k H ltac:(discriminate) Hb Hf Hv E (eg_center g)) as (n & l & En & -> & Il & C).
  destruct (concave_c30 p g H) as [E'|(vs & ix & E' & D)]; rewrite E' in E; injection E as <-; [destruct Il|].
  exists vs, ix, (flat_map bg_faces (eg_brushes g)). split; [reflexivity|]. split; [exact D|]. split; [apply in_flat_map; eauto|].
  intros f' Hf'. apply in_flat_map in Hf'. exact Hf'.
Qed.

Section Scene.
Context (gd : game_data f32) (fd : forge_data f32) (bl : blacklist) (data : list (entity f32 * entity_geo f32)).

Lemma built_surface : forall e g n c k q bd b f, geometry_in_bounds g -> built p gd fd bl data (e, g) n -> get_property e (lit "classname") = Some c ->
  first_with (fun k => ed_classname k = c) (gd_entities gd) k -> ed_data k = GameDataModel.DBrush q bd -> bd_visual bd = VMesh ->
  In b (eg_brushes g) -> drawn_brush bl b = true -> In f (bg_faces b) -> f_vertices f <> [] ->
  (forall t, f_texture f = Some t -> mentions e t /\ ~ In t (bl_plane bl)) ->
  exists ss s faces, InvarianceSpec.within (NVisual (eg_center g) (VisMesh ss)) n /\ In s ss /\ s_texture s = f_texture f /\ draws O (s_vertices s) (s_indices s) faces /\ In f faces
    /\ forall f, In f faces -> exists b, In b (eg_brushes g) /\ In f (bg_faces b).
Proof.
  intros e g n c k q bd b f B (fuel & origin & En) Hc Hk Hd Hm Hb Hdr Hf Hv Ht. destruct fuel as [|fuel]; [discriminate|]. cbn [build_entity] in En.
  apply bind_ok in En. destruct En as (v & Ev & En). apply bind_ok in En. destruct En as (kk & _ & En).
  apply bind_ok in En. destruct En as (ch & _ & En). apply bind_ok in En. destruct En as (nm & _ & En). apply bind_ok in En. destruct En as (pr & _ & En). injection En as <-.
  destruct (find_def_defined gd e k) as (c' & Hc' & Fd); [exists c; split; [exact Hc|exact Hk]|]. unfold entity_visual in Ev. rewrite Hc', Fd, Hd in Ev.
  destruct (mesh_full O laws e g bd bl B Hm) as (l & E & _ & _ & Co & Su). rewrite E in Ev.
  assert (Sel : In f (selected_faces (drawn_brush bl) (with_texture (f_texture f)) g)).
  { unfold selected_faces. apply in_flat_map. exists b. split; [now apply filter_In|]. apply filter_In. split; [exact Hf|]. now apply with_texture_true. }
  destruct (Co (f_texture f) f) as (s & Hs & Es); auto; [destruct (f_texture f) as [t|]; [now apply Ht|exact I]|].
  destruct (surface_drawn g bl (f_texture f) b f B Hb Hdr Hf eq_refl Hv) as (s' & faces & Es' & St & D).
  pose proof (Su s Hs) as Es2. rewrite Es in Es2. assert (s' = s) by congruence. subst s'.
  destruct l as [|s0 l]; [destruct Hs|]. injection Ev as <-. exists (s0 :: l), s, faces. split; [|auto].
  eapply WithinChild; [|constructor]. apply in_or_app. left. now left.
Qed.

Lemma built_concave : forall e g n c k q bd b f, geometry_in_bounds g -> built p gd fd bl data (e, g) n -> get_property e (lit "classname") = Some c ->
  first_with (fun k => ed_classname k = c) (gd_entities gd) k -> ed_data k = GameDataModel.DBrush q bd -> bd_collision bd = CConcave ->
  In b (eg_brushes g) -> In f (bg_faces b) -> f_vertices f <> [] ->
  exists vs ix faces, InvarianceSpec.within (NCollision (eg_center g) (ColConcave [Concave (eg_center g) vs ix])) n /\ draws O vs ix faces /\ In f faces
    /\ forall f, In f faces -> exists b, In b (eg_brushes g) /\ In f (bg_faces b).
Proof.
  intros e g n c k q bd b f B (fuel & origin & En) Hc Hk Hd Hm Hb Hf Hv. destruct fuel as [|fuel]; [discriminate|]. cbn [build_entity] in En.
  apply bind_ok in En. destruct En as (v & _ & En). apply bind_ok in En. destruct En as (kk & Ek & En).
  apply bind_ok in En. destruct En as (ch & _ & En). apply bind_ok in En. destruct En as (nm & _ & En). apply bind_ok in En. destruct En as (pr & _ & En). injection En as <-.
  destruct (find_def_defined gd e k) as (c' & Hc' & Fd); [exists c; split; [exact Hc|exact Hk]|]. unfold entity_collision in Ek. rewrite Hc', Fd, Hd, Hm in Ek.
  destruct (concave_drawn g b f kk B Hb Hf Hv Ek) as (vs & ix & faces & -> & D). exists vs, ix, faces. split; [|exact D].
  eapply WithinChild; [|constructor]. apply in_or_app. right. apply in_or_app. left. now left.
Qed.

Lemma layer_drawn : forall l bs o, geometry_in_bounds (EntityGeo (v3_zero O) bs) -> only_one (fun l' => wl_texture l' = wl_texture l) (gd_layers gd) l ->
  build_layer O gd (wl_texture l, bs) = Ok o -> forall b f, In b bs -> In f (bg_faces b) -> f_texture f = Some (wl_texture l) -> f_vertices f <> [] ->
  (wl_visual l = VMesh -> exists n s faces, o = Some n /\ InvarianceSpec.within (NVisual (v3_zero O) (VisMesh [s])) n /\ s_texture s = Some (wl_texture l)
        /\ draws O (s_vertices s) (s_indices s) faces /\ In f faces /\ forall f, In f faces -> exists b, In b bs /\ In f (bg_faces b))
  /\ (wl_collision l = CConcave -> exists n vs ix faces, o = Some n /\ InvarianceSpec.within (NCollision (v3_zero O) (ColConcave [Concave (v3_zero O) vs ix])) n
        /\ draws O vs ix faces /\ In f faces /\ forall f, In f faces -> exists b, In b bs /\ In f (bg_faces b)).
Proof.
  intros l bs o B Ol E b f Hb Hf Ht Hv. unfold build_layer in E.
  assert (Fl : filter (fun l' => str_eqb (wl_texture l') (wl_texture l)) (gd_layers gd) = [l]) by (apply layer_choice; exact Ol).
  rewrite Fl in E. apply bind_ok in E. destruct E as (v & Ev & E). apply bind_ok in E. destruct E as (k & Ek & E). split.
  - intros M. unfold layer_visual in Ev. rewrite M in Ev.
    destruct (surface_drawn (EntityGeo (v3_zero O) bs) blacklist_default (Some (wl_texture l)) b f B Hb) as (s & faces & Es & St & D); auto.
    { unfold drawn_brush. apply existsb_exists. exists f. split; [exact Hf|]. unfold drawn_face. rewrite Ht. reflexivity. }
    rewrite Es in Ev. cbn [bind] in Ev. injection Ev as <-. cbn [visual_nodes app] in E. injection E as <-.
    do 2 eexists. exists faces. split; [reflexivity|]. split; [eapply WithinChild; [now left|constructor]|]. auto.
  - intros M. rewrite M in Ek. destruct (concave_drawn _ b f k B Hb Hf Hv Ek) as (vs & ix & faces & -> & D). cbn [collision_nodes eg_center] in E.
    destruct (visual_nodes (v3_zero O) v ++ _) as [|x xs] eqn:Ex in E; [destruct (visual_nodes (v3_zero O) v); discriminate|].
    injection E as <-. do 3 eexists. exists faces. split; [reflexivity|]. split; [eapply WithinChild; [rewrite <- Ex; apply in_or_app; right; now left|constructor]|]. exact D.
Qed.
End Scene.

(** ** Whole runs *)
Section Run.
Context (order : hmap (list (brush_geo f32)) -> list (str * list (brush_geo f32))) (permutes : forall m, Permutation (order m) m).
Context (fuel : nat) (c : config) (text : str) (d : doc) (nodes : list (node f32)).
Context (Ft : file_text (cf_map c) text) (Td : text_document p text d) (Gd : grid_document p d) (Er : run p order fuel c = Ok nodes).

Theorem sides_drawn : forall e b planes pl bd h, in_tree d e -> In b (doc_brushes e) -> Forall2 (reads_as p) b planes -> In pl planes ->
  brush_class (cf_game c) e bd -> bd_visual bd = VMesh -> stays (cf_textures c) e planes -> visible (cf_textures c) (cf_blacklist c) planes pl -> good_side p planes pl h ->
  exists n0 n points ix, In n0 nodes /\ InvarianceSpec.within n n0 /\ In (points, ix, Some (side_texture (cf_textures c) pl)) (drawings n)
    /\ forall x, side (map plane_of planes) (plane_of pl) x -> shown (allowance h) points ix x.
Proof.
  intros e b planes pl bd h T Hb Hp Ip (cl & k & q & Hc & Hk & Hd) Hm St ((q' & Iq & Vb) & Vp) GS. pose proof (tree_member d e T) as He.
  destruct (brush_found p order fuel c text d nodes Ft Td Er e b planes He Hb Hp) as (data & layers & y & g' & bg & Es & Lk & K & Iy & B1 & _ & Id & Ff & Sy & _ & Fn & _).
  destruct (planes_grid p d Gd e b planes He Hb Hp) as (G & L). specialize (Sy St). specialize (Lk T).
  destruct (linked_built p _ _ _ _ _ _ _ Es _ Lk) as (n0 & n & I0 & W & Bu). destruct g' as [ce bs]. cbn [eg_center eg_brushes] in *.
  destruct (Forall2_in_l _ _ _ _ _ _ Ff Ip) as (f & Hf & Ef).
  assert (G' : forall q, In q (pl :: planes) -> grid_plane q) by (intros z [<-|I]; auto).
  assert (Ne : f_vertices f <> []) by (destruct (face_covers_side p _ _ _ _ _ _ Ef G' L GS) as (L3 & _); intros Z; rewrite Z in L3; cbn in L3; lia).
  pose proof (side_named _ _ _ _ _ _ Ef) as Tf.
  destruct (built_surface _ _ _ _ y (EntityGeo ce bs) n cl k q bd bg f (B1 _ _ Id) Bu) as (ss & s & faces & W' & Is & Ts & D & If & Src); auto.
  { rewrite K. exact Hc. }
  { unfold drawn_brush. apply existsb_exists. destruct (Forall2_in_l _ _ _ _ _ _ Ff Iq) as (f' & Hf' & Ef'). exists f'. split; [exact Hf'|].
    unfold drawn_face. rewrite (side_named _ _ _ _ _ _ Ef'). destruct (side_texture (cf_textures c) q') as [t|] eqn:Q; [|reflexivity].
    unfold listed. destruct (in_dec str_dec t (bl_brush (cf_blacklist c))) as [Z|]; [|reflexivity]. exfalso. exact (Vb t eq_refl Z). }
  { intros t Q. rewrite Tf in Q. split; [|now apply Vp]. exists planes, pl. split; [exact Iy|]. split; [exact Ip|].
    unfold side_texture in Q. destruct (hget (cf_textures c) (bp_texture pl)); congruence. }
  cbn [eg_center eg_brushes] in *. assert (W2 : InvarianceSpec.within (NVisual ce (VisMesh ss)) n0) by (eapply within_trans; eauto).
  exists n0, (NVisual ce (VisMesh ss)), (s_vertices s), (s_indices s). split; [exact I0|]. split; [exact W2|]. split.
  { cbn [drawings]. rewrite <- Tf, <- Ts. apply (in_map (fun s => (s_vertices s, s_indices s, Some (s_texture s)))). exact Is. }
  apply (draws_shown (s_vertices s) (s_indices s) faces (cf_textures c) y planes pl f h); auto.
  - intros f' Hf'. destruct (Src f' Hf') as (b' & Hb' & Hfb). exact (Fn _ _ b' f' Id Hb' Hfb).
  - intros v Hv. eapply (listed_finite p order permutes fuel c text d nodes Ft Td Gd Er); [exact I0|exact W2| |exact Hv]. cbn [point_lists]. now apply in_map.
Qed.

Theorem sides_solid : forall e b planes pl bd h, in_tree d e -> In b (doc_brushes e) -> Forall2 (reads_as p) b planes -> In pl planes ->
  brush_class (cf_game c) e bd -> bd_collision bd = CConcave -> stays (cf_textures c) e planes -> good_side p planes pl h ->
  exists n0 n points ix, In n0 nodes /\ InvarianceSpec.within n n0 /\ In (points, ix, None) (drawings n)
    /\ forall x, side (map plane_of planes) (plane_of pl) x -> shown (allowance h) points ix x.
Proof.
  intros e b planes pl bd h T Hb Hp Ip (cl & k & q & Hc & Hk & Hd) Hm St GS. pose proof (tree_member d e T) as He.
  destruct (brush_found p order fuel c text d nodes Ft Td Er e b planes He Hb Hp) as (data & layers & y & g' & bg & Es & Lk & K & Iy & B1 & _ & Id & Ff & Sy & _ & Fn & _).
  destruct (planes_grid p d Gd e b planes He Hb Hp) as (G & L). specialize (Sy St). specialize (Lk T).
  destruct (linked_built p _ _ _ _ _ _ _ Es _ Lk) as (n0 & n & I0 & W & Bu). destruct g' as [ce bs]. cbn [eg_center eg_brushes] in *.
  destruct (Forall2_in_l _ _ _ _ _ _ Ff Ip) as (f & Hf & Ef).
  assert (G' : forall q, In q (pl :: planes) -> grid_plane q) by (intros z [<-|I]; auto).
  assert (Ne : f_vertices f <> []) by (destruct (face_covers_side p _ _ _ _ _ _ Ef G' L GS) as (L3 & _); intros Z; rewrite Z in L3; cbn in L3; lia).
  destruct (built_concave _ _ _ _ y (EntityGeo ce bs) n cl k q bd bg f (B1 _ _ Id) Bu) as (vs & ix & faces & W' & D & If & Src); auto.
  { rewrite K. exact Hc. }
  cbn [eg_center eg_brushes] in *. assert (W2 : InvarianceSpec.within (NCollision ce (ColConcave [Concave ce vs ix])) n0) by (eapply within_trans; eauto).
  exists n0, (NCollision ce (ColConcave [Concave ce vs ix])), vs, ix. split; [exact I0|]. split; [exact W2|]. split; [now left|].
  apply (draws_shown vs ix faces (cf_textures c) y planes pl f h); auto.
  - intros f' Hf'. destruct (Src f' Hf') as (b' & Hb' & Hfb). exact (Fn _ _ b' f' Id Hb' Hfb).
  - intros v Hv. eapply (listed_finite p order permutes fuel c text d nodes Ft Td Gd Er); [exact I0|exact W2| |exact Hv]. now left.
Qed.

Theorem sides_layered : forall e b planes pl lay h, In e d -> In b (doc_brushes e) -> Forall2 (reads_as p) b planes -> In pl planes ->
  KeptSpec.moved (cf_textures c) e planes (wl_texture lay) -> only_one (fun l => wl_texture l = wl_texture lay) (gd_layers (cf_game c)) lay -> good_side p planes pl h ->
  (wl_visual lay = VMesh -> exists n0 n points ix, In n0 nodes /\ InvarianceSpec.within n n0 /\ In (points, ix, Some (Some (wl_texture lay))) (drawings n)
    /\ forall x, side (map plane_of planes) (plane_of pl) x -> shown (allowance h) points ix x)
  /\ (wl_collision lay = CConcave -> exists n0 n points ix, In n0 nodes /\ InvarianceSpec.within n n0 /\ In (points, ix, None) (drawings n)
    /\ forall x, side (map plane_of planes) (plane_of pl) x -> shown (allowance h) points ix x).
Proof.
  intros e b planes pl lay h He Hb Hp Ip Mv On GS.
  destruct (brush_found p order fuel c text d nodes Ft Td Er e b planes He Hb Hp) as (data & layers & y & g' & bg & Es & _ & _ & _ & _ & B2 & _ & Ff & _ & My & _ & Fn).
  destruct (planes_grid p d Gd e b planes He Hb Hp) as (G & L). destruct (My _ Mv) as (bs & Ib & Ibg); [intros ->; destruct Ip|].
  assert (Io : In (wl_texture lay, bs) (order layers)) by (eapply Permutation_in; [apply Permutation_sym, permutes|exact Ib]).
  pose proof Es as Es'. unfold build_scene in Es'. apply bind_ok in Es'. destruct Es' as (w & _ & Es'). apply bind_ok in Es'. destruct Es' as (ls & Els & Es').
  apply bind_ok in Es'. destruct Es' as (os & _ & Es'). injection Es' as En. apply mapM_ok in Els.
  destruct (Forall2_in_l _ _ _ _ _ _ Els Io) as (r & Ir & Er').
  destruct (Forall2_in_l _ _ _ _ _ _ Ff Ip) as (f & Hf & Ef).
  assert (G' : forall q, In q (pl :: planes) -> grid_plane q) by (intros z [<-|I]; auto).
  assert (Ne : f_vertices f <> []) by (destruct (face_covers_side p _ _ _ _ _ _ Ef G' L GS) as (L3 & _); intros Z; rewrite Z in L3; cbn in L3; lia).
  assert (Tf : f_texture f = Some (wl_texture lay)) by (rewrite (side_named _ _ _ _ _ _ Ef); now apply Mv).
  destruct (layer_drawn _ lay bs r (B2 _ _ Ib) On Er' bg f Ibg Hf Tf Ne) as (Vi & Co).
  assert (Top : forall n, r = Some n -> In n nodes).
  { intros n ->. rewrite <- En. apply in_or_app. right. apply in_or_app. left. apply filter_map_In. eauto. }
  split; intros M.
  - destruct (Vi M) as (n & s & faces & Er2 & W & Ts & D & If & Src). exists n, (NVisual (v3_zero O) (VisMesh [s])), (s_vertices s), (s_indices s). split; [now apply Top|]. split; [exact W|].
    split; [cbn [drawings map]; rewrite Ts; now left|]. apply (draws_shown (s_vertices s) (s_indices s) faces (cf_textures c) y planes pl f h); auto.
    + intros f' Hf'. destruct (Src f' Hf') as (b' & Hb' & Hfb). exact (Fn _ _ b' f' Ib Hb' Hfb).
    + intros v Hv. eapply (listed_finite p order permutes fuel c text d nodes Ft Td Gd Er); [apply Top; exact Er2|exact W| |exact Hv]. cbn [point_lists map]. now left.
  - destruct (Co M) as (n & vs & ix & faces & Er2 & W & D & If & Src). eexists n, _, vs, ix. split; [now apply Top|]. split; [exact W|].
    split; [now left|]. apply (draws_shown vs ix faces (cf_textures c) y planes pl f h); auto.
    + intros f' Hf'. destruct (Src f' Hf') as (b' & Hb' & Hfb). exact (Fn _ _ b' f' Ib Hb' Hfb).
    + intros v Hv. eapply (listed_finite p order permutes fuel c text d nodes Ft Td Gd Er); [apply Top; exact Er2|exact W| |exact Hv]. now left.
Qed.

(** No triangle sticks out. *)
Theorem triangles_near : forall n0 n points ix t, In n0 nodes -> InvarianceSpec.within n n0 -> In (points, ix, t) (drawings n) ->
  exists count, length ix = (3 * count)%nat /\ forall k, (k < count)%nat ->
  exists v v' v'' e planes pl, kth_triangle points ix k v v' v'' /\ side_of p d e planes pl /\ (forall u, t = Some u -> drawn_as (cf_textures c) pl u)
    /\ forall h, good_side p planes pl h -> stays_near (allowance h) (side (map plane_of planes) (plane_of pl)) v v' v''.
Proof.
  intros n0 n points ix t I0 W Is.
  destruct (triangle_origin p order permutes fuel c text d nodes Ft Td Gd Er n0 n points ix t I0 W Is) as (count & Lx & K). exists count. split; [exact Lx|]. intros k Lk.
  destruct (K k Lk) as (q0 & q1 & q2 & e & planes & pl & x & f & w0 & w1 & w2 & m & Tr & _ & _ & _ & Sd & Dr & G & Ipl & L & Ef & W0 & W1 & W2 & P0 & P1 & P2 & _).
  assert (G' : forall q, In q (pl :: planes) -> grid_plane q) by (intros z [<-|I]; auto).
  exists q0, q1, q2, e, planes, pl. split; [exact Tr|]. split; [exact Sd|]. split; [exact Dr|]. intros h GS.
  destruct (face_covers_side p _ _ _ _ _ _ Ef G' L GS) as (_ & _ & B). apply nth_error_In in W0, W1, W2. specialize (B w0 w1 w2 W0 W1 W2). unfold stays_near in *. now rewrite P0, P1, P2.
Qed.
End Run.
End Final.
