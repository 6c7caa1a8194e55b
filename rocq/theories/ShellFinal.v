(** Meshes and concave shapes of whole scenes: proofs of C125. *)
From Coq Require Import Reals Lra Lia Permutation.
From Verif Require Import Prelude F32 Text MapModel GeoModel LayerModel GameDataModel SceneModel GatherSpec SurfaceSpec LayerSpec InvarianceSpec GeoSpec RealSpec WindSpec SolidSpec RigidSpec EdgeSpec ShellSpec
  BaseProofs ShiftProofs LayerProofs GeoProofs SurfaceProofs RealProofs ShellProofs.
Local Open Scope R_scope.

Section Scene.
Context (parse : str -> option R) (cosine radians : R -> R) (atan2 : R -> R -> R)
  (quat : vec3 R -> R -> vec3 R -> vec3 R) (mat2 : R -> vec2 R -> vec2 R).
Local Notation O := (real_num parse cosine radians atan2 quat mat2).

(** ** Where leaves come from *)
Section Tree.
Context (gd : game_data R) (fd : forge_data R) (bl : blacklist) (data : list (entity R * entity_geo R)) (layers : list (str * list (brush_geo R))).
Definition leaf_from (n : node R) : Prop :=
  match n with
  | NActor _ _ _ => True
  | NVisual _ v => (exists e g, In (e, g) data /\ entity_visual O gd bl e g = Ok v) \/ (exists l t bs, In (t, bs) layers /\ layer_visual O l t bs = Ok v)
  | NCollision _ k => (exists e g, In (e, g) data /\ entity_collision O gd e g = Ok k) \/ (exists l t bs, In (t, bs) layers /\ collision_of O (wl_collision l) (EntityGeo (v3_zero O) bs) = Ok k)
  end.
Lemma visual_leaf : forall c v (n : node R), In n (visual_nodes c v) -> n = NVisual c v.
Proof. intros c [|l] n I; [destruct I|]. destruct I as [<-|[]]. reflexivity. Qed.
Lemma collision_leaf : forall c k (n : node R), In n (collision_nodes c k) -> n = NCollision c k.
Proof. intros c [|l|l] n I; [destruct I|..]; (destruct I as [<-|[]]; reflexivity). Qed.
Lemma within_leaf : forall (n : node R) c v, InvarianceSpec.within n (NVisual c v) -> n = NVisual c v.
Proof. intros n c v W. inversion W. reflexivity. Qed.
Lemma within_shape : forall (n : node R) c k, InvarianceSpec.within n (NCollision c k) -> n = NCollision c k.
Proof. intros n c v W. inversion W. reflexivity. Qed.
Lemma entity_leaves : forall fuel o d n0, In d data -> build_entity O fuel gd fd bl data o d = Ok n0 -> forall n, InvarianceSpec.within n n0 -> leaf_from n.
Proof.
  induction fuel as [|fuel IH]; intros o [e g] n0 I E n W; [discriminate|]. cbn [build_entity] in E.
  apply bind_ok in E. destruct E as (v & Ev & E). apply bind_ok in E. destruct E as (k & Ek & E). apply bind_ok in E. destruct E as (ch & Ec & E).
  apply bind_ok in E. destruct E as (nm & _ & E). apply bind_ok in E. destruct E as (pr & _ & E). injection E as <-.
  inversion W as [|o' a' ch' c Ic Wc]; subst; [exact Logic.I|]. apply in_app_or in Ic. destruct Ic as [Ic|Ic]; [|apply in_app_or in Ic; destruct Ic as [Ic|Ic]].
  - apply visual_leaf in Ic. subst c. apply within_leaf in Wc. subst n. left. eauto.
  - apply collision_leaf in Ic. subst c. apply within_shape in Wc. subst n. left. eauto.
  - apply mapM_ok in Ec. destruct (Forall2_in_r _ _ _ _ _ _ Ec Ic) as (d & Id & Ed). apply filter_In in Id. destruct Id as (Id & _).
    refine (IH _ d c _ Ed n Wc). clear - Id. destruct data; [destruct Id|now right].
Qed.
Lemma layer_leaves : forall layer n0, In layer layers -> build_layer O gd layer = Ok (Some n0) -> forall n, InvarianceSpec.within n n0 -> leaf_from n.
Proof.
  intros [t bs] n0 I E n W. unfold build_layer in E. destruct (filter _ (gd_layers gd)) as [|l [|l' ls]]; try discriminate.
  apply bind_ok in E. destruct E as (v & Ev & E). apply bind_ok in E. destruct E as (k & Ek & E).
  assert (Cn : forall ch, visual_nodes (v3_zero O) v ++ collision_nodes (v3_zero O) k = ch -> forall c, In c ch -> InvarianceSpec.within n c -> leaf_from n).
  { intros ch <- c Ic Wc. apply in_app_or in Ic. destruct Ic as [Ic|Ic].
    - apply visual_leaf in Ic. subst c. apply within_leaf in Wc. subst n. right. eauto.
    - apply collision_leaf in Ic. subst c. apply within_shape in Wc. subst n. right. eauto. }
  destruct (visual_nodes (v3_zero O) v ++ collision_nodes (v3_zero O) k) as [|c0 ch]; [discriminate|]. injection E as <-.
  inversion W as [|o' a' ch' c Ic Wc]; subst; [exact Logic.I|]. exact (Cn _ eq_refl c Ic Wc).
Qed.
Lemma scene_leaves : forall fuel nodes, build_scene O fuel gd fd bl data layers = Ok nodes -> forall n0 n, In n0 nodes -> InvarianceSpec.within n n0 -> leaf_from n.
Proof.
  intros fuel nodes E n0 n I W. unfold build_scene in E. apply bind_ok in E. destruct E as (world & Ew & E). apply bind_ok in E. destruct E as (ls & El & E).
  apply bind_ok in E. destruct E as (os & Eo & E). injection E as <-. apply mapM_ok in Ew, El, Eo. apply in_app_or in I. destruct I as [I|I]; [|apply in_app_or in I; destruct I as [I|I]].
  - destruct (Forall2_in_r _ _ _ _ _ _ Ew I) as (d & Id & Ed). refine (entity_leaves _ _ d _ _ Ed n W). clear - Id. destruct data; [destruct Id|destruct Id as [<-|[]]; now left].
  - apply filter_map_In in I. destruct I as (o & Io & ->). destruct (Forall2_in_r _ _ _ _ _ _ El Io) as (layer & Il & Ey). exact (layer_leaves _ _ Il Ey n W).
  - destruct (Forall2_in_r _ _ _ _ _ _ Eo I) as (d & Id & Ed). apply filter_In in Id. destruct Id as (Id & _).
    refine (entity_leaves _ _ d _ _ Ed n W). clear - Id. destruct data; [destruct Id|now right].
Qed.
End Tree.

Section Map.
Context (An : polar_angle atan2) (fuel : nat) (gd : game_data R) (fd : forge_data R) (bl : blacklist) (tx : texture_info) (es : list (entity R)) (nodes : list (node R)).
Context (Run : exact_scene O fuel gd fd bl tx es = Ok nodes)
  (Good : forall e planes, In e es -> In planes (e_brushes e) -> good_brush O tx e planes).
Local Notation mapped := (from_map parse cosine radians atan2 quat mat2 tx es).
Lemma run_world : exists data layers, build_scene O fuel gd fd bl data layers = Ok nodes
  /\ (forall e g, In (e, g) data -> In e es /\ forall b, In b (eg_brushes g) -> exists planes, In planes (e_brushes e) /\ build_brush O tx e planes = Ok b)
  /\ exists w, In w es /\ forall t bs b, In (t, bs) layers -> In b bs -> (exists planes, In planes (e_brushes w) /\ build_brush O tx w planes = Ok b) /\ in_layer t b = true.
Proof.
  unfold exact_scene in Run. apply bind_ok in Run. destruct Run as (geo & Eg & E). clear Run. apply bind_ok in E. destruct E as ([data layers] & El & E).
  exists data, layers. split; [exact E|]. clear E.
  assert (D : forall e g, In (e, g) (combine es geo) -> In e es /\ forall b, In b (eg_brushes g) -> exists planes, In planes (e_brushes e) /\ build_brush O tx e planes = Ok b).
  { unfold build_geometry in Eg. apply mapM_ok in Eg. intros e g I. split; [exact (in_combine_l _ _ _ _ I)|].
    assert (Ee : build_entity_geo O tx e = Ok g) by (clear - Eg I; induction Eg as [|e' g' es geo E Eg IH]; [destruct I|destruct I as [I|I]; [injection I as -> ->; exact E|exact (IH I)]]).
    unfold build_entity_geo in Ee. apply bind_ok in Ee. destruct Ee as (bs & Eb & Ee). injection Ee as <-. cbn [eg_brushes]. apply mapM_ok in Eb.
    intros b Ib. destruct (Forall2_in_r _ _ _ _ _ _ Eb Ib) as (planes & Ip & E). eauto. }
  destruct (layer_filter_single _ _ El) as (we & wg & others & S). rewrite (layer_filter_ok _ we wg others S) in El. injection El as <- <-.
  destruct S as (pre & post & Ed & -> & _ & _). rewrite Ed in D. assert (Dw := D we wg ltac:(apply in_or_app; right; now left)). split.
  - intros e g [I|I].
    + injection I as <- <-. split; [exact (proj1 Dw)|]. cbn [eg_brushes]. intros b Ib. apply filter_In in Ib. destruct Ib as [Ib _]. apply filter_In in Ib. apply (proj2 Dw b); tauto.
    + apply D. apply in_app_or in I. apply in_or_app. simpl. tauto.
  - exists we. split; [exact (proj1 Dw)|]. intros t bs b [I|[I|[]]] Ib; injection I as <- <-; apply filter_In in Ib; destruct Ib as [Ib Lb].
    + split; [exact (proj2 Dw b Ib)|exact Lb].
    + apply filter_In in Ib. split; [apply (proj2 Dw b); tauto|exact Lb].
Qed.
Lemma run_parts : exists data layers, build_scene O fuel gd fd bl data layers = Ok nodes
  /\ (forall e g, In (e, g) data -> In e es /\ forall b, In b (eg_brushes g) -> exists planes, In planes (e_brushes e) /\ build_brush O tx e planes = Ok b)
  /\ (forall t bs b, In (t, bs) layers -> In b bs -> mapped b /\ in_layer t b = true).
Proof.
  destruct run_world as (data & layers & E & D & w & Iw & L). exists data, layers. split; [exact E|]. split; [exact D|]. intros t bs b I Ib. destruct (L t bs b I Ib) as ((planes & Ip & Eb) & Lb).
  split; [exists w, planes; auto|exact Lb].
Qed.
(** The triangles are those of some brushes of one entity. *)
Definition laid_out (T : list corner3) : Prop := exists e bs, In e es /\ bs <> [] /\ (forall b, In b bs -> exists planes, In planes (e_brushes e) /\ build_brush O tx e planes = Ok b)
  /\ Permutation (flat_map (fun b => all_triangles (bg_faces b)) bs) T.
Lemma laid_closed : forall T, laid_out T -> watertight T /\ encloses T.
Proof.
  intros T (e & bs & Ie & N & B & P). refine (closed_perm _ _ P _). refine (brushes_closed _ _ _ _ _ _ An tx es Good bs _ N). intros b Ib. destruct (B b Ib) as (planes & Ip & Eb). exists e, planes. auto.
Qed.
Lemma shapes_laid : forall e g t k c T, In e es -> (forall b, In b (eg_brushes g) -> exists planes, In planes (e_brushes e) /\ build_brush O tx e planes = Ok b) ->
  collision_of O t g = Ok k -> In T (shells (NCollision c k)) -> laid_out T.
Proof.
  intros e g t k c T Ie F E I. destruct t; cbn [collision_of] in E; [injection E as <-; destruct I|injection E as <-; destruct I|].
  destruct (concave_laid parse cosine radians atan2 quat mat2 tx es g k (fun b Ib => let '(ex_intro _ planes (conj Ip Eb)) := F b Ib in ex_intro _ e (ex_intro _ planes (conj Ie (conj Ip Eb)))) E c T I) as (N & ->).
  exists e, (eg_brushes g). split; [exact Ie|]. split; [exact N|]. split; [exact F|reflexivity].
Qed.
Theorem concave_out : forall n0 c k T, In n0 nodes -> InvarianceSpec.within (NCollision c k) n0 -> In T (shells (NCollision c k)) -> laid_out T.
Proof.
  intros n0 c k T I W IT. destruct run_world as (data & layers & E & D & w & Iw & L). destruct (scene_leaves _ _ _ _ _ _ _ E n0 _ I W) as [(e & g & Id & Ek)|(l & t & bs & Il & Ek)].
  - unfold entity_collision in Ek. destruct (get_property e (lit "classname")) as [cl|]; [|discriminate]. destruct (find_def gd cl) as [d|]; [|injection Ek as <-; destruct IT].
    destruct (ed_data d) as [pd|pd bd]; [injection Ek as <-; destruct IT|]. exact (shapes_laid e g _ k c T (proj1 (D e g Id)) (proj2 (D e g Id)) Ek IT).
  - refine (shapes_laid w _ _ k c T Iw _ Ek IT). cbn [eg_brushes]. intros b Ib. exact (proj1 (L t bs b Il Ib)).
Qed.
Theorem concave_scene : forall n0 c k T, In n0 nodes -> InvarianceSpec.within (NCollision c k) n0 -> In T (shells (NCollision c k)) -> watertight T /\ encloses T.
Proof. intros n0 c k T I W IT. apply laid_closed. exact (concave_out n0 c k T I W IT). Qed.
Lemma texture_of : forall e planes b f t, build_brush O tx e planes = Ok b -> In f (bg_faces b) -> f_texture f = Some t -> exists pl, In pl planes /\ bp_texture pl = t.
Proof.
  intros e planes b f t E I T. unfold build_brush in E. apply bind_ok in E. destruct E as (fs & Ef & E). injection E as <-. cbn [bg_faces] in I. apply mapM_ok in Ef.
  destruct (Forall2_in_r _ _ _ _ _ _ Ef I) as (P & IP & Ep). exists P. split; [exact IP|]. unfold build_face in Ep. apply bind_ok in Ep. destruct Ep as (vs & _ & Ep). injection Ep as <-. cbn [f_texture] in T.
  destruct (hget tx (bp_texture P)); [now injection T|discriminate].
Qed.
Theorem mesh_out : (forall e planes pl, In e es -> In planes (e_brushes e) -> In pl planes -> ~ In (bp_texture pl) (bl_plane bl)) ->
  forall n0 c v T, In n0 nodes -> InvarianceSpec.within (NVisual c v) n0 -> In T (shells (NVisual c v)) -> laid_out T.
Proof.
  intros Bl n0 c v T I W IT. destruct v as [|l]; [destruct IT|]. destruct IT as [<-|[]]. destruct run_world as (data & layers & E & D & w & Iw & L).
  destruct (scene_leaves _ _ _ _ _ _ _ E n0 _ I W) as [(e & g & Id & Ek)|(lay & t & bs & Il & Ek)].
  - unfold entity_visual in Ek. destruct (get_property e (lit "classname")) as [cl|]; [|discriminate]. destruct (find_def gd cl) as [d|]; [|discriminate].
    destruct (ed_data d) as [pd|pd bd]; [discriminate|]. unfold brush_visual in Ek. destruct (bd_visual bd); [discriminate|]. apply bind_ok in Ek. destruct Ek as (ss & Es & Ek).
    set (names := flat_map (fun b => map bp_texture b) (e_brushes e)) in *. destruct (D e g Id) as (Ie & Db).
    assert (El : filter_map (fun o => o) ss <> [] /\ l = filter_map (fun o => o) ss) by (destruct (filter_map (fun o => o) ss); [discriminate|injection Ek as <-; split; [discriminate|reflexivity]]).
    destruct El as (Ne & ->). assert (X := fun F N H => surfaces_laid parse cosine radians atan2 quat mat2 tx es g bl _ ss F Es N H Ne).
    destruct X as (Nb & Pm); [| | |exists e, (filter (drawn_brush bl) (eg_brushes g)); split; [exact Ie|]; split; [exact Nb|]; split; [intros b Ib; apply filter_In in Ib; exact (Db b (proj1 Ib))|exact Pm]].
    + intros b Ib. destruct (Db b Ib) as (planes & Ip & Eb). exists e, planes. auto.
    + apply (Permutation_NoDup (l := None :: map Some (unique_textures bl names))); [apply Permutation_cons_append|].
      constructor; [intros Hn; apply in_map_iff in Hn; destruct Hn as (? & ? & _); discriminate|].
      apply FinFun.Injective_map_NoDup; [intros x y Exy; now injection Exy|apply unique_textures_NoDup].
    + intros b f Ib If. apply in_or_app. destruct (f_texture f) as [t|] eqn:Et; [left|right; now left]. apply in_map. apply unique_textures_In.
      destruct (Db b Ib) as (planes & Ip & Eb). destruct (texture_of _ _ _ _ _ Eb If Et) as (pl & Il & <-). split; [|exact (Bl e planes pl Ie Ip Il)].
      apply in_flat_map. exists planes. split; [exact Ip|now apply in_map].
  - unfold layer_visual in Ek. destruct (wl_visual lay); [discriminate|]. apply bind_ok in Ek. destruct Ek as (os & Es & Ek). destruct os as [s|]; [|discriminate]. injection Ek as <-.
    assert (X := surfaces_laid parse cosine radians atan2 quat mat2 tx es (EntityGeo (v3_zero O) bs) blacklist_default [Some t] [Some s]).
    destruct X as (Nb & Pm); [| | | | |exists w, (filter (drawn_brush blacklist_default) bs); split; [exact Iw|]; split; [exact Nb|]; split; [intros b Ib; apply filter_In in Ib; exact (proj1 (L t bs b Il (proj1 Ib)))|exact Pm]].
    + cbn [eg_brushes]. intros b Ib. destruct (proj1 (L t bs b Il Ib)) as (planes & Ip & Eb). exists w, planes. auto.
    + cbn [mapM]. rewrite Es. reflexivity.
    + repeat constructor. intros [].
    + cbn [eg_brushes]. intros b f Ib If. left. symmetry. destruct (L t bs b Il Ib) as (_ & Lb). unfold in_layer in Lb. rewrite forallb_forall in Lb. specialize (Lb f If).
      destruct (f_texture f) as [t'|]; [|discriminate]. f_equal. now apply str_eqb_eq in Lb.
    + discriminate.
Qed.
Theorem mesh_scene : (forall e planes pl, In e es -> In planes (e_brushes e) -> In pl planes -> ~ In (bp_texture pl) (bl_plane bl)) ->
  forall n0 c v T, In n0 nodes -> InvarianceSpec.within (NVisual c v) n0 -> In T (shells (NVisual c v)) -> watertight T /\ encloses T.
Proof. intros Bl n0 c v T I W IT. apply laid_closed. exact (mesh_out Bl n0 c v T I W IT). Qed.
End Map.
End Scene.
