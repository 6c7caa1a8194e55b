(** Meshes and concave shapes of runs on boxes: proofs of C132. *)
From Coq Require Import Reals Lra Lia ZArith Permutation.
From Verif Require Import Prelude F32 Text MapModel GeoModel LayerModel GameDataModel SceneModel RunModel DiffSpec GatherSpec SurfaceSpec LayerSpec InvarianceSpec GeoSpec RealSpec EdgeSpec MapSpec Utf8Spec RunSpec NumberSpec ErrorSpec PointsSpec BoxSpec WoundSpec BoxEdgeSpec ShellSpec BrickSpec
  BaseProofs GatherProofs LayerProofs GeoProofs GeoFinal SurfaceProofs RunProofs PointsProofs BrickProofs.
Local Open Scope R_scope.

(** ** Where leaves come from *)
Section Tree.
Context {T : Type} (O : num T) (gd : game_data T) (fd : forge_data T) (bl : blacklist) (data : list (entity T * entity_geo T)) (layers : list (str * list (brush_geo T))).
Definition leaf_of (n : node T) : Prop :=
  match n with
  | NActor _ _ _ => True
  | NVisual _ v => (exists e g, In (e, g) data /\ entity_visual O gd bl e g = Ok v) \/ (exists l t bs, In (t, bs) layers /\ layer_visual O l t bs = Ok v)
  | NCollision _ k => (exists e g, In (e, g) data /\ entity_collision O gd e g = Ok k) \/ (exists l t bs, In (t, bs) layers /\ collision_of O (wl_collision l) (EntityGeo (v3_zero O) bs) = Ok k)
  end.
Lemma visual_leaf : forall c v (n : node T), In n (visual_nodes c v) -> n = NVisual c v.
Proof. intros c [|l] n I; [destruct I|]. destruct I as [<-|[]]. reflexivity. Qed.
Lemma collision_leaf : forall c k (n : node T), In n (collision_nodes c k) -> n = NCollision c k.
Proof. intros c [|l|l] n I; [destruct I|..]; (destruct I as [<-|[]]; reflexivity). Qed.
Lemma within_leaf : forall (n : node T) c v, InvarianceSpec.within n (NVisual c v) -> n = NVisual c v.
Proof. intros n c v W. inversion W. reflexivity. Qed.
Lemma within_shape : forall (n : node T) c k, InvarianceSpec.within n (NCollision c k) -> n = NCollision c k.
Proof. intros n c v W. inversion W. reflexivity. Qed.
Lemma entity_leaves : forall fuel o d n0, In d data -> build_entity O fuel gd fd bl data o d = Ok n0 -> forall n, InvarianceSpec.within n n0 -> leaf_of n.
Proof.
  induction fuel as [|fuel IH]; intros o [e g] n0 I E n W; [discriminate|]. cbn [build_entity] in E.
  apply bind_ok in E. destruct E as (v & Ev & E). apply bind_ok in E. destruct E as (k & Ek & E). apply bind_ok in E. destruct E as (ch & Ec & E).
  apply bind_ok in E. destruct E as (nm & _ & E). apply bind_ok in E. destruct E as (pr & _ & E). injection E as <-.
  inversion W as [|o' a' ch' c Ic Wc]; subst; [exact Logic.I|]. apply in_app_or in Ic. destruct Ic as [Ic|Ic]; [|apply in_app_or in Ic; destruct Ic as [Ic|Ic]].
  - apply visual_leaf in Ic. subst c. apply within_leaf in Wc. subst n. left. eauto.
  - apply collision_leaf in Ic. subst c. apply within_shape in Wc. subst n. left. eauto.
  - apply mapM_ok in Ec. destruct (Forall2_in_r _ _ _ _ _ _ Ec Ic) as (d & Id & Ed). apply filter_In in Id. destruct Id as (Id & _).
    refine (IH _ d c _ Ed n Wc). clear - Id. destruct data; [destruct Id|now right].
Qed.
Lemma layer_leaves : forall layer n0, In layer layers -> build_layer O gd layer = Ok (Some n0) -> forall n, InvarianceSpec.within n n0 -> leaf_of n.
Proof.
  intros [t bs] n0 I E n W. unfold build_layer in E. destruct (filter _ (gd_layers gd)) as [|l [|l' ls]]; try discriminate.
  apply bind_ok in E. destruct E as (v & Ev & E). apply bind_ok in E. destruct E as (k & Ek & E).
  assert (Cn : forall ch, visual_nodes (v3_zero O) v ++ collision_nodes (v3_zero O) k = ch -> forall c, In c ch -> InvarianceSpec.within n c -> leaf_of n).
  { intros ch <- c Ic Wc. apply in_app_or in Ic. destruct Ic as [Ic|Ic].
    - apply visual_leaf in Ic. subst c. apply within_leaf in Wc. subst n. right. eauto.
    - apply collision_leaf in Ic. subst c. apply within_shape in Wc. subst n. right. eauto. }
  destruct (visual_nodes (v3_zero O) v ++ collision_nodes (v3_zero O) k) as [|c0 ch]; [discriminate|]. injection E as <-.
  inversion W as [|o' a' ch' c Ic Wc]; subst; [exact Logic.I|]. exact (Cn _ eq_refl c Ic Wc).
Qed.
Lemma scene_leaves : forall fuel nodes, build_scene O fuel gd fd bl data layers = Ok nodes -> forall n0 n, In n0 nodes -> InvarianceSpec.within n n0 -> leaf_of n.
Proof.
  intros fuel nodes E n0 n I W. unfold build_scene in E. apply bind_ok in E. destruct E as (world & Ew & E). apply bind_ok in E. destruct E as (ls & El & E).
  apply bind_ok in E. destruct E as (os & Eo & E). injection E as <-. apply mapM_ok in Ew, El, Eo. apply in_app_or in I. destruct I as [I|I]; [|apply in_app_or in I; destruct I as [I|I]].
  - destruct (Forall2_in_r _ _ _ _ _ _ Ew I) as (d & Id & Ed). refine (entity_leaves _ _ d _ _ Ed n W). clear - Id. destruct data; [destruct Id|destruct Id as [<-|[]]; now left].
  - apply filter_map_In in I. destruct I as (o & Io & ->). destruct (Forall2_in_r _ _ _ _ _ _ El Io) as (layer & Il & Ey). exact (layer_leaves _ _ Il Ey n W).
  - destruct (Forall2_in_r _ _ _ _ _ _ Eo I) as (d & Id & Ed). apply filter_In in Id. destruct Id as (Id & _).
    refine (entity_leaves _ _ d _ _ Ed n W). clear - Id. destruct data; [destruct Id|now right].
Qed.
End Tree.

Lemma subseq_along : forall A B (Q : A -> B -> Prop) l m m', Forall2 Q l m -> subseq m' m -> exists l', subseq l' l /\ Forall2 Q l' m'.
Proof.
  intros A B Q l m m' F S. revert l F. induction S as [|x s m S IH|x s m S IH]; intros l F; inv F.
  - exists []. split; constructor.
  - match goal with H : Forall2 Q ?l0 m |- _ => destruct (IH _ H) as (l' & A1 & A2) end. exists l'. split; [now constructor|exact A2].
  - match goal with H : Forall2 Q ?l0 m |- _ => destruct (IH _ H) as (l' & A1 & A2) end. exists (x0 :: l'). split; now constructor.
Qed.
Lemma subseq_self : forall A (l : list A), subseq l l.
Proof. induction l; now constructor. Qed.

Section Run.
Context (p : platform) (r : Z) (a : R) (Rr : (1 <= r <= 40000)%Z) (Da : a <= / (3 * IZR r)) (AC : accurate_angle a (p_atan2 p)).
Local Notation O := (f32_num p).
Context (order : hmap (list (brush_geo f32)) -> list (str * list (brush_geo f32))) (permutes : forall m, Permutation (order m) m).
Context (fuel : nat) (c : config) (text : str) (d : doc) (nodes : list (node f32)).
Context (Ft : file_text (cf_map c) text) (Td : text_document p text d) (Bd : block_document p r d) (Er : run p order fuel c = Ok nodes).

(** A brush with the lines of the map it comes from. *)
Definition made (lines : list str) (b : brush_geo f32) : Prop :=
  (exists box1 planes tx e, Forall2 (reads_as p) lines planes /\ block p r box1 planes /\ build_brush O tx e planes = Ok b)
  /\ (forall f, In f (bg_faces b) -> fanned32 f)
  /\ exists planes, Forall2 (reads_as p) lines planes /\ forall f t, In f (bg_faces b) -> f_texture f = Some t -> exists pl, In pl planes /\ bp_texture pl = t.
Definition made_all (bs : list (brush_geo f32)) : Prop := exists e0 chosen, In e0 d /\ subseq chosen (doc_brushes e0) /\ Forall2 made chosen bs.

Lemma brush_made : forall e0 lines planes e b, In e0 d -> In lines (doc_brushes e0) -> Forall2 (reads_as p) lines planes -> build_brush O (cf_textures c) e planes = Ok b -> made lines b.
Proof.
  intros e0 lines planes e b I0 Il F E. destruct (Bd e0 lines planes I0 Il F) as (box1 & B). split; [|split].
  - exists box1, planes, (cf_textures c), e. auto.
  - intros f If. unfold build_brush in E. apply bind_ok in E. destruct E as (fs & Ef & E). injection E as <-. cbn [bg_faces] in If. apply mapM_ok in Ef.
    destruct (Forall2_in_r _ _ _ _ _ _ Ef If) as (P & _ & Ep). exact (built_fanned32 _ _ _ _ _ _ Ep).
  - exists planes. split; [exact F|]. intros f t If T. unfold build_brush in E. apply bind_ok in E. destruct E as (fs & Ef & E). injection E as <-. cbn [bg_faces] in If. apply mapM_ok in Ef.
    destruct (Forall2_in_r _ _ _ _ _ _ Ef If) as (P & IP & Ep). exists P. split; [exact IP|]. unfold build_face in Ep. apply bind_ok in Ep. destruct Ep as (vs & _ & Ep). injection Ep as <-. cbn [f_texture] in T.
    destruct (hget (cf_textures c) (bp_texture P)); [now injection T|discriminate].
Qed.
Lemma made_sub : forall bs bs', made_all bs -> subseq bs' bs -> made_all bs'.
Proof.
  intros bs bs' (e0 & ch & I & S & F) S'. destruct (subseq_along _ _ _ _ _ _ F S') as (ch' & S2 & F'). exists e0, ch'. split; [exact I|]. split; [eapply subseq_trans; eauto|exact F'].
Qed.
Lemma made_wraps : forall bs T, made_all bs -> bs <> [] -> Permutation (triangles32 (flat_map bg_faces bs)) T -> wraps_boxes p r d T.
Proof.
  intros bs T (e0 & ch & I & S & F) N P.
  assert (Bx : exists boxes, Forall2 (block_of p r) ch boxes /\ Forall2 boxed bs boxes).
  { clear - F Rr Da AC. induction F as [|ls b ch bs ((x & pls & tx & e & A & B & E) & _) F (boxes & F1 & F2)]; [exists []; split; constructor|]. exists (x :: boxes).
    split; constructor; [exists pls; auto|exact F1|exact (brush_brick p r a Rr Da AC _ _ _ _ _ B E)|exact F2]. }
  destruct Bx as (boxes & F1 & F2). destruct (wrapped_perm _ _ _ _ P (brushes_wrapped bs boxes F2)) as (W & L & V). split; [exact W|].
  exists e0, ch, boxes. split; [exact I|]. split; [exact S|]. split; [intros ->; inversion F; subst; now apply N|]. split; [exact F1|]. split; [exact L|].
  intros o. rewrite V. now rewrite total_volume.
Qed.
Lemma made_fans : forall g, made_all (eg_brushes g) -> fan_faces g.
Proof. intros g (e0 & ch & _ & _ & F) b f Ib If. destruct (Forall2_in_r _ _ _ _ _ _ F Ib) as (ls & _ & _ & K & _). now apply K. Qed.

Definition textured (e : entity f32) (g : entity_geo f32) : Prop :=
  forall b f t, In b (eg_brushes g) -> In f (bg_faces b) -> f_texture f = Some t -> In t (flat_map (fun b => map bp_texture b) (e_brushes e)).
Lemma run_pieces : exists data layers, build_scene O fuel (cf_game c) (cf_forge c) (cf_blacklist c) data (order layers) = Ok nodes
  /\ (forall e g, In (e, g) data -> made_all (eg_brushes g) /\ textured e g
       /\ forall t, In t (flat_map (fun b => map bp_texture b) (e_brushes e)) -> exists e0 lines ln pl, In e0 d /\ In lines (doc_brushes e0) /\ In ln lines /\ reads_as p ln pl /\ bp_texture pl = t)
  /\ (forall t bs, In (t, bs) layers -> made_all bs /\ forall b, In b bs -> in_layer t b = true).
Proof.
  pose proof Er as E. rewrite run_split in E. pose proof Ft as Ft'. apply read_ok in Ft'. rewrite Ft' in E. cbn [bind] in E.
  apply bind_ok in E. destruct E as ([ps es] & El & E). pose proof (loaded_document p text d ps es Td El) as Ag.
  apply bind_ok in E. destruct E as (gs & Eg & E). apply bind_ok in E. destruct E as ([data layers] & Ef & E). exists data, layers. split; [exact E|]. clear E.
  assert (D : forall e g, In (e, g) (combine es gs) -> made_all (eg_brushes g) /\ textured e g
    /\ forall t, In t (flat_map (fun b => map bp_texture b) (e_brushes e)) -> exists e0 lines ln pl, In e0 d /\ In lines (doc_brushes e0) /\ In ln lines /\ reads_as p ln pl /\ bp_texture pl = t).
  { unfold build_geometry in Eg. apply mapM_ok in Eg. intros e g I.
    pose proof (in_combine_Forall2 _ _ _ _ _ _ _ Eg I) as Ee. cbn beta in Ee.
    apply in_combine_l in I. destruct (Forall2_in_r _ _ _ _ _ _ Ag I) as (e0 & I0 & _ & Fb).
    unfold build_entity_geo in Ee. apply bind_ok in Ee. destruct Ee as (bs & Eb & Ee). injection Ee as <-. cbn [eg_brushes]. apply mapM_ok in Eb.
    split; [|split].
    - exists e0, (doc_brushes e0). split; [exact I0|]. split; [apply subseq_self|].
      assert (Q : forall l, incl l (doc_brushes e0) -> Forall2 (Forall2 (reads_as p)) l (e_brushes e) -> Forall2 made l bs).
      { revert Eb. generalize (e_brushes e). intros pls Eb. clear - Eb I0 Rr Da AC Bd. induction Eb as [|pl b pls bs E Eb IH]; intros l Il F; inv F; constructor.
        - eapply brush_made; [exact I0|apply Il; now left|eassumption|exact E].
        - apply IH; [|assumption]. intros z Hz. apply Il. now right. }
      apply Q; [apply incl_refl|exact Fb].
    - intros b f t Ib If Et. destruct (Forall2_in_r _ _ _ _ _ _ Eb Ib) as (planes & Ip & E). apply in_flat_map. exists planes. split; [exact Ip|].
      destruct (Forall2_in_r _ _ _ _ _ _ Fb Ip) as (ls & Hl & Hr). unfold build_brush in E. apply bind_ok in E. destruct E as (fs & Ef' & E). injection E as <-. cbn [bg_faces] in If. apply mapM_ok in Ef'.
      destruct (Forall2_in_r _ _ _ _ _ _ Ef' If) as (P & IP & Ep). unfold build_face in Ep. apply bind_ok in Ep. destruct Ep as (vs & _ & Ep). injection Ep as <-. cbn [f_texture] in Et.
      destruct (hget (cf_textures c) (bp_texture P)); [|discriminate]. injection Et as <-. now apply in_map.
    - intros t It. apply in_flat_map in It. destruct It as (planes & Ip & It). apply in_map_iff in It. destruct It as (pl & <- & Ipl). destruct (Forall2_in_r _ _ _ _ _ _ Fb Ip) as (ls & Hl & Hr).
      destruct (Forall2_in_r _ _ _ _ _ _ Hr Ipl) as (ln & Hn & Hw). exists e0, ls, ln, pl. auto. }
  destruct (layer_filter_single _ _ Ef) as (we & wg & others & S). rewrite (layer_filter_ok _ we wg others S) in Ef. injection Ef as <- <-.
  destruct S as (pre & post & Ed & -> & _ & _). rewrite Ed in D. assert (Dw := D we wg ltac:(apply in_or_app; right; now left)). destruct Dw as (Dw & Tw & Nw). split.
  - intros e g [I|I].
    + injection I as <- <-. cbn [eg_brushes]. split; [|split; [|exact Nw]].
      * eapply made_sub; [exact Dw|]. eapply subseq_trans; apply filter_subseq.
      * intros b f t Ib. cbn [eg_brushes] in Ib. apply filter_In in Ib. destruct Ib as [Ib _]. apply filter_In in Ib. now apply Tw.
    + apply D. apply in_app_or in I. apply in_or_app. simpl. tauto.
  - intros t bs [I|[I|[]]]; injection I as <- <-; (split; [eapply made_sub; [exact Dw|]|]).
    + apply filter_subseq.
    + intros b Ib. apply filter_In in Ib. tauto.
    + eapply subseq_trans; apply filter_subseq.
    + intros b Ib. apply filter_In in Ib. tauto.
Qed.

(** The triangles are those of brushes of one entity. *)
Definition laid (T : list corner3) : Prop := exists bs, made_all bs /\ bs <> [] /\ Permutation (triangles32 (flat_map bg_faces bs)) T.
Lemma shapes_laid : forall g t k o T, made_all (eg_brushes g) -> collision_of O t g = Ok k -> In T (shells32 (NCollision o k)) -> laid T.
Proof.
  intros g t k o T M E I. destruct t; cbn [collision_of] in E; [injection E as <-; destruct I|injection E as <-; destruct I|].
  destruct (concave_drawn p g k (made_fans g M) E o T I) as (-> & N). exists (eg_brushes g). auto.
Qed.
Theorem shapes_of : forall n0 o k T, In n0 nodes -> InvarianceSpec.within (NCollision o k) n0 -> In T (shells32 (NCollision o k)) -> laid T.
Proof.
  intros n0 o k T I W IT. destruct run_pieces as (data & layers & E & D & L). destruct (scene_leaves _ _ _ _ _ _ _ _ E n0 _ I W) as [(e & g & Id & Ek)|(l & t & bs & Il & Ek)].
  - unfold entity_collision in Ek. destruct (get_property e (lit "classname")) as [cl|]; [|discriminate]. destruct (find_def _ cl) as [df|]; [|injection Ek as <-; destruct IT].
    destruct (ed_data df) as [pd|pd bd]; [injection Ek as <-; destruct IT|]. exact (shapes_laid g _ k o T (proj1 (D e g Id)) Ek IT).
  - refine (shapes_laid _ _ k o T _ Ek IT). cbn [eg_brushes]. apply (Permutation_in _ (permutes layers)) in Il. exact (proj1 (L t bs Il)).
Qed.
Theorem meshes_of : (forall e lines ln pl, In e d -> In lines (doc_brushes e) -> In ln lines -> reads_as p ln pl -> ~ In (bp_texture pl) (bl_plane (cf_blacklist c))) ->
  forall n0 o v T, In n0 nodes -> InvarianceSpec.within (NVisual o v) n0 -> In T (shells32 (NVisual o v)) -> laid T.
Proof.
  intros Bl n0 o v T I W IT. destruct v as [|l]; [destruct IT|]. destruct IT as [<-|[]]. destruct run_pieces as (data & layers & E & D & L).
  destruct (scene_leaves _ _ _ _ _ _ _ _ E n0 _ I W) as [(e & g & Id & Ek)|(lay & t & bs & Il & Ek)].
  - unfold entity_visual in Ek. destruct (get_property e (lit "classname")) as [cl|]; [|discriminate]. destruct (find_def _ cl) as [df|]; [|discriminate].
    destruct (ed_data df) as [pd|pd bd]; [discriminate|]. unfold brush_visual in Ek. destruct (bd_visual bd); [discriminate|]. apply bind_ok in Ek. destruct Ek as (ss & Es & Ek).
    set (names := flat_map (fun b => map bp_texture b) (e_brushes e)) in *. destruct (D e g Id) as (M & Tx & Nm).
    assert (El : filter_map (fun o => o) ss <> [] /\ l = filter_map (fun o => o) ss) by (destruct (filter_map (fun o => o) ss); [discriminate|injection Ek as <-; split; [discriminate|reflexivity]]).
    destruct El as (Ne & ->). destruct (surfaces_drawn32 p g (cf_blacklist c) _ ss (made_fans g M) Es) as (P & N).
    + apply (Permutation_NoDup (l := None :: map Some (unique_textures (cf_blacklist c) names))); [apply Permutation_cons_append|].
      constructor; [intros Hn; apply in_map_iff in Hn; destruct Hn as (? & ? & _); discriminate|].
      apply FinFun.Injective_map_NoDup; [intros x y Exy; now injection Exy|apply unique_textures_NoDup].
    + intros b f Ib If. apply in_or_app. destruct (f_texture f) as [t|] eqn:Et; [left|right; now left]. apply in_map. apply unique_textures_In.
      pose proof (Tx b f t Ib If Et) as It. split; [exact It|]. destruct (Nm t It) as (e0 & ls & ln & pl & I0 & Is & In' & Rd & <-). exact (Bl e0 ls ln pl I0 Is In' Rd).
    + exact Ne.
    + eexists. split; [|split; [exact N|exact P]]. eapply made_sub; [exact M|apply filter_subseq].
  - unfold layer_visual in Ek. destruct (wl_visual lay); [discriminate|]. apply bind_ok in Ek. destruct Ek as (os & Es & Ek). destruct os as [s|]; [|discriminate]. injection Ek as <-.
    apply (Permutation_in _ (permutes layers)) in Il. destruct (L t bs Il) as (M & Ly).
    assert (Ms : mapM (texture_surface O (EntityGeo (v3_zero O) bs) blacklist_default) [Some t] = Ok [Some s]) by (cbn [mapM]; rewrite Es; reflexivity).
    destruct (surfaces_drawn32 p (EntityGeo (v3_zero O) bs) blacklist_default [Some t] [Some s] (made_fans (EntityGeo (v3_zero O) bs) M) Ms) as (P & N).
    + repeat constructor. intros [].
    + cbn [eg_brushes]. intros b f Ib If. left. symmetry. pose proof (Ly b Ib) as Lb. unfold in_layer in Lb. rewrite forallb_forall in Lb. specialize (Lb f If).
      destruct (f_texture f) as [t'|]; [|discriminate]. f_equal. now apply str_eqb_eq in Lb.
    + discriminate.
    + eexists. split; [|split; [exact N|exact P]]. eapply made_sub; [exact M|apply filter_subseq].
Qed.
Theorem brick_shapes : forall n0 o k T, In n0 nodes -> InvarianceSpec.within (NCollision o k) n0 -> In T (shells32 (NCollision o k)) -> wraps_boxes p r d T.
Proof. intros n0 o k T I W IT. destruct (shapes_of n0 o k T I W IT) as (bs & M & N & P). exact (made_wraps bs T M N P). Qed.
Theorem brick_meshes : (forall e lines ln pl, In e d -> In lines (doc_brushes e) -> In ln lines -> reads_as p ln pl -> ~ In (bp_texture pl) (bl_plane (cf_blacklist c))) ->
  forall n0 o v T, In n0 nodes -> InvarianceSpec.within (NVisual o v) n0 -> In T (shells32 (NVisual o v)) -> wraps_boxes p r d T.
Proof. intros Bl n0 o v T I W IT. destruct (meshes_of Bl n0 o v T I W IT) as (bs & M & N & P). exact (made_wraps bs T M N P). Qed.
End Run.
