(** Trees with other geometry: lemmas for C115. *)
From Coq Require Import Permutation.
From Verif Require Import Prelude F32 Text MapModel GeoModel LayerModel GameDataModel SceneModel RunModel
  GatherSpec GeoSpec LayerSpec SurfaceSpec TreeSpec PropertySpec MapSpec Utf8Spec RunSpec InvarianceSpec ReworkSpec
  BaseProofs TokenProofs MapProofs GeoProofs LayerProofs NodeProofs RunProofs InvarianceProofs SiblingProofs.

(** ** Related outcomes: both fail, or related values *)
Definition paired {A B} (R : A -> B -> Prop) (a : res A) (b : res B) : Prop :=
  (forall x, a = Ok x -> exists y, b = Ok y /\ R x y) /\ (forall y, b = Ok y -> exists x, a = Ok x /\ R x y).
Lemma paired_ok : forall A B (R : A -> B -> Prop) x y, R x y -> paired R (Ok x) (Ok y).
Proof. intros A B R x y H. split; [intros z E|intros z E]; injection E as <-; eauto. Qed.
Lemma paired_fail : forall A B (R : A -> B -> Prop) (a : res A) (b : res B), (forall x, a <> Ok x) -> (forall y, b <> Ok y) -> paired R a b.
Proof. intros A B R a b H K. split; [intros x E; now apply H in E|intros y E; now apply K in E]. Qed.
Lemma paired_eq : forall A (R : A -> A -> Prop) (a : res A), (forall x, a = Ok x -> R x x) -> paired R a a.
Proof. intros A R a H. split; eauto. Qed.
Lemma paired_bind : forall A B A' B' (R : A -> B -> Prop) (Q : A' -> B' -> Prop) a b f g, paired R a b -> (forall x y, R x y -> paired Q (f x) (g y)) ->
  paired Q (bind a f) (bind b g).
Proof.
  intros A B A' B' R Q a b f g (H1 & H2) K. split.
  - intros x E. apply bind_ok in E. destruct E as (u & Eu & E). destruct (H1 u Eu) as (w & Ew & Rw). destruct (proj1 (K u w Rw) x E) as (y & Ey & Q'). exists y. rewrite Ew. auto.
  - intros y E. apply bind_ok in E. destruct E as (w & Ew & E). destruct (H2 w Ew) as (u & Eu & Rw). destruct (proj2 (K u w Rw) y E) as (x & Ex & Q'). exists x. rewrite Eu. auto.
Qed.
Lemma paired_mapM : forall A B A' B' (P : A -> B -> Prop) (Q : A' -> B' -> Prop) f g l m, Forall2 P l m -> (forall x y, P x y -> paired Q (f x) (g y)) ->
  paired (Forall2 Q) (mapM f l) (mapM g m).
Proof.
  intros A B A' B' P Q f g l m F H. induction F as [|x y l m Pxy F IH]; [apply paired_ok; constructor|]. cbn [mapM].
  apply paired_bind with (R := Q); [now apply H|]. intros u w Q1. apply paired_bind with (R := Forall2 Q); [exact IH|]. intros us ws Q2. apply paired_ok. now constructor.
Qed.
Lemma paired_weaken : forall A B (R Q : A -> B -> Prop) a b, (forall x y, R x y -> Q x y) -> paired R a b -> paired Q a b.
Proof. intros A B R Q a b H (P1 & P2). split; [intros x E; destruct (P1 x E) as (y & Ey & ?)|intros y E; destruct (P2 y E) as (x & Ex & ?)]; eauto. Qed.

(** ** Scenes *)
Section Scene.
Context (p : platform) (fixed : Prop) (V : visual f32 -> visual f32 -> Prop) (K : collision f32 -> collision f32 -> Prop)
  (E : entity f32 -> entity f32 -> Prop) (B : list (brush_geo f32) -> list (brush_geo f32) -> Prop)
  (gd : game_data f32) (fd : forge_data f32) (bl : blacklist).
Local Notation O := (f32_num p).
Context (E_values : forall e e', E e e' -> forall k, get_property e k = get_property e' k)
  (B_layer : forall t bs bs', B bs bs' -> B (filter (in_layer t) bs) (filter (in_layer t) bs')
    /\ B (filter (fun b => negb (in_layer t b)) bs) (filter (fun b => negb (in_layer t b)) bs'))
  (V_none : V VisNone VisNone) (K_none : K ColNone ColNone)
  (V_void : forall v v', V v v' -> (v = VisNone <-> v' = VisNone)) (K_void : forall k k', K k k' -> (k = ColNone <-> k' = ColNone))
  (V_brush : forall e e' g g' bd, E e e' -> B (eg_brushes g) (eg_brushes g') -> paired V (brush_visual O e g bd bl) (brush_visual O e' g' bd bl))
  (V_layer : forall l t bs bs', B bs bs' -> paired V (layer_visual O l t bs) (layer_visual O l t bs'))
  (K_brush : forall t g g', (fixed -> eg_center g = eg_center g') -> B (eg_brushes g) (eg_brushes g') -> paired K (collision_of O t g) (collision_of O t g')).

Definition related (d d' : entity f32 * entity_geo f32) : Prop :=
  E (fst d) (fst d') /\ (fixed -> eg_center (snd d) = eg_center (snd d')) /\ B (eg_brushes (snd d)) (eg_brushes (snd d')).

Lemma visual_related : forall e e' g g', related (e, g) (e', g') -> paired V (entity_visual O gd bl e g) (entity_visual O gd bl e' g').
Proof.
  intros e e' g g' (Re & _ & Rb). cbn [fst snd] in *. unfold entity_visual. rewrite (E_values e e' Re). destruct (get_property e' (lit "classname")) as [c|]; [|apply paired_fail; discriminate].
  destruct (find_def gd c) as [d|]; [|now apply paired_ok]. destruct (ed_data d) as [q|q bd]; [now apply paired_ok|]. now apply V_brush.
Qed.
Lemma collision_related : forall e e' g g', related (e, g) (e', g') -> paired K (entity_collision O gd e g) (entity_collision O gd e' g').
Proof.
  intros e e' g g' (Re & Rc & Rb). cbn [fst snd] in *. unfold entity_collision. rewrite (E_values e e' Re). destruct (get_property e' (lit "classname")) as [c|]; [|apply paired_fail; discriminate].
  destruct (find_def gd c) as [d|]; [|now apply paired_ok]. destruct (ed_data d) as [q|q bd]; [now apply paired_ok|]. now apply K_brush.
Qed.
Lemma point_values : forall e e' : entity f32, (forall k, get_property e k = get_property e' k) -> entity_point gd e = entity_point gd e'.
Proof. intros e e' H. unfold entity_point. now rewrite H. Qed.
Lemma properties_values : forall e e' : entity f32, (forall k, get_property e k = get_property e' k) -> get_properties O fd e = get_properties O fd e'.
Proof.
  intros e e' G. unfold get_properties. rewrite <- (G (lit "classname")). destruct (find_forge fd _) as [fe|]; [|reflexivity].
  unfold add_internal_integer, add_internal_string. rewrite <- !G.
  assert (Fo : forall l m, fold_left (fun m fp => hput m (fp_name fp) (property_value O (fp_data fp) (get_property e (fp_name fp)))) l m
             = fold_left (fun m fp => hput m (fp_name fp) (property_value O (fp_data fp) (get_property e' (fp_name fp)))) l m).
  { induction l as [|x l IH]; intros m; [reflexivity|]. cbn [fold_left]. rewrite G. apply IH. }
  destruct (match get_property e (lit "_tb_id") with Some _ => _ | None => _ end) as [m| | |]; cbn [bind]; try reflexivity.
  destruct (match get_property e (lit "_tb_group") with Some _ => _ | None => _ end) as [m'| | |]; cbn [bind]; try reflexivity.
  cbv zeta. rewrite Fo. reflexivity.
Qed.

Lemma entity_reworked : forall data data', Forall2 related data data' -> forall fuel o o' d d', (fixed -> o = o') -> related d d' ->
  paired (reworked fixed V K) (build_entity O fuel gd fd bl data o d) (build_entity O fuel gd fd bl data' o' d').
Proof.
  intros data data' F fuel. induction fuel as [|fuel IH]; intros o o' [e g] [e' g'] Ho R; [apply paired_fail; discriminate|].
  pose proof R as (Re & Rc & Rb). cbn [fst snd] in Re, Rc, Rb. pose proof (E_values e e' Re) as Pr. cbn [build_entity].
  apply paired_bind with (R := V); [now apply visual_related|]. intros v v' Rv.
  apply paired_bind with (R := K); [now apply collision_related|]. intros k k' Rk.
  apply paired_bind with (R := Forall2 (reworked fixed V K)).
  { apply paired_mapM with (P := related).
    - apply filter_same; [now apply tl_same|]. intros x y (Rx & _). unfold is_child. rewrite (E_values _ _ Rx), Pr. reflexivity.
    - intros x y Rx. apply IH; [|exact Rx]. intros Hf. now rewrite (Rc Hf). }
  intros ch ch' Rch. rewrite Pr. destruct (get_property e' (lit "classname")) as [c|]; cbn [unwrap bind]; [|apply paired_fail; discriminate].
  rewrite (properties_values e e' Pr). destruct (get_properties O fd e') as [ps| | |]; cbn [bind]; try (apply paired_fail; discriminate). apply paired_ok.
  unfold get_entity_type, get_component_class, get_application_type. rewrite (point_values e e' Pr). rewrite !app_assoc.
  eapply Reworked with (c := eg_center g) (c' := eg_center g') (v := v) (v' := v') (k := k) (k' := k'); auto using nodes_of.
  intros Hf. split; [now rewrite (Ho Hf), (Rc Hf)|now apply Rc].
Qed.

Lemma nodes_void : forall c v v' k k', V v v' -> K k k' ->
  (visual_nodes c v ++ collision_nodes c k = [] <-> visual_nodes c v' ++ collision_nodes c k' = []).
Proof.
  intros c v v' k k' Rv Rk. apply V_void in Rv. apply K_void in Rk.
  assert (X : forall (v : visual f32) (k : collision f32), visual_nodes c v ++ collision_nodes c k = [] <-> v = VisNone /\ k = ColNone).
  { intros [|l] [|l2|l2]; cbn; split; try discriminate; try (intros (? & ?); discriminate); auto. }
  rewrite !X, Rv, Rk. reflexivity.
Qed.

Definition layer_related (l l' : str * list (brush_geo f32)) : Prop := fst l = fst l' /\ B (snd l) (snd l').
Definition option_related (o o' : option (node f32)) : Prop :=
  match o, o' with Some n, Some n' => reworked fixed V K n n' | None, None => True | _, _ => False end.
Lemma layer_reworked : forall l l', layer_related l l' -> paired option_related (build_layer O gd l) (build_layer O gd l').
Proof.
  intros [t bs] [t' bs'] (Et & Rb). cbn [fst snd] in *. subst t'. unfold build_layer.
  destruct (filter (fun l => str_eqb (wl_texture l) t) (gd_layers gd)) as [|l [|]]; [now apply paired_ok| |now apply paired_ok].
  apply paired_bind with (R := V); [now apply V_layer|]. intros v v' Rv. apply paired_bind with (R := K); [now apply K_brush|]. intros k k' Rk.
  pose proof (nodes_void (v3_zero O) v v' k k' Rv Rk) as N. pose proof (nodes_of (v3_zero O) v k) as G. pose proof (nodes_of (v3_zero O) v' k') as G'.
  destruct (visual_nodes (v3_zero O) v ++ collision_nodes (v3_zero O) k) as [|x xs]; destruct (visual_nodes (v3_zero O) v' ++ collision_nodes (v3_zero O) k') as [|y ys].
  - now apply paired_ok.
  - discriminate (proj1 N eq_refl).
  - discriminate (proj2 N eq_refl).
  - apply paired_ok. cbn [option_related]. rewrite <- (app_nil_r (x :: xs)), <- (app_nil_r (y :: ys)).
    eapply Reworked; eauto.
Qed.

Lemma somes_related : forall ls ls', Forall2 option_related ls ls' -> Forall2 (reworked fixed V K) (filter_map (fun o => o) ls) (filter_map (fun o => o) ls').
Proof. intros ls ls' F. induction F as [|[x|] [y|] l m R F IH]; cbn [filter_map option_related] in *; try contradiction; [constructor|constructor; assumption|exact IH]. Qed.
Lemma somes_moved : forall X (l l' : list (option X)), Permutation l l' -> Permutation (filter_map (fun o => o) l) (filter_map (fun o => o) l').
Proof.
  intros X l l' P. induction P as [|[x|] l l' P IH|[x|] [y|] l|l l' l'' P IH P' IH']; cbn [filter_map]; auto; [constructor|etransitivity; eauto].
Qed.

Lemma scene_reworked : forall fuel x x' data data' layers mid layers', related x x' -> Forall2 related data data' -> Permutation layers mid -> Forall2 layer_related mid layers' ->
  paired (reworked_run fixed V K) (build_scene O fuel gd fd bl (x :: data) layers) (build_scene O fuel gd fd bl (x' :: data') layers').
Proof.
  intros fuel x x' data data' layers mid layers' Rx F Pm Fl. assert (F' : Forall2 related (x :: data) (x' :: data')) by now constructor. unfold build_scene. cbn [firstn tl].
  apply paired_bind with (R := fun ws ws' => exists w w', ws = [w] /\ ws' = [w'] /\ reworked fixed V K w w').
  { cbn [mapM]. apply paired_bind with (R := reworked fixed V K); [now apply entity_reworked|]. intros w w' Rw. apply paired_ok. eauto. }
  intros ws ws' (w & w' & -> & -> & Rw). apply paired_bind with (R := fun ls ls' => exists m, Permutation ls m /\ Forall2 option_related m ls').
  { assert (Q : paired (Forall2 option_related) (mapM (build_layer O gd) mid) (mapM (build_layer O gd) layers')) by (apply paired_mapM with (P := layer_related); [exact Fl|exact layer_reworked]).
    destruct Q as (Q1 & Q2). split.
    - intros ls El. destruct (mapM_moved _ _ _ _ _ _ Pm El) as (m & Em & Pl). destruct (Q1 m Em) as (ls' & El' & R). eauto.
    - intros ls' El'. destruct (Q2 ls' El') as (m & Em & R). destruct (mapM_moved _ _ _ _ _ _ (Permutation_sym Pm) Em) as (ls & El & Pl). exists ls. split; [exact El|]. exists m. split; [now symmetry|exact R]. }
  intros ls ls' (m & Pl & R). apply paired_bind with (R := Forall2 (reworked fixed V K)).
  { apply paired_mapM with (P := related).
    - apply filter_same; [exact F|]. intros y y' (Ry & _). now rewrite (E_values _ _ Ry).
    - intros y y' Ry. now apply entity_reworked. }
  intros os os' Fo. apply paired_ok.
  exists w, (filter_map (fun o => o) ls), os, w', (filter_map (fun o => o) ls'), (filter_map (fun o => o) m), os'.
  repeat (split; [auto using somes_moved, somes_related; fail|]). exact Fo.
Qed.

(** ** Layers *)
Lemma filter_reworked : forall data data', Forall2 related data data' ->
  paired (fun r r' => exists x x' rest rest', fst r = x :: rest /\ fst r' = x' :: rest' /\ related x x' /\ Forall2 related rest rest' /\ Forall2 layer_related (snd r) (snd r'))
    (layer_filter data) (layer_filter data').
Proof.
  intros data data' F. unfold layer_filter. rewrite !partition_filter.
  assert (Hw : forall x y, related x y -> is_worldspawn x = is_worldspawn y) by (intros x y (Re & _); unfold is_worldspawn; now rewrite (E_values _ _ Re)).
  assert (W : Forall2 related (filter is_worldspawn data) (filter is_worldspawn data')) by (apply filter_same; assumption).
  assert (N : Forall2 related (filter (fun x => negb (is_worldspawn x)) data) (filter (fun x => negb (is_worldspawn x)) data')).
  { apply filter_same; [exact F|]. intros x y R. now rewrite (Hw x y R). }
  destruct W as [|[e g] [e' g'] l l' R W]; [apply paired_fail; discriminate|]. destruct W as [|[e2 g2] [e2' g2'] l l' R2 W]; [|apply paired_fail; discriminate].
  destruct R as (Re & Rc & Rb). cbn [fst snd] in *. rewrite (layers_split (eg_brushes g)), (layers_split (eg_brushes g')). apply paired_ok. cbn [fst snd].
  assert (Fb : forall t l l', B l l' -> B (filter (in_layer t) l) (filter (in_layer t) l')) by (intros t l l' H; now apply B_layer).
  assert (Fn : forall t l l', B l l' -> B (filter (fun b => negb (in_layer t b)) l) (filter (fun b => negb (in_layer t b)) l')) by (intros t l l' H; now apply B_layer).
  do 4 eexists. split; [reflexivity|]. split; [reflexivity|]. split; [repeat split; cbn [fst snd eg_center eg_brushes]; auto|]. split; [exact N|].
  repeat constructor; cbn [fst snd]; auto.
Qed.
End Scene.

Lemma pairwise_layers : forall B : brush_geo f32 -> brush_geo f32 -> Prop, (forall t b b', B b b' -> in_layer t b = in_layer t b') -> forall t bs bs', Forall2 B bs bs' ->
  Forall2 B (filter (in_layer t) bs) (filter (in_layer t) bs') /\ Forall2 B (filter (fun b => negb (in_layer t b)) bs) (filter (fun b => negb (in_layer t b)) bs').
Proof. intros B H t bs bs' F. split; (apply filter_same; [exact F|]); intros x y R; now rewrite (H t x y R). Qed.

(** ** Runs *)
Theorem built_reworked : forall p order, (forall m, Permutation (order m) m) -> forall (fixed : Prop) (V : visual f32 -> visual f32 -> Prop) (K : collision f32 -> collision f32 -> Prop)
  (E : entity f32 -> entity f32 -> Prop) (B : list (brush_geo f32) -> list (brush_geo f32) -> Prop) c c', cf_blacklist c = cf_blacklist c' -> cf_forge c = cf_forge c' -> cf_game c = cf_game c' ->
  (forall e e', E e e' -> forall k, get_property e k = get_property e' k) -> (forall t bs bs', B bs bs' -> B (filter (in_layer t) bs) (filter (in_layer t) bs') /\ B (filter (fun b => negb (in_layer t b)) bs) (filter (fun b => negb (in_layer t b)) bs')) ->
  V VisNone VisNone -> K ColNone ColNone -> (forall v v', V v v' -> (v = VisNone <-> v' = VisNone)) -> (forall k k', K k k' -> (k = ColNone <-> k' = ColNone)) ->
  (forall e e' g g' bd, E e e' -> B (eg_brushes g) (eg_brushes g') ->
     paired V (brush_visual (f32_num p) e g bd (cf_blacklist c)) (brush_visual (f32_num p) e' g' bd (cf_blacklist c))) ->
  (forall l t bs bs', B bs bs' -> paired V (layer_visual (f32_num p) l t bs) (layer_visual (f32_num p) l t bs')) ->
  (forall t g g', (fixed -> eg_center g = eg_center g') -> B (eg_brushes g) (eg_brushes g') -> paired K (collision_of (f32_num p) t g) (collision_of (f32_num p) t g')) ->
  forall fuel es es', paired (fun gs gs' => Forall2 (related fixed E B) (combine es gs) (combine es' gs')) (build_geometry (f32_num p) (cf_textures c) es) (build_geometry (f32_num p) (cf_textures c') es') ->
  paired (reworked_run fixed V K) (built p order fuel c es) (built p order fuel c' es').
Proof.
  intros p order Po fixed V K E B c c' Eb Ef Eg H1 H2 H3 H4 H5 H6 H7 H8 H9 fuel es es' G. unfold built. rewrite <- Eb, <- Ef, <- Eg.
  apply paired_bind with (1 := G). intros gs gs' F. eapply paired_bind; [apply (filter_reworked fixed E B H1 H2); exact F|].
  intros [data layers] [data' layers'] (x & x' & rest & rest' & Ed & Ed' & Rx & Fr & Fl). cbn [fst snd] in *. subst data data'.
  destruct (Permutation_Forall2 (Permutation_sym (Po layers')) (flipped _ _ _ _ _ Fl)) as (mid & Pm & Fm). apply flipped in Fm.
  apply scene_reworked with (E := E) (B := B) (mid := mid); auto. etransitivity; [apply Po|exact Pm].
Qed.
