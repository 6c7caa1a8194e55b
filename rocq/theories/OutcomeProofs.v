(** When building the scene succeeds (C68), and that it never returns an error (C58). *)
From Verif Require Import Prelude F32 Text MapModel GeoModel LayerModel GameDataModel SceneModel
  GatherSpec SurfaceSpec TreeSpec PropertySpec RunSpec BaseProofs GatherProofs SurfaceProofs TreeProofs NodeProofs PropertyProofs.

(** ** No errors *)
Definition no_err {A} (r : res A) : Prop := forall e, r <> Err e.
Lemma no_err_mapM : forall A B (f : A -> res B) l, (forall x, In x l -> no_err (f x)) -> no_err (mapM f l).
Proof.
  induction l as [|x l IH]; intros H e; [discriminate|]. simpl.
  pose proof (H x (or_introl eq_refl)) as Hx. destruct (f x) as [y|e'| |]; simpl; try discriminate; [|specialize (Hx e'); congruence].
  assert (N : no_err (mapM f l)) by (apply IH; intros; apply H; simpl; auto).
  destruct (mapM f l) as [ys|e'| |]; simpl; try discriminate. specialize (N e'). congruence.
Qed.
Lemma no_err_bind : forall A B (r : res A) (f : A -> res B), no_err r -> (forall a, no_err (f a)) -> no_err (bind r f).
Proof. intros A B r f H K e. destruct r as [a|e'| |]; simpl; try discriminate; [apply K|specialize (H e'); congruence]. Qed.
Lemma no_err_ok : forall A (a : A), no_err (Ok a).
Proof. intros A a e. discriminate. Qed.
Lemma no_err_unwrap : forall A w (o : option A), no_err (unwrap w o).
Proof. intros A w [a|] e; discriminate. Qed.
#[local] Hint Resolve no_err_mapM no_err_bind no_err_ok no_err_unwrap : noerr.

Section NoErr.
Context {T : Type} (O : num T) (gd : game_data T) (fd : forge_data T) (bl : blacklist).
Lemma gather_entity_no_err : forall bp fp vp g, no_err (gather_entity O bp fp vp g).
Proof.
  intros bp fp vp g. unfold gather_entity. apply no_err_bind; [|auto with noerr].
  apply no_err_mapM. intros b _. unfold gather_brush. destruct vp as [pred|]; [|auto with noerr].
  unfold filter_vertices. apply no_err_bind; [|intros [[? ?] ?]; auto with noerr].
  generalize (@nil nat), (@nil (vertex T)).
  generalize (concat_indices 0 (map (fun f => (f_vertices f, f_indices f)) (filter fp (bg_faces b)))).
  generalize (enumerate (flat_map f_vertices (filter fp (bg_faces b)))).
  intros l. induction l as [|[i v] l IH]; intros ix ni nv; simpl; [auto with noerr|].
  destruct (pred i v _); [apply IH|]. apply no_err_bind; auto with noerr.
Qed.
Lemma texture_surface_no_err : forall g b t, no_err (texture_surface O g b t).
Proof. intros. unfold texture_surface. apply no_err_bind; [apply gather_entity_no_err|]. intros [? ?]. auto with noerr. Qed.
Lemma collision_of_no_err : forall t g, no_err (collision_of O t g).
Proof.
  intros [] g; simpl; auto with noerr. unfold concave_collision. apply no_err_bind; [apply gather_entity_no_err|].
  intros [? ?]. auto with noerr.
Qed.
Lemma panic_no_err : forall A w, no_err (@Panic A w).
Proof. intros A w e. discriminate. Qed.
Lemma entity_visual_no_err : forall e g, no_err (entity_visual O gd bl e g).
Proof.
  intros e g. unfold entity_visual. destruct (get_property e (lit "classname")); [|apply panic_no_err].
  destruct (find_def gd s) as [d|]; [|auto with noerr]. destruct (ed_data d) as [q|q bd]; [auto with noerr|].
  unfold brush_visual. destruct (bd_visual bd); [auto with noerr|].
  apply no_err_bind; [apply no_err_mapM; intros; apply texture_surface_no_err|].
  intros l. destruct (filter_map _ l); auto with noerr.
Qed.
Lemma entity_collision_no_err : forall e g, no_err (entity_collision O gd e g).
Proof.
  intros e g. unfold entity_collision. destruct (get_property e (lit "classname")); [|apply panic_no_err].
  destruct (find_def gd s) as [d|]; [|auto with noerr]. destruct (ed_data d); [auto with noerr|apply collision_of_no_err].
Qed.
Lemma get_properties_no_err : forall e, no_err (get_properties O fd e).
Proof.
  intros e. unfold get_properties. destruct (find_forge fd _); [|auto with noerr].
  assert (A : forall k m, no_err (add_internal_integer (T:=T) e k m)).
  { intros k m. unfold add_internal_integer. destruct (get_property e k); auto with noerr. }
  apply no_err_bind; [apply A|]. intros m. apply no_err_bind; [apply A|]. auto with noerr.
Qed.
Lemma build_layer_no_err : forall l, no_err (build_layer O gd l).
Proof.
  intros [t bs]. unfold build_layer. destruct (filter _ (gd_layers gd)) as [|l [|]]; auto with noerr.
  apply no_err_bind.
  - unfold layer_visual. destruct (wl_visual l); [auto with noerr|]. apply no_err_bind; [apply texture_surface_no_err|auto with noerr].
  - intros v. apply no_err_bind; [apply collision_of_no_err|]. intros k.
    destruct (visual_nodes _ v ++ collision_nodes _ k); auto with noerr.
Qed.
Lemma build_entity_no_err : forall data fuel origin d, no_err (build_entity O fuel gd fd bl data origin d).
Proof.
  intros data. induction fuel as [|fuel IH]; intros origin [e g]; [intros er; discriminate|]. cbn [build_entity].
  apply no_err_bind; [apply entity_visual_no_err|]. intros v. apply no_err_bind; [apply entity_collision_no_err|]. intros k.
  apply no_err_bind; [apply no_err_mapM; auto|]. intros ch. apply no_err_bind; [auto with noerr|]. intros n.
  apply no_err_bind; [apply get_properties_no_err|auto with noerr].
Qed.
Theorem build_scene_no_err : forall data fuel layers, no_err (build_scene O fuel gd fd bl data layers).
Proof.
  intros data fuel layers. unfold build_scene. apply no_err_bind; [apply no_err_mapM; intros; apply build_entity_no_err|].
  intros w. apply no_err_bind; [apply no_err_mapM; intros; apply build_layer_no_err|]. intros ls.
  apply no_err_bind; [apply no_err_mapM; intros; apply build_entity_no_err|auto with noerr].
Qed.
End NoErr.

(** ** Success *)
Section Success.
Context (p : platform) (gd : game_data f32) (fd : forge_data f32) (bl : blacklist).
Local Notation O := (f32_num p).
Context (data : list (entity f32 * entity_geo f32)) (bounds : forall e g, In (e, g) data -> geometry_in_bounds g).

Lemma visual_total : forall e g c, geometry_in_bounds g -> get_property e (lit "classname") = Some c ->
  exists v, entity_visual O gd bl e g = Ok v.
Proof.
  intros e g c B C. unfold entity_visual. rewrite C. destruct (find_def gd c) as [d|]; [|eauto].
  destruct (ed_data d) as [q|q bd]; [eauto|]. destruct (bd_visual bd) eqn:V.
  - unfold brush_visual. rewrite V. eauto.
  - destruct (mesh_full O (f32_eq_laws p) e g bd bl B V) as (l & E & _). rewrite E. eauto.
Qed.
Lemma collision_of_total : forall t g, geometry_in_bounds g -> exists k, collision_of O t g = Ok k.
Proof.
  intros t g B. destruct t; [eexists; reflexivity|eexists; reflexivity|].
  destruct (concave_full O (f32_eq_laws p) g B) as (kept & vs & ix & E & _). rewrite E. eauto.
Qed.
Lemma collision_total : forall e g c, geometry_in_bounds g -> get_property e (lit "classname") = Some c ->
  exists k, entity_collision O gd e g = Ok k.
Proof.
  intros e g c B C. unfold entity_collision. rewrite C. destruct (find_def gd c) as [d|]; [|eauto].
  destruct (ed_data d) as [q|q bd]; [eauto|]. now apply collision_of_total.
Qed.
Lemma properties_iff : forall e, (exists m, get_properties O fd e = Ok m) <-> (forall fe, forge_by fd e fe -> integral_ids e).
Proof.
  intros e. split.
  - intros (m & E) fe F. destruct (internals p fd e fe F) as [(m0 & _ & _ & I)|(_ & w & P)]; [exact I|congruence].
  - intros H. pose proof (find_forge_spec fd e) as F. destruct (find_forge fd (get_property e (lit "classname"))) as [fe|] eqn:E.
    + apply (properties_total p fd e fe F). now apply (H fe).
    + exists []. now apply properties_none.
Qed.

Lemma mapM_ok_or_stuck : forall A B (f : A -> res B) l, (forall x, In x l -> (exists y, f x = Ok y) \/ f x = OutOfFuel) ->
  (exists r, mapM f l = Ok r) \/ mapM f l = OutOfFuel.
Proof.
  induction l as [|x l IH]; intros H; simpl; [left; eauto|].
  destruct (H x (or_introl eq_refl)) as [(y & ->)| ->]; [|right; reflexivity]. simpl.
  destruct IH as [(r & ->)| ->]; [intros; apply H; simpl; auto|left; simpl; eauto|right; reflexivity].
Qed.

Lemma entity_ok : all_usable fd data -> forall fuel origin i d, reaches data i -> nth_error data i = Some d ->
  (exists n, build_entity O fuel gd fd bl data origin d = Ok n) \/ build_entity O fuel gd fd bl data origin d = OutOfFuel.
Proof.
  intros U. induction fuel as [|fuel IH]; intros origin i [e g] R Hi; [right; reflexivity|]. cbn [build_entity].
  destruct (U i e g R Hi) as ((c & C) & I). change (get_property e (lit "classname") = Some c) in C.
  assert (B : geometry_in_bounds g) by (apply (bounds e); eapply nth_error_In; eauto).
  destruct (visual_total e g c B C) as [v ->]. destruct (collision_total e g c B C) as [k ->]. cbn [bind].
  pose proof (proj2 (properties_iff e) I) as [m M].
  match goal with |- context [mapM ?f ?l] => destruct (mapM_ok_or_stuck _ _ f l) as [(r & ->)| ->] end.
  - intros x Hx. destruct (Forall2_in_r _ _ _ _ _ _ (members_children data i e g Hi) Hx) as (j & Hj & Nj).
    apply (IH _ j x); [|exact Nj]. apply ReachGroup with i; [exact R|]. now apply in_group_bool.
  - left. cbn [bind]. rewrite C. cbn [unwrap bind]. rewrite M. cbn [bind]. eauto.
  - right. reflexivity.
Qed.

Lemma entity_inv : forall i, reaches data i ->
  (forall j d, In j (roots data) -> nth_error data j = Some d -> exists f o n, build_entity O f gd fd bl data o d = Ok n) ->
  forall d, nth_error data i = Some d -> exists f o n, build_entity O f gd fd bl data o d = Ok n.
Proof.
  intros i R H. induction R as [i Hi|i j R IH G]; intros d Hd; [now apply (H i)|].
  assert (L : i < length data) by now apply reaches_bound.
  destruct (nth_error data i) as [[e g]|] eqn:Ei; [|apply nth_error_None in Ei; lia].
  destruct (IH _ eq_refl) as (f & o & n & B). apply build_entity_inv in B.
  destruct B as (f' & c & v & k & ch & props & _ & _ & _ & _ & M & _). apply in_group_bool in G.
  destruct (Forall2_in_l _ _ _ _ _ _ (members_children data i e g Ei) G) as (x & Hx & Nx).
  assert (x = d) by congruence. subst x. apply mapM_ok in M. destruct (Forall2_in_l _ _ _ _ _ _ M Hx) as (y & _ & Y). eauto.
Qed.

Lemma first_root : forall d, In d (firstn 1 data) -> nth_error data 0 = Some d.
Proof. intros d H. destruct data; [contradiction|]. destruct H as [<-|[]]. reflexivity. Qed.

Theorem scene_entity : forall fuel layers nodes, build_scene O fuel gd fd bl data layers = Ok nodes ->
  forall i, reaches data i -> forall d, nth_error data i = Some d -> exists f o n, build_entity O f gd fd bl data o d = Ok n.
Proof.
  intros fuel layers nodes E. unfold build_scene in E. apply bind_ok in E. destruct E as (w & W & E).
  apply bind_ok in E. destruct E as (ls & L & E). apply bind_ok in E. destruct E as (os & Os & _).
  apply mapM_ok in W, Os.
  assert (Rt : forall j d, In j (roots data) -> nth_error data j = Some d -> exists f o n, build_entity O f gd fd bl data o d = Ok n).
  { intros j d Hj Nj. unfold roots in Hj. apply in_app_or in Hj. destruct Hj as [Hj|Hj].
    - assert (j = 0 /\ In d (firstn 1 data)).
      { clear - Hj Nj. destruct data; [contradiction|]. destruct Hj as [<-|[]]. injection Nj as ->. simpl. auto. }
      destruct H as [-> H]. destruct (Forall2_in_l _ _ _ _ _ _ W H) as (n & _ & N). eauto.
    - destruct (Forall2_in_l _ _ _ _ _ _ (ungrouped_others data) Hj) as (x & Hx & Nx). assert (x = d) by congruence. subst x.
      destruct (Forall2_in_l _ _ _ _ _ _ Os Hx) as (n & _ & N). eauto. }
  intros i R d Hi. exact (entity_inv i R Rt _ Hi).
Qed.
Theorem scene_usable : forall fuel layers nodes, build_scene O fuel gd fd bl data layers = Ok nodes -> all_usable fd data.
Proof.
  intros fuel layers nodes E i e g R Hi. destruct (scene_entity fuel layers nodes E i R _ Hi) as (f & o & n & B). apply build_entity_inv in B.
  destruct B as (f' & c & v & k & ch & props & _ & C & _ & _ & _ & P & _). split; [now exists c|].
  apply properties_iff. eauto.
Qed.

Theorem scene_ok : forall layers, (forall t bs, In (t, bs) layers -> geometry_in_bounds (EntityGeo (v3_zero O) bs)) ->
  all_usable fd data -> forall fuel, (exists nodes, build_scene O fuel gd fd bl data layers = Ok nodes) \/ build_scene O fuel gd fd bl data layers = OutOfFuel.
Proof.
  intros layers LB U fuel. unfold build_scene.
  match goal with |- context [mapM ?f (firstn 1 data)] => destruct (mapM_ok_or_stuck _ _ f (firstn 1 data)) as [(r & ->)| ->] end.
  - intros x Hx. apply (entity_ok U fuel _ 0); [|now apply first_root]. constructor. apply roots_spec. split; [|auto].
    destruct data; [contradiction|simpl; lia].
  - cbn [bind]. destruct (mapM_total _ _ (build_layer O gd) layers) as (ls & ->).
    { intros [t bs] H. destruct (layer_present O gd (f32_eq_laws p) t bs (LB t bs H)) as (r' & E & _). eauto. }
    cbn [bind]. match goal with |- context [mapM ?f ?l] => destruct (mapM_ok_or_stuck _ _ f l) as [(os & ->)| ->] end.
    + intros x Hx. destruct (Forall2_in_r _ _ _ _ _ _ (ungrouped_others data) Hx) as (j & Hj & Nj).
      apply (entity_ok U fuel _ j); [|exact Nj]. constructor. apply in_or_app. right. exact Hj.
    + left. cbn. eauto.
    + right. reflexivity.
  - right. reflexivity.
Qed.

Theorem scene_outcome : forall layers, (forall t bs, In (t, bs) layers -> geometry_in_bounds (EntityGeo (v3_zero O) bs)) ->
  forall fuel, build_scene O fuel gd fd bl data layers <> OutOfFuel ->
  ((exists nodes, build_scene O fuel gd fd bl data layers = Ok nodes) <-> all_usable fd data)
  /\ ((exists w, build_scene O fuel gd fd bl data layers = Panic w) <-> ~ all_usable fd data).
Proof.
  intros layers LB fuel N. pose proof (build_scene_no_err O gd fd bl data fuel layers) as NE.
  assert (A : forall nodes, build_scene O fuel gd fd bl data layers = Ok nodes -> all_usable fd data) by apply scene_usable.
  pose proof (fun U => scene_ok layers LB U fuel) as K.
  destruct (build_scene O fuel gd fd bl data layers) as [n|e|w|]; [| |split; split|].
  - pose proof (A n eq_refl). split; split; [auto|eauto|intros (w & Hw); discriminate|tauto].
  - destruct (NE e eq_refl).
  - intros (x & X). discriminate.
  - intros U. destruct (K U) as [H|H]; [exact H|discriminate].
  - intros _ U. destruct (K U) as [(n & H)|H]; discriminate.
  - eauto.
  - congruence.
Qed.
End Success.
