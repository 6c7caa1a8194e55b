(** The names of textures are only names: lemmas for C142. *)
From Coq Require Import Permutation.
From Verif Require Import Prelude F32 Text MapModel GeoModel LayerModel GameDataModel SceneModel RunModel
  GatherSpec TextSpec LayerSpec TreeSpec PropertySpec MapSpec Utf8Spec RunSpec InvarianceSpec PointsSpec RetextureSpec
  BaseProofs TextProofs TokenProofs MapProofs GeoProofs LayerProofs NodeProofs RunProofs InvarianceProofs SiblingProofs PointsProofs ReworkProofs.

(** [b] is [a] with [g] applied to the result. *)
Definition mapped {A B} (g : A -> B) (a : res A) (b : res B) : Prop := paired (fun x y => y = g x) a b.
Lemma mapped_ok : forall A B (g : A -> B) x, mapped g (Ok x) (Ok (g x)).
Proof. intros. now apply paired_ok. Qed.
Lemma Forall2_image : forall A B (g : A -> B) l m, Forall2 (fun x y => y = g x) l m -> m = map g l.
Proof. intros A B g l m F. induction F; cbn; congruence. Qed.
Lemma image_Forall2 : forall A B (g : A -> B) (Q : A -> Prop) l, (forall x, In x l -> Q x) -> Forall2 (fun x y => y = g x /\ Q x) l (map g l).
Proof. intros A B g Q l H. induction l as [|x l IH]; constructor; [split; [reflexivity|apply H; now left]|apply IH; intros y Hy; apply H; now right]. Qed.
Lemma mapped_mapM : forall A B A' B' (P : A -> A' -> Prop) (g : B -> B') f h l m, Forall2 P l m -> (forall x y, P x y -> mapped g (f x) (h y)) -> mapped (map g) (mapM f l) (mapM h m).
Proof.
  intros A B A' B' P g f h l m F H. eapply paired_weaken; [|eapply paired_mapM; [exact F|exact H]]. intros x y G. now apply Forall2_image.
Qed.
Lemma filter_image : forall A B (g : A -> B) (q : A -> bool) (r : B -> bool) l, (forall x, In x l -> r (g x) = q x) -> filter r (map g l) = map g (filter q l).
Proof. intros A B g q r l H. induction l as [|x l IH]; [reflexivity|]. cbn [map filter]. rewrite H by (now left). rewrite IH by (intros y Hy; apply H; now right). destruct (q x); reflexivity. Qed.
Lemma somes_image : forall A B (g : A -> B) l, filter_map (fun o => o) (map (option_map g) l) = map g (filter_map (fun o => o) l).
Proof. intros A B g l. induction l as [|[x|] l IH]; cbn [map option_map filter_map]; [reflexivity|now rewrite IH|exact IH]. Qed.
Lemma prod_image : forall A B (g : A -> B) l m, list_prod (map g l) (map g m) = map (fun x => (g (fst x), g (snd x))) (list_prod l m).
Proof.
  intros A B g l m. induction l as [|x l IH]; [reflexivity|]. cbn [map list_prod]. rewrite IH, map_app. f_equal. rewrite !map_map. reflexivity.
Qed.
Lemma mapM_image : forall A B C (g : A -> B) (h : B -> res C) l, mapM h (map g l) = mapM (fun x => h (g x)) l.
Proof. intros A B C g h l. induction l as [|x l IH]; [reflexivity|]. cbn [map mapM]. now rewrite IH. Qed.

(** ** Geometry *)
Definition rename_face {T} f (x : face T) : face T := Face (f_center x) (f_vertices x) (f_indices x) (option_map f (f_texture x)).
Definition rename_brush {T} f (b : brush_geo T) : brush_geo T := BrushGeo (bg_center b) (map (rename_face f) (bg_faces b)).
Definition rename_geo {T} f (g : entity_geo T) : entity_geo T := EntityGeo (eg_center g) (map (rename_brush f) (eg_brushes g)).

Section Faces.
Context {T : Type} (O : num T) (f : str -> str).

Lemma hull_recover : forall x (b : brush T), vertex_in_hull O x (map (recover f) b) = vertex_in_hull O x b.
Proof. intros x b. unfold vertex_in_hull. induction b as [|pl b IH]; [reflexivity|]. cbn [map forallb]. rewrite IH. reflexivity. Qed.
Lemma vertices_recover : forall tex (e e' : entity T) b pl, (forall k, get_property e k = get_property e' k) ->
  plane_vertices O tex e' (map (recover f) b) (recover f pl) = plane_vertices O tex e b pl.
Proof.
  intros tex e e' b pl H. unfold plane_vertices. rewrite prod_image, mapM_image. f_equal. apply mapM_ext. intros [q r] _. cbn [fst snd]. unfold build_plane_vertex.
  change (intersect_planes O (recover f pl) (recover f q) (recover f r)) with (intersect_planes O pl q r). destruct (intersect_planes O pl q r) as [x|]; [|reflexivity].
  rewrite hull_recover. destruct (vertex_in_hull O x b); [|reflexivity].
  assert (N : vertex_normal O e' (recover f pl) (recover f q) (recover f r) = vertex_normal O e pl q r) by (unfold vertex_normal, is_phong; rewrite <- !H; reflexivity). rewrite N. reflexivity.
Qed.
Lemma face_recover : forall tx tx' (e e' : entity T) b pl, (forall k, get_property e k = get_property e' k) -> hget tx' (f (bp_texture pl)) = hget tx (bp_texture pl) ->
  mapped (rename_face f) (build_face O tx e b pl) (build_face O tx' e' (map (recover f) b) (recover f pl)).
Proof.
  intros tx tx' e e' b pl H S. unfold build_face. change (bp_texture (recover f pl)) with (f (bp_texture pl)). rewrite S, (vertices_recover _ e e' b pl H).
  assert (Ph : is_phong e' = is_phong e) by (unfold is_phong; now rewrite H). rewrite Ph.
  destruct (plane_vertices O (hget tx (bp_texture pl)) e b pl) as [vs| | |]; cbn [bind]; try (apply paired_fail; discriminate). apply paired_ok. unfold rename_face. cbn [f_center f_vertices f_indices f_texture].
  destruct (hget tx (bp_texture pl)); reflexivity.
Qed.
Lemma brush_recover : forall tx tx' (e e' : entity T) b, (forall k, get_property e k = get_property e' k) -> (forall pl, In pl b -> hget tx' (f (bp_texture pl)) = hget tx (bp_texture pl)) ->
  mapped (rename_brush f) (build_brush O tx e b) (build_brush O tx' e' (map (recover f) b)).
Proof.
  intros tx tx' e e' b H S. unfold build_brush. eapply paired_bind.
  - eapply mapped_mapM; [apply (image_Forall2 _ _ (recover f) _ _ S)|]. intros x y (-> & Hx). now apply face_recover.
  - intros fs fs' ->. apply paired_ok. unfold rename_brush. cbn [bg_center bg_faces]. rewrite map_map. reflexivity.
Qed.
Lemma geo_recover : forall tx tx' (e e' : entity T), (forall k, get_property e k = get_property e' k) -> e_brushes e' = map (map (recover f)) (e_brushes e) ->
  (forall b pl, In b (e_brushes e) -> In pl b -> hget tx' (f (bp_texture pl)) = hget tx (bp_texture pl)) ->
  mapped (rename_geo f) (build_entity_geo O tx e) (build_entity_geo O tx' e').
Proof.
  intros tx tx' e e' H B S. unfold build_entity_geo. rewrite B. eapply paired_bind.
  - eapply mapped_mapM; [apply (image_Forall2 _ _ (map (recover f)) (fun b => forall pl, In pl b -> hget tx' (f (bp_texture pl)) = hget tx (bp_texture pl)) _ (fun b Ib pl => S b pl Ib))|]. intros x y (-> & Hx). now apply brush_recover.
  - intros bs bs' ->. apply paired_ok. unfold rename_geo. cbn [eg_center eg_brushes]. specialize (H (lit "origin")). unfold get_property in H. rewrite <- H, map_map. reflexivity.
Qed.

(** ** Surfaces and shapes *)
Context (U : str -> Prop) (apart : forall s t, U s -> U t -> f s = f t -> s = t).
Definition covered_face (x : face T) : Prop := forall t, f_texture x = Some t -> U t.
Definition covered_brush (b : brush_geo T) : Prop := forall x, In x (bg_faces b) -> covered_face x.
Definition covered_geo (g : entity_geo T) : Prop := forall b, In b (eg_brushes g) -> covered_brush b.

Lemma names_apart : forall s t, U s -> U t -> str_eqb (f s) (f t) = str_eqb s t.
Proof.
  intros s t Hs Ht. destruct (str_eqb s t) eqn:E.
  - apply str_eqb_eq in E. subst. now apply str_eqb_eq.
  - destruct (str_eqb (f s) (f t)) eqn:E'; [|reflexivity]. apply str_eqb_eq in E'. apply apart in E'; auto. subst. rewrite <- E. symmetry. now apply str_eqb_eq.
Qed.
Lemma existsb_In : forall (t : str) l, existsb (str_eqb t) l = true <-> In t l.
Proof. intros t l. rewrite existsb_exists. split; [intros (x & I & E); apply str_eqb_eq in E; now subst|]. intros I. exists t. split; [exact I|now apply str_eqb_eq]. Qed.
Lemma listed_same : forall s t l l', (In s l' <-> In t l) -> existsb (str_eqb s) l' = existsb (str_eqb t) l.
Proof. intros s t l l' H. rewrite <- !existsb_In in H. destruct (existsb (str_eqb s) l'), (existsb (str_eqb t) l); try reflexivity; [symmetry|]; now apply H. Qed.

Lemma gather_same : forall (q r : face T -> bool) vp b, (forall x, In x (bg_faces b) -> r (rename_face f x) = q x) -> gather_brush O r vp (rename_brush f b) = gather_brush O q vp b.
Proof.
  intros q r vp b H. unfold gather_brush. cbn [rename_brush bg_faces]. rewrite (filter_image _ _ (rename_face f) q r _ H).
  assert (V : flat_map f_vertices (map (rename_face f) (filter q (bg_faces b))) = flat_map f_vertices (filter q (bg_faces b))) by (generalize (filter q (bg_faces b)); intros l; induction l as [|x l IH]; [reflexivity|]; cbn [map flat_map]; now rewrite IH).
  rewrite V, map_map. reflexivity.
Qed.
Lemma gather_all : forall (bq br : brush_geo T -> bool) (q r : face T -> bool) vp g, (forall b, In b (eg_brushes g) -> br (rename_brush f b) = bq b) ->
  (forall b x, In b (eg_brushes g) -> In x (bg_faces b) -> r (rename_face f x) = q x) -> gather_entity O br r vp (rename_geo f g) = gather_entity O bq q vp g.
Proof.
  intros bq br q r vp g Hb Hf. unfold gather_entity. cbn [rename_geo eg_brushes]. rewrite (filter_image _ _ (rename_brush f) bq br _ Hb), mapM_image.
  assert (E : mapM (fun x => gather_brush O r vp (rename_brush f x)) (filter bq (eg_brushes g)) = mapM (gather_brush O q vp) (filter bq (eg_brushes g))).
  { apply mapM_ext. intros b Ib. apply filter_In in Ib. apply gather_same. intros x Hx. apply (Hf b x); tauto. }
  now rewrite E.
Qed.
Lemma surface_recover : forall bl bl' g t, (forall s, U s -> (In (f s) (bl_brush bl') <-> In s (bl_brush bl))) -> covered_geo g -> (forall s, t = Some s -> U s) ->
  mapped (option_map (rename_surface f)) (texture_surface O g bl t) (texture_surface O (rename_geo f g) bl' (option_map f t)).
Proof.
  intros bl bl' g t Hb Cv Ht. unfold texture_surface.
  rewrite (gather_all (brush_not_blacklisted bl) (brush_not_blacklisted bl') (has_texture t) (has_texture (option_map f t)) (Some (unique O)) g).
  - destruct (gather_entity O (brush_not_blacklisted bl) (has_texture t) (Some (unique O)) g) as [[vs ix]| | |]; cbn [bind]; try (apply paired_fail; discriminate). apply paired_ok. destruct vs; reflexivity.
  - intros b Ib. unfold brush_not_blacklisted. cbn [rename_brush bg_faces]. specialize (Cv b Ib). unfold covered_brush in Cv. induction (bg_faces b) as [|x l IH]; [reflexivity|]. cbn [map existsb].
    rewrite IH by (intros y Hy; apply Cv; now right). f_equal. cbn [rename_face f_texture]. destruct (f_texture x) as [s|] eqn:E; [|reflexivity]. cbn [option_map]. f_equal. apply listed_same, Hb. apply (Cv x); [now left|exact E].
  - intros b x Ib Ix. unfold has_texture. cbn [rename_face f_texture]. specialize (Cv b Ib x Ix). unfold covered_face in Cv. destruct (f_texture x) as [s|], t as [u|]; cbn [option_map opt_str_eqb]; try reflexivity. apply names_apart; auto.
Qed.
Lemma shape_recover : forall k g, collision_of O k (rename_geo f g) = collision_of O k g.
Proof.
  intros k g. destruct k; cbn [collision_of]; try reflexivity.
  - f_equal. unfold convex_collision. cbn [rename_geo eg_brushes]. f_equal. rewrite map_map. apply map_ext. intros b. cbn [rename_brush bg_center bg_faces].
    assert (V : flat_map (fun x => map vt_pos (f_vertices x)) (map (rename_face f) (bg_faces b)) = flat_map (fun x => map vt_pos (f_vertices x)) (bg_faces b)) by (generalize (bg_faces b); intros l; induction l as [|x l IH]; [reflexivity|]; cbn [map flat_map]; now rewrite IH).
    now rewrite V.
  - unfold concave_collision. rewrite (gather_all (fun _ => true) (fun _ => true) (fun _ => true) (fun _ => true)); auto.
Qed.
Lemma textures_recover : forall bl bl' ts, (forall s, U s -> (In (f s) (bl_plane bl') <-> In s (bl_plane bl))) -> (forall t, In t ts -> U t) -> unique_textures bl' (map f ts) = map f (unique_textures bl ts).
Proof.
  intros bl bl' ts H. induction ts as [|t ts IH]; intros I; [reflexivity|]. cbn [map unique_textures].
  assert (E : existsb (fun c => str_eqb c (f t)) (map f ts) = existsb (fun c => str_eqb c t) ts).
  { assert (Ht : U t) by (apply I; now left). assert (Is : forall s, In s ts -> U s) by (intros s Hs; apply I; now right). clear - Ht Is apart. induction ts as [|s ts IH]; [reflexivity|]. cbn [map existsb].
    rewrite IH by (intros u Hu; apply Is; now right). f_equal. apply names_apart; [apply Is; now left|exact Ht]. }
  assert (P : is_blacklisted_plane bl' (f t) = is_blacklisted_plane bl t) by (apply listed_same, H, I; now left).
  rewrite E, P, IH by (intros s Hs; apply I; now right). destruct (_ && _)%bool; reflexivity.
Qed.
Lemma visual_recover : forall bl bl' (e e' : entity T) g bd, (forall s, U s -> (In (f s) (bl_brush bl') <-> In s (bl_brush bl))) -> (forall s, U s -> (In (f s) (bl_plane bl') <-> In s (bl_plane bl))) ->
  e_brushes e' = map (map (recover f)) (e_brushes e) -> (forall b pl, In b (e_brushes e) -> In pl b -> U (bp_texture pl)) -> covered_geo g ->
  mapped (rename_visual f) (brush_visual O e g bd bl) (brush_visual O e' (rename_geo f g) bd bl').
Proof.
  intros bl bl' e e' g bd Hb Hp B Cu Cv. unfold brush_visual. destruct (bd_visual bd); [now apply paired_ok|].
  assert (Q : flat_map (fun b => map bp_texture b) (e_brushes e') = map f (flat_map (fun b => map bp_texture b) (e_brushes e))).
  { rewrite B. generalize (e_brushes e). intros l. induction l as [|b l IH]; [reflexivity|]. cbn [map flat_map]. rewrite IH, map_app. f_equal. rewrite !map_map. reflexivity. }
  rewrite Q. set (ts := flat_map (fun b => map bp_texture b) (e_brushes e)).
  assert (I : forall t, In t ts -> U t) by (intros t Ht; apply in_flat_map in Ht; destruct Ht as (b & Ib & Ht); apply in_map_iff in Ht; destruct Ht as (pl & <- & Ip); eauto).
  rewrite (textures_recover bl bl' ts Hp I).
  assert (E : map Some (map f (unique_textures bl ts)) ++ [None] = map (option_map f) (map Some (unique_textures bl ts) ++ [None])) by (rewrite map_app, !map_map; reflexivity).
  rewrite E. eapply paired_bind.
  - eapply mapped_mapM; [apply (image_Forall2 _ _ (option_map f) (fun o => forall s, o = Some s -> U s))|].
    + intros o Io s ->. apply in_app_or in Io. destruct Io as [Io|[|[]]]; [|discriminate]. apply in_map_iff in Io. destruct Io as (u & Eu & Iu). injection Eu as <-. apply I. clear - Iu.
      induction ts as [|t ts IH]; [destruct Iu|]. cbn [unique_textures] in Iu. destruct (_ && _)%bool in Iu; [destruct Iu as [<-|Iu]; [now left|]|]; right; auto.
    + intros o o' (-> & Ho). now apply surface_recover.
  - intros l l' ->. rewrite somes_image. destruct (filter_map (fun o => o) l) as [|s ss]; cbn [map]; now apply paired_ok.
Qed.
End Faces.

(** ** Scenes *)
Section Scene.
Context (p : platform) (f : str -> str) (U : str -> Prop) (c c' : config) (K : carries f U c c')
  (U_water : U (lit "*water0")) (U_slime : U (lit "*slime0")).
Local Notation O := (f32_num p).
Local Notation gd := (cf_game c).
Local Notation fd := (cf_forge c).

Definition renamed_parsed (e e' : entity f32) : Prop :=
  (forall k, get_property e k = get_property e' k) /\ e_brushes e' = map (map (recover f)) (e_brushes e) /\ forall b pl, In b (e_brushes e) -> In pl b -> U (bp_texture pl).
Definition renamed_data (d d' : entity f32 * entity_geo f32) : Prop :=
  renamed_parsed (fst d) (fst d') /\ snd d' = rename_geo f (snd d) /\ covered_geo U (snd d).

Lemma geometry_recover : forall es es', Forall2 renamed_parsed es es' ->
  paired (fun gs gs' => Forall2 renamed_data (combine es gs) (combine es' gs')) (build_geometry O (cf_textures c) es) (build_geometry O (cf_textures c') es').
Proof.
  intros es es' F. unfold build_geometry. induction F as [|e e' es es' P F IH]; [apply paired_ok; constructor|]. cbn [mapM].
  apply paired_bind with (R := fun g g' => renamed_data (e, g) (e', g')).
  - pose proof P as (H & B & Cu). pose proof (geo_recover O f (cf_textures c) (cf_textures c') e e' H B (fun b pl Ib Ip => carries_sizes _ _ _ _ K _ (Cu b pl Ib Ip))) as (M1 & M2).
    assert (Cv : forall g, build_entity_geo O (cf_textures c) e = Ok g -> covered_geo U g).
    { intros g Eg b Hb x Hx t Ht.
      assert (Eg' : build_geometry O (cf_textures c) [e] = Ok [g]) by (unfold build_geometry; cbn [mapM]; now rewrite Eg).
      destruct (dressed_geometry p (cf_textures c) [e] [g] Eg' e g (or_introl eq_refl) b x t Hb Hx Ht) as (e0 & b0 & pl & [<-|[]] & Ib & Ip & <-). eauto. }
    split.
    + intros g Eg. destruct (M1 g Eg) as (g' & Eg' & ->). exists (rename_geo f g). split; [exact Eg'|]. split; [exact P|]. split; [reflexivity|auto].
    + intros g' Eg'. destruct (M2 g' Eg') as (g & Eg & ->). exists g. split; [exact Eg|]. split; [exact P|]. split; [reflexivity|auto].
  - intros g g' Rg. eapply paired_bind; [exact IH|]. intros gs gs' Rs. cbv beta in Rs. apply paired_ok. cbn [combine]. now constructor.
Qed.

Lemma visual_nodes_recover : forall o (v : visual f32), map (rename_node f) (visual_nodes o v) = visual_nodes o (rename_visual f v).
Proof. intros o [|l]; reflexivity. Qed.
Lemma collision_nodes_recover : forall o (k : collision f32), map (rename_node f) (collision_nodes o k) = collision_nodes o k.
Proof. intros o [| |]; reflexivity. Qed.

Lemma entity_recover : forall data data', Forall2 renamed_data data data' -> forall fuel o d d', renamed_data d d' ->
  mapped (rename_node f) (build_entity O fuel gd fd (cf_blacklist c) data o d) (build_entity O fuel gd fd (cf_blacklist c') data' o d').
Proof.
  intros data data' F fuel. induction fuel as [|fuel IH]; intros o [e g] [e' g'] ((H & B & Cu) & Eg & Cv); [apply paired_fail; discriminate|]. cbn [fst snd] in *. subst g'. cbn [build_entity].
  eapply paired_bind with (R := fun v v' => v' = rename_visual f v).
  { unfold entity_visual. rewrite <- H. destruct (get_property e (lit "classname")) as [cl|]; [|apply paired_fail; discriminate]. destruct (find_def gd cl) as [dd|]; [|now apply paired_ok]. destruct (ed_data dd) as [q|q bd]; [now apply paired_ok|].
    apply (visual_recover O f U (carries_apart _ _ _ _ K)); auto; [apply (carries_brushes _ _ _ _ K)|apply (carries_planes _ _ _ _ K)]. }
  intros v v' ->.
  assert (Ek : entity_collision O gd e' (rename_geo f g) = entity_collision O gd e g).
  { unfold entity_collision. rewrite <- H. destruct (get_property e (lit "classname")) as [cl|]; [|reflexivity]. destruct (find_def gd cl) as [dd|]; [|reflexivity]. destruct (ed_data dd); [reflexivity|]. apply shape_recover. }
  rewrite Ek. destruct (entity_collision O gd e g) as [k| | |]; cbn [bind]; try (apply paired_fail; discriminate).
  eapply paired_bind with (R := fun ch ch' => ch' = map (rename_node f) ch).
  { apply mapped_mapM with (P := renamed_data).
    - apply filter_same; [now apply tl_same|]. intros x y ((Hx & _) & _). unfold is_child. now rewrite (Hx (lit "_tb_group")), H.
    - intros x y M. cbn [rename_geo eg_center]. now apply IH. }
  intros ch ch' ->. rewrite <- H. destruct (get_property e (lit "classname")) as [cl|] eqn:Ec; cbn [unwrap bind]; [|apply paired_fail; discriminate].
  rewrite (properties_values p fd e e' H). destruct (get_properties O fd e') as [ps| | |]; cbn [bind]; try (apply paired_fail; discriminate). apply paired_ok.
  cbn [rename_node rename_geo eg_center]. rewrite !map_app, visual_nodes_recover, collision_nodes_recover. unfold get_entity_type, get_component_class, get_application_type. now rewrite (point_values gd e e' H).
Qed.

Lemma layer_same : forall t (b : brush_geo f32), U t -> f t = t -> covered_brush U b -> in_layer t (rename_brush f b) = in_layer t b.
Proof.
  intros t b Ut Ft Cb. unfold in_layer. cbn [rename_brush bg_faces]. unfold covered_brush in Cb. induction (bg_faces b) as [|x l IH]; [reflexivity|]. cbn [map forallb].
  rewrite IH by (intros y Hy; apply Cb; now right). f_equal. specialize (Cb x (or_introl eq_refl)). unfold covered_face in Cb. cbn [rename_face f_texture]. destruct (f_texture x) as [s|]; [|reflexivity]. cbn [option_map].
  rewrite <- Ft at 1. apply (names_apart f U (carries_apart _ _ _ _ K)); auto.
Qed.
Definition renamed_layer (l l' : str * list (brush_geo f32)) : Prop :=
  fst l' = fst l /\ U (fst l) /\ f (fst l) = fst l /\ snd l' = map (rename_brush f) (snd l) /\ forall b, In b (snd l) -> covered_brush U b.
Lemma layer_recover : forall l l', renamed_layer l l' -> mapped (option_map (rename_node f)) (build_layer O gd l) (build_layer O gd l').
Proof.
  intros [t bs] [t' bs'] (Et & Ut & Ft & Eb & Cb). cbn [fst snd] in *. subst t' bs'. unfold build_layer. destruct (filter (fun l => str_eqb (wl_texture l) t) (gd_layers gd)) as [|l [|]]; [now apply paired_ok| |now apply paired_ok].
  eapply paired_bind with (R := fun v v' => v' = rename_visual f v).
  { unfold layer_visual. destruct (wl_visual l); [now apply paired_ok|].
    assert (S : mapped (option_map (rename_surface f)) (texture_surface O (EntityGeo (v3_zero O) bs) blacklist_default (Some t)) (texture_surface O (EntityGeo (v3_zero O) (map (rename_brush f) bs)) blacklist_default (Some t))).
    { rewrite <- Ft at 2. change (Some (f t)) with (option_map f (Some t)). change (EntityGeo (v3_zero O) (map (rename_brush f) bs)) with (rename_geo f (EntityGeo (v3_zero O) bs)).
      apply (surface_recover O f U (carries_apart _ _ _ _ K)); [tauto|exact Cb|]. intros s E. injection E as <-. exact Ut. }
    eapply paired_bind; [exact S|]. intros s s' ->. apply paired_ok. destruct s; reflexivity. }
  intros v v' ->. change (EntityGeo (v3_zero O) (map (rename_brush f) bs)) with (rename_geo f (EntityGeo (v3_zero O) bs)). rewrite shape_recover.
  destruct (collision_of O (wl_collision l) (EntityGeo (v3_zero O) bs)) as [k| | |]; cbn [bind]; try (apply paired_fail; discriminate).
  assert (E : visual_nodes (v3_zero O) (rename_visual f v) ++ collision_nodes (v3_zero O) k = map (rename_node f) (visual_nodes (v3_zero O) v ++ collision_nodes (v3_zero O) k)) by now rewrite map_app, visual_nodes_recover, collision_nodes_recover.
  rewrite E. destruct (visual_nodes (v3_zero O) v ++ collision_nodes (v3_zero O) k) as [|x xs]; cbn [map]; now apply paired_ok.
Qed.

Lemma layers_moved : forall L M L', Permutation L M -> Forall2 renamed_layer M L' ->
  paired (fun ls ls' => Permutation (map (option_map (rename_node f)) ls) ls') (mapM (build_layer O gd) L) (mapM (build_layer O gd) L').
Proof.
  intros L M L' P F. pose proof (mapped_mapM _ _ _ _ renamed_layer (option_map (rename_node f)) (build_layer O gd) (build_layer O gd) M L' F layer_recover) as (Q1 & Q2). split.
  - intros ls El. destruct (mapM_moved _ _ _ _ _ _ P El) as (m & Em & Pl). destruct (Q1 m Em) as (ls' & El' & ->). exists (map (option_map (rename_node f)) m). split; [exact El'|now apply Permutation_map].
  - intros ls' El'. destruct (Q2 ls' El') as (m & Em & ->). destruct (mapM_moved _ _ _ _ _ _ (Permutation_sym P) Em) as (ls & El & Pl). exists ls. split; [exact El|]. apply Permutation_map. now symmetry.
Qed.
Lemma scene_recover : forall fuel x x' data data' L M L', renamed_data x x' -> Forall2 renamed_data data data' -> Permutation L M -> Forall2 renamed_layer M L' ->
  paired (renamed_run f) (build_scene O fuel gd fd (cf_blacklist c) (x :: data) L) (build_scene O fuel gd fd (cf_blacklist c') (x' :: data') L').
Proof.
  intros fuel x x' data data' L M L' Rx F P Fl. assert (F' : Forall2 renamed_data (x :: data) (x' :: data')) by now constructor. unfold build_scene. cbn [firstn tl].
  apply paired_bind with (R := fun ws ws' => exists w, ws = [w] /\ ws' = [rename_node f w]).
  { cbn [mapM]. eapply paired_bind; [now apply entity_recover|]. intros w w' ->. apply paired_ok. eauto. }
  intros ws ws' (w & -> & ->). eapply paired_bind; [apply (layers_moved L M L' P Fl)|]. intros ls ls' Pl. cbv beta in Pl.
  eapply paired_bind with (R := fun os os' => os' = map (rename_node f) os).
  { apply mapped_mapM with (P := renamed_data); [|intros; now apply entity_recover]. apply filter_same; [exact F|]. intros y y' ((Hy & _) & _). now rewrite Hy. }
  intros os os' ->. apply paired_ok. exists w, (filter_map (fun o => o) ls), (filter_map (fun o => o) ls'), os. split; [reflexivity|]. split; [reflexivity|]. rewrite <- somes_image. now apply somes_moved.
Qed.
Lemma filter_recover : forall data data', Forall2 renamed_data data data' ->
  paired (fun r r' => exists x x' rest rest', fst r = x :: rest /\ fst r' = x' :: rest' /\ renamed_data x x' /\ Forall2 renamed_data rest rest' /\ Forall2 renamed_layer (snd r) (snd r'))
    (layer_filter data) (layer_filter data').
Proof.
  intros data data' F. unfold layer_filter. rewrite !partition_filter.
  assert (Hw : forall x y, renamed_data x y -> is_worldspawn x = is_worldspawn y) by (intros x y ((H & _) & _); unfold is_worldspawn; now rewrite H).
  assert (W : Forall2 renamed_data (filter is_worldspawn data) (filter is_worldspawn data')) by (apply filter_same; assumption).
  assert (N : Forall2 renamed_data (filter (fun x => negb (is_worldspawn x)) data) (filter (fun x => negb (is_worldspawn x)) data')).
  { apply filter_same; [exact F|]. intros x y R. now rewrite (Hw x y R). }
  destruct W as [|[e g] [e' g'] l l' R W]; [apply paired_fail; discriminate|]. destruct W as [|[e2 g2] [e2' g2'] l l' R2 W]; [|apply paired_fail; discriminate].
  destruct R as (Re & Eg & Cv). cbn [fst snd] in *. subst g'. rewrite (layers_split (eg_brushes g)), (layers_split (eg_brushes (rename_geo f g))). apply paired_ok. cbn [fst snd rename_geo eg_brushes eg_center].
  assert (In1 : forall b q, In b (filter q (eg_brushes g)) -> covered_brush U b) by (intros b q Ib; apply filter_In in Ib; apply Cv; tauto).
  assert (Wt : forall b, covered_brush U b -> in_layer water (rename_brush f b) = in_layer water b) by (intros b Cb; apply layer_same; auto; apply (carries_water _ _ _ _ K)).
  assert (Sl : forall b, covered_brush U b -> in_layer slime (rename_brush f b) = in_layer slime b) by (intros b Cb; apply layer_same; auto; apply (carries_slime _ _ _ _ K)).
  rewrite (filter_image _ _ (rename_brush f) (in_layer water) (in_layer water)) by (intros b Ib; apply Wt, Cv, Ib).
  rewrite (filter_image _ _ (rename_brush f) (fun b => negb (in_layer water b)) (fun b => negb (in_layer water b))) by (intros b Ib; f_equal; apply Wt, Cv, Ib).
  rewrite (filter_image _ _ (rename_brush f) (in_layer slime) (in_layer slime)) by (intros b Ib; apply Sl; eapply In1; exact Ib).
  rewrite (filter_image _ _ (rename_brush f) (fun b => negb (in_layer slime b)) (fun b => negb (in_layer slime b))) by (intros b Ib; f_equal; apply Sl; eapply In1; exact Ib).
  do 4 eexists. split; [reflexivity|]. split; [reflexivity|]. split.
  { split; [exact Re|]. cbn [fst snd]. split; [reflexivity|]. intros b Ib. apply filter_In in Ib. eapply In1. apply Ib. }
  split; [exact N|]. repeat constructor; cbn [fst snd]; auto.
  - apply (carries_water _ _ _ _ K).
  - intros b Ib. eapply In1; exact Ib.
  - apply (carries_slime _ _ _ _ K).
  - intros b Ib. apply filter_In in Ib. eapply In1. apply Ib.
Qed.
End Scene.

(** ** Runs *)
Section Run.
Context (p : platform) (order : hmap (list (brush_geo f32)) -> list (str * list (brush_geo f32))) (permutes : forall m, Permutation (order m) m).
Local Notation O := (f32_num p).

Lemma Forall2_turned : forall A B (Q : A -> B -> Prop) l m, Forall2 Q l m -> Forall2 (fun x y => Q y x) m l.
Proof. intros A B Q l m F. induction F; now constructor. Qed.
Lemma lines_recovered : forall f b b' pls pls', Forall2 (renamed_line p f) b b' -> Forall2 (reads_as p) b pls -> Forall2 (reads_as p) b' pls' -> pls' = map (recover f) pls.
Proof.
  intros f b b' pls pls' F. revert pls pls'. induction F as [|l l' b b' (pl & R & R') F IH]; intros pls pls' G G'; inversion G; inversion G'; subst; [reflexivity|]. cbn [map]. f_equal; [|auto].
  match goal with Q : reads_as p l ?x, Q' : reads_as p l' ?y |- ?y = recover f ?x => rewrite <- (read_unique p _ _ _ R Q); symmetry; exact (read_unique p _ _ _ R' Q') end.
Qed.
Lemma entity_renamed : forall f d d' e e', renamed_entity p f d d' -> entity_agrees (reads_as p) d e -> entity_agrees (reads_as p) d' e' ->
  (forall k, get_property e k = get_property e' k) /\ e_brushes e' = map (map (recover f)) (e_brushes e).
Proof.
  intros f d d' e e' (Hv & F) (G1 & B1) (G2 & B2). split; [intros k; now rewrite G1, G2, Hv|]. clear - F B1 B2. revert F B1 B2. generalize (doc_brushes d) (doc_brushes d') (e_brushes e) (e_brushes e'). intros l l' m m' F. revert m m'.
  induction F as [|b b' l l' P F IH]; intros m m' G G'; inversion G; inversion G'; subst; [reflexivity|]. cbn [map]. f_equal; [eapply lines_recovered; eauto|auto].
Qed.
Lemma renamed_readable : forall f d d', Forall2 (renamed_entity p f) d d' ->
  (forall e b l, In e d -> In b (doc_brushes e) -> In l b -> exists ws pl, written ws l /\ plane_words (parse_f32 (p_modern_parse p)) (to_lowercase p) ws pl)
  /\ (forall e b l, In e d' -> In b (doc_brushes e) -> In l b -> exists ws pl, written ws l /\ plane_words (parse_f32 (p_modern_parse p)) (to_lowercase p) ws pl).
Proof.
  intros f d d' F. split; intros e b l He Hb Hl.
  - destruct (Forall2_in_l _ _ _ _ _ _ F He) as (e' & _ & _ & Fb). destruct (Forall2_in_l _ _ _ _ _ _ Fb Hb) as (b' & _ & G). destruct (Forall2_in_l _ _ _ _ _ _ G Hl) as (l' & _ & pl & (ws & W) & _). eauto.
  - destruct (Forall2_in_r _ _ _ _ _ _ F He) as (e' & _ & _ & Fb). destruct (Forall2_in_r _ _ _ _ _ _ Fb Hb) as (b' & _ & G). destruct (Forall2_in_r _ _ _ _ _ _ G Hl) as (l' & _ & pl & _ & (ws & W)). eauto.
Qed.
Theorem run_renamed : forall fuel f c c' text text' d d', file_text (cf_map c) text -> file_text (cf_map c') text' -> text_document p text d -> text_document p text' d' ->
  Forall2 (renamed_entity p f) d d' -> carries f (texture_name p d) c c' -> paired (renamed_run f) (run p order fuel c) (run p order fuel c').
Proof.
  intros fuel f c c' text text' d d' Ft Ft' (ls & ts & L & Kt & Sg) (ls' & ts' & L' & Kt' & Sg') F K. rewrite !run_split. apply read_ok in Ft, Ft'. rewrite Ft, Ft'. cbn [bind].
  destruct (renamed_readable f d d' F) as (R & R'). destruct (load_doc p text ls ts d L Kt Sg R) as (ps & es & Lo & Ag). destruct (load_doc p text' ls' ts' d' L' Kt' Sg' R') as (ps' & es' & Lo' & Ag').
  rewrite Lo, Lo'. cbn [bind].
  assert (G : Forall2 (renamed_parsed f (texture_name p d)) es es').
  { assert (X : forall D, incl D d -> forall D' es es', Forall2 (renamed_entity p f) D D' -> Forall2 (entity_agrees (reads_as p)) D es -> Forall2 (entity_agrees (reads_as p)) D' es' -> Forall2 (renamed_parsed f (texture_name p d)) es es').
    { clear. intros D. induction D as [|x D IH]; intros I D' es es' F A A'; inversion F; subst; inversion A; subst; inversion A'; subst; constructor.
      - match goal with Q : renamed_entity p f x ?y, Q1 : entity_agrees _ x ?e, Q2 : entity_agrees _ ?y ?e' |- _ => destruct (entity_renamed f x y e e' Q Q1 Q2) as (Hp & Hb); destruct Q1 as (_ & B1) end.
        split; [exact Hp|]. split; [exact Hb|]. intros b pl Ib Ip. right. right. destruct (Forall2_in_r _ _ _ _ _ _ B1 Ib) as (db & Idb & Fb). destruct (Forall2_in_r _ _ _ _ _ _ Fb Ip) as (l & Il & Rl).
        exists x, db, l, pl. repeat split; auto. apply I. now left.
      - eapply IH; eauto. intros q Hq. apply I. now right. }
    apply (X d (fun q Hq => Hq) d' es es' F Ag Ag'). }
  eapply paired_bind; [apply (geometry_recover p f _ c c' K es es' G)|]. intros gs gs' Fd. cbv beta in Fd.
  assert (Uw : texture_name p d (lit "*water0")) by now left. assert (Us : texture_name p d (lit "*slime0")) by (right; now left).
  eapply paired_bind; [apply (filter_recover f _ c c' K Uw Us _ _ Fd)|]. intros [dt ly] [dt' ly'] (x & x' & rest & rest' & E & E' & Rx & Rr & Rl). cbn [fst snd] in *. subst dt dt'.
  rewrite <- (carries_forge _ _ _ _ K), <- (carries_game _ _ _ _ K).
  destruct (Permutation_Forall2 (Permutation_sym (permutes ly')) (Forall2_turned _ _ _ _ _ Rl)) as (mid & Pm & Fm).
  eapply (scene_recover p f _ c c' K); [exact Rx|exact Rr|etransitivity; [apply permutes|exact Pm]|apply Forall2_turned; exact Fm].
Qed.
End Run.
