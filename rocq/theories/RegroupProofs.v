(** The numbers of groups are only names: lemmas for C141. *)
From Verif Require Import Prelude F32 Text MapModel GeoModel LayerModel GameDataModel SceneModel RunModel
  GatherSpec TextSpec LayerSpec TreeSpec PropertySpec MapSpec Utf8Spec RunSpec InvarianceSpec PointsSpec RegroupSpec
  BaseProofs TextProofs TokenProofs MapProofs GeoProofs LayerProofs NodeProofs RunProofs InvarianceProofs PointsProofs ShuffleProofs ReworkProofs.

Lemma relabelled_refl : forall T (n : node T), relabelled n n.
Proof.
  intros T. fix IH 1. intros [o a ch|o v|o k]; [|constructor|constructor]. apply RlActor; try reflexivity. induction ch as [|n ch J]; constructor; [apply IH|exact J].
Qed.
Lemma relabelled_all : forall T (l : list (node T)), Forall2 relabelled l l.
Proof. intros T l. induction l; constructor; auto using relabelled_refl. Qed.

(** ** Properties *)
Definition same_entity {T} (e e' : entity T) : Prop :=
  e_brushes e = e_brushes e' /\ (forall k, ~ internal_integer k -> get_property e k = get_property e' k)
  /\ (forall k, internal_integer k -> same_form (get_property e k) (get_property e' k)).
Definition same_map {V} (m m' : hmap V) : Prop :=
  (forall k, ~ internal_integer k -> hget m k = hget m' k) /\ (forall k, internal_integer k -> (hget m k = None <-> hget m' k = None)).

Lemma same_map_hput : forall V (m m' : hmap V) k v v', same_map m m' -> (~ internal_integer k -> v = v') -> same_map (hput m k v) (hput m' k v').
Proof.
  intros V m m' k v v' (A & B) H. split; intros j Hj; rewrite !hget_hput; destruct (str_eqb j k) eqn:E; auto.
  - apply str_eqb_eq in E. subst. now rewrite H.
  - split; discriminate.
Qed.
Lemma not_internal : forall k, str_eqb k (lit "_tb_id") = false -> str_eqb k (lit "_tb_group") = false -> ~ internal_integer k.
Proof. intros k A B [->| ->]; [vm_compute in A|vm_compute in B]; discriminate. Qed.

Section Scene.
Context (p : platform) (gd : game_data f32) (fd : forge_data f32) (bl : blacklist).
Local Notation O := (f32_num p).

Lemma integer_same : forall (e e' : entity f32) k m m', internal_integer k -> same_entity e e' -> same_map m m' ->
  paired same_map (add_internal_integer e k m) (add_internal_integer e' k m').
Proof.
  intros e e' k m m' I (_ & _ & H) M. destruct (H k I) as (N & F). unfold add_internal_integer.
  destruct (get_property e k) as [s|], (get_property e' k) as [s'|]; [| | |now apply paired_ok].
  - specialize (F s s' eq_refl eq_refl). destruct (parse_i32 s) as [z|] eqn:E, (parse_i32 s') as [z'|] eqn:E'; cbn [unwrap bind].
    + apply paired_ok. apply same_map_hput; [exact M|]. now intros X.
    + apply parse_i32_iff in E. destruct F as (F & _). destruct F as (z' & E2); [eauto|]. apply parse_i32_iff in E2. congruence.
    + apply parse_i32_iff in E'. destruct F as (_ & F). destruct F as (z & E2); [eauto|]. apply parse_i32_iff in E2. congruence.
    + apply paired_fail; discriminate.
  - destruct N as (_ & N). now discriminate N.
  - destruct N as (N & _). now discriminate N.
Qed.
Lemma string_same : forall (e e' : entity f32) k m m', ~ internal_integer k -> same_entity e e' -> same_map m m' -> same_map (add_internal_string e k m) (add_internal_string e' k m').
Proof. intros e e' k m m' I (_ & H & _) M. unfold add_internal_string. rewrite (H k I). destruct (get_property e' k); [now apply same_map_hput|exact M]. Qed.
Lemma class_same : forall e e' : entity f32, same_entity e e' -> get_property e (lit "classname") = get_property e' (lit "classname").
Proof. intros e e' (_ & H & _). apply H. now apply not_internal. Qed.
Lemma properties_same : forall e e' : entity f32, same_entity e e' -> paired same_map (get_properties O fd e) (get_properties O fd e').
Proof.
  intros e e' S. unfold get_properties. rewrite (class_same e e' S). destruct (find_forge fd _) as [fe|]; [|apply paired_ok; now split].
  eapply paired_bind; [apply integer_same; [now left|exact S|now split]|]. intros m m' M. eapply paired_bind; [apply integer_same; [now right|exact S|exact M]|]. intros m1 m1' M1.
  apply paired_ok. cbv zeta.
  assert (M2 : same_map (add_internal_string e (lit "_tb_name") (add_internal_string e (lit "_tb_type") m1)) (add_internal_string e' (lit "_tb_name") (add_internal_string e' (lit "_tb_type") m1'))).
  { apply string_same; [now apply not_internal|exact S|]. apply string_same; [now apply not_internal|exact S|exact M1]. }
  revert M2. generalize (add_internal_string e (lit "_tb_name") (add_internal_string e (lit "_tb_type") m1)) (add_internal_string e' (lit "_tb_name") (add_internal_string e' (lit "_tb_type") m1')).
  induction (fe_properties fe) as [|fp l IH]; intros a b M2; [exact M2|]. cbn [fold_left]. apply IH. apply same_map_hput; [exact M2|]. intros N. destruct S as (_ & S & _). now rewrite (S _ N).
Qed.

(** ** Geometry *)
Lemma face_renumbered : forall tx (e e' : entity f32) b pl, same_entity e e' -> build_face O tx e b pl = build_face O tx e' b pl.
Proof.
  intros tx e e' b pl (_ & A & _). unfold build_face.
  assert (Ph : is_phong e = is_phong e') by (unfold is_phong; rewrite A; [reflexivity|now apply not_internal]). rewrite Ph.
  assert (V : plane_vertices O (hget tx (bp_texture pl)) e b pl = plane_vertices O (hget tx (bp_texture pl)) e' b pl).
  { unfold plane_vertices. f_equal. apply mapM_ext. intros x _. unfold build_plane_vertex, vertex_normal. rewrite Ph, (A (lit "_phong_angle")) by now apply not_internal. reflexivity. }
  rewrite V. reflexivity.
Qed.
Lemma geo_renumbered : forall tx (e e' : entity f32), same_entity e e' -> build_entity_geo O tx e = build_entity_geo O tx e'.
Proof.
  intros tx e e' S. pose proof S as (B & A & _). unfold build_entity_geo. rewrite <- B.
  assert (E : mapM (build_brush O tx e) (e_brushes e) = mapM (build_brush O tx e') (e_brushes e)).
  { apply mapM_ext. intros b _. unfold build_brush. assert (F : mapM (build_face O tx e b) b = mapM (build_face O tx e' b) b) by (apply mapM_ext; intros pl _; now apply face_renumbered). now rewrite F. }
  specialize (A (lit "origin")). unfold get_property in A. rewrite E, A by now apply not_internal. reflexivity.
Qed.
Lemma geometry_renumbered : forall tx es es', Forall2 same_entity es es' -> build_geometry O tx es = build_geometry O tx es'.
Proof. intros tx es es' F. unfold build_geometry. induction F as [|e e' es es' S F IH]; [reflexivity|]. cbn [mapM]. now rewrite (geo_renumbered tx e e' S), IH. Qed.

(** ** Scenes *)
Section Pairs.
Context (Z : list (entity f32 * entity f32)) (Z_same : forall e e', In (e, e') Z -> same_entity e e')
  (Z_child : forall e e' h h', In (e, e') Z -> In (h, h') Z -> is_child h e = is_child h' e').
Definition matching (d d' : entity f32 * entity_geo f32) : Prop := In (fst d, fst d') Z /\ snd d = snd d'.

Lemma entity_relabelled : forall data data', Forall2 matching data data' -> forall fuel o d d', matching d d' ->
  paired relabelled (build_entity O fuel gd fd bl data o d) (build_entity O fuel gd fd bl data' o d').
Proof.
  intros data data' F fuel. induction fuel as [|fuel IH]; intros o [e g] [e' g'] (I & Eg); [apply paired_fail; discriminate|]. cbn [fst snd] in *. subst g'.
  pose proof (Z_same e e' I) as S. pose proof (class_same e e' S) as Cl. cbn [build_entity].
  assert (Ev : entity_visual O gd bl e g = entity_visual O gd bl e' g).
  { unfold entity_visual. rewrite Cl. destruct (get_property e' (lit "classname")) as [c|]; [|reflexivity]. destruct (find_def gd c) as [[]|]; try reflexivity.
    unfold brush_visual. destruct S as (B & _). rewrite ?B. reflexivity. }
  assert (Ek : entity_collision O gd e g = entity_collision O gd e' g) by (unfold entity_collision; now rewrite Cl).
  rewrite Ev, Ek. destruct (entity_visual O gd bl e' g) as [v| | |]; cbn [bind]; try (apply paired_fail; discriminate).
  destruct (entity_collision O gd e' g) as [k| | |]; cbn [bind]; try (apply paired_fail; discriminate).
  eapply paired_bind.
  { apply paired_mapM with (P := matching) (Q := relabelled).
    - apply filter_same; [now apply tl_same|]. intros x y (Ix & _). now apply Z_child.
    - intros x y M. now apply IH. }
  intros ch ch' Rch. rewrite Cl. destruct (get_property e' (lit "classname")) as [c|] eqn:Ec; cbn [unwrap bind]; [|apply paired_fail; discriminate].
  eapply paired_bind; [apply properties_same; exact S|]. intros m m' (A & B). apply paired_ok. apply RlActor; cbn [a_name a_type a_component a_application a_properties]; auto.
  - unfold get_entity_type, entity_point. now rewrite Cl, Ec.
  - unfold get_component_class, entity_point. now rewrite Cl, Ec.
  - unfold get_application_type, entity_point. now rewrite Cl, Ec.
  - repeat apply Forall2_app; auto using relabelled_all.
Qed.
Lemma scene_relabelled : forall fuel data data' layers, Forall2 matching data data' ->
  paired (Forall2 relabelled) (build_scene O fuel gd fd bl data layers) (build_scene O fuel gd fd bl data' layers).
Proof.
  intros fuel data data' layers F. unfold build_scene. eapply paired_bind.
  { apply paired_mapM with (P := matching) (Q := relabelled); [|intros x y M; now apply entity_relabelled]. destruct F as [|x y l l' M F]; cbn [firstn]; repeat constructor; apply M. }
  intros w w' Rw. destruct (mapM (build_layer O gd) layers) as [ls| | |]; cbn [bind]; try (apply paired_fail; discriminate). eapply paired_bind.
  { apply paired_mapM with (P := matching) (Q := relabelled); [|intros x y M; now apply entity_relabelled]. apply filter_same; [now apply tl_same|].
    intros x y (I & _). destruct (Z_same _ _ I) as (_ & _ & H). destruct (H (lit "_tb_group") (or_intror eq_refl)) as ((N1 & N2) & _).
    destruct (get_property (fst x) (lit "_tb_group")), (get_property (fst y) (lit "_tb_group")); try reflexivity; [now discriminate N2|now discriminate N1]. }
  intros r r' Rr. apply paired_ok. repeat apply Forall2_app; auto using relabelled_all.
Qed.
Lemma filter_relabelled : forall data data', Forall2 matching data data' ->
  paired (fun a b => Forall2 matching (fst a) (fst b) /\ snd a = snd b) (layer_filter data) (layer_filter data').
Proof.
  intros data data' F. unfold layer_filter. rewrite !partition_filter.
  assert (Q : forall x y, matching x y -> is_worldspawn x = is_worldspawn y) by (intros x y (I & _); unfold is_worldspawn; now rewrite (class_same _ _ (Z_same _ _ I))).
  assert (W : Forall2 matching (filter is_worldspawn data) (filter is_worldspawn data')) by now apply filter_same.
  assert (N : Forall2 matching (filter (fun x => negb (is_worldspawn x)) data) (filter (fun x => negb (is_worldspawn x)) data')) by (apply filter_same; [exact F|]; intros x y M; now rewrite (Q x y M)).
  destruct W as [|[e g] [e' g'] l l' (I & Eg) W]; [apply paired_fail; discriminate|]. cbn [fst snd] in *. subst g'. destruct W as [|[e2 g2] [e2' g2'] l l' M W]; [|apply paired_fail; discriminate].
  destruct (split_layers layer_textures (eg_brushes g) []) as [rest ls]. apply paired_ok. cbn [fst snd]. split; [|reflexivity]. constructor; [now split|exact N].
Qed.
End Pairs.
End Scene.

(** ** Runs *)
Section Run.
Context (p : platform) (order : hmap (list (brush_geo f32)) -> list (str * list (brush_geo f32))).
Local Notation O := (f32_num p).

Lemma regrouped_sym : forall d d', regrouped d d' -> regrouped d' d.
Proof.
  intros d d' (F & L). split.
  - clear L. induction F as [|x y d d' (A & B & C) F IH]; constructor; [|exact IH]. split; [auto|]. split; [intros k Hk; symmetry; auto|]. intros k Hk. destruct (C k Hk) as (N & I). split; [tauto|].
    intros s s' Hs Hs'. specialize (I s' s Hs' Hs). tauto.
  - intros i j e e' h h' A B C D. specialize (L i j e' e h' h B A D C). tauto.
Qed.
Lemma loaded_regrouped : forall text text' d d' ps es, text_document p text d -> text_document p text' d' -> regrouped d d' -> load p text = Ok (ps, es) -> exists ps' es', load p text' = Ok (ps', es').
Proof.
  intros text text' d d' ps es Td (ls' & ts' & L' & K' & Sg') (F & _) El. pose proof (agreed_readable p d es (loaded_document p text d ps es Td El)) as R.
  destruct (load_doc p text' ls' ts' d' L' K' Sg') as (ps' & es' & Lo & _); [|eauto].
  intros e b l He Hb Hl. destruct (Forall2_in_r _ _ _ _ _ _ F He) as (x & Ix & B & _). apply (R x b l Ix); [now rewrite B|exact Hl].
Qed.

Definition agreed d (e : entity f32) : Prop := entity_agrees (reads_as p) d e.
Lemma entity_renumbered : forall d d' e e', renumbered d d' -> agreed d e -> agreed d' e' -> same_entity e e'.
Proof.
  intros d d' e e' (B & V & I) (G & Bs) (G' & Bs'). split; [|split].
  - rewrite <- B in Bs'. eapply Forall2_functional; [|exact Bs|exact Bs']. intros; eapply Forall2_functional; eauto. apply read_unique.
  - intros k Hk. now rewrite G, G', V.
  - intros k Hk. rewrite G, G'. now apply I.
Qed.
Lemma child_linked : forall d h e he, agreed d e -> agreed h he -> is_child he e = true <-> linked d h.
Proof.
  intros d h e he (G & _) (H & _). unfold is_child, linked. rewrite G, H. destruct (doc_value d (lit "_tb_group")) as [g|], (doc_value h (lit "_tb_id")) as [i|]; cbn [opt_str_eqb].
  - rewrite str_eqb_eq. split; [intros ->; eauto|]. intros (x & A & B). congruence.
  - split; [discriminate|]. intros (x & _ & B). discriminate.
  - split; [discriminate|]. intros (x & A & _). discriminate.
  - split; [discriminate|]. intros (x & A & _). discriminate.
Qed.
Lemma combine_nth : forall A B (l : list A) (m : list B) a b, In (a, b) (combine l m) -> exists i, nth_error l i = Some a /\ nth_error m i = Some b.
Proof.
  intros A B l. induction l as [|x l IH]; intros [|y m] a b I; cbn [combine] in I; try destruct I as [E|I]; try contradiction.
  - injection E as -> ->. exists 0. now split.
  - destruct (IH m a b I) as (i & Hi). now exists (S i).
Qed.
Lemma Forall2_nth : forall A B (Q : A -> B -> Prop) l m, Forall2 Q l m -> forall i b, nth_error m i = Some b -> exists a, nth_error l i = Some a /\ Q a b.
Proof. intros A B Q l m F. induction F as [|x y l m H F IH]; intros [|i] b E; try discriminate; cbn in *; [injection E as <-; eauto|auto]. Qed.

Theorem run_regrouped : forall fuel c c' text text' d d', same_but_map c c' -> file_text (cf_map c) text -> file_text (cf_map c') text' ->
  text_document p text d -> text_document p text' d' -> regrouped d d' ->
  paired (Forall2 relabelled) (run p order fuel c) (run p order fuel c').
Proof.
  intros fuel c c' text text' d d' (E1 & E2 & E3 & E4) Ft Ft' Td Td' Rg. apply read_ok in Ft, Ft'. rewrite !run_split, Ft, Ft', E1, E2, E3, E4. cbn [bind].
  destruct (load p text) as [[ps es]| | |] eqn:L.
  2-4: apply paired_fail; [cbn [bind]; discriminate|]; intros y E; apply bind_ok in E; destruct E as ([ps' es'] & L' & _);
    destruct (loaded_regrouped text' text d' d ps' es' Td' Td (regrouped_sym _ _ Rg) L') as (ps & es & X); congruence.
  destruct (loaded_regrouped text text' d d' ps es Td Td' Rg L) as (ps' & es' & L'). rewrite L'. cbn [bind].
  pose proof (loaded_document p text d ps es Td L) as Ag. pose proof (loaded_document p text' d' ps' es' Td' L') as Ag'. destruct Rg as (F & Ln).
  assert (S : Forall2 same_entity es es').
  { clear - F Ag Ag'. revert es es' Ag Ag'. induction F as [|x y d d' P F IH]; intros es es' G G'; inversion G; inversion G'; subst; constructor; [eapply entity_renumbered; eauto|auto]. }
  rewrite (geometry_renumbered p (cf_textures c') es es' S). destruct (build_geometry O (cf_textures c') es') as [gs| | |]; cbn [bind]; try (apply paired_fail; discriminate).
  set (Z := combine es es').
  assert (Zs : forall e e', In (e, e') Z -> same_entity e e').
  { intros e e' I. destruct (combine_nth _ _ _ _ _ _ I) as (i & A & B). destruct (Forall2_nth _ _ _ _ _ S i e' B) as (x & A' & Hx). congruence. }
  assert (Zc : forall e e' h h', In (e, e') Z -> In (h, h') Z -> is_child h e = is_child h' e').
  { intros e e' h h' I J. destruct (combine_nth _ _ _ _ _ _ I) as (i & A & B), (combine_nth _ _ _ _ _ _ J) as (j & C & D).
    destruct (Forall2_nth _ _ _ _ _ Ag _ _ A) as (x & Nx & Hx), (Forall2_nth _ _ _ _ _ Ag' _ _ B) as (x' & Nx' & Hx'), (Forall2_nth _ _ _ _ _ Ag _ _ C) as (y & Ny & Hy), (Forall2_nth _ _ _ _ _ Ag' _ _ D) as (y' & Ny' & Hy').
    pose proof (Ln i j x x' y y' Nx Nx' Ny Ny') as Q. rewrite <- (child_linked x y e h Hx Hy), <- (child_linked x' y' e' h' Hx' Hy') in Q.
    destruct (is_child h e), (is_child h' e'); try reflexivity; [symmetry; now apply Q|now apply Q]. }
  assert (M : Forall2 (matching Z) (combine es gs) (combine es' gs)).
  { assert (X : forall z, incl (combine es es') z -> Forall2 (matching z) (combine es gs) (combine es' gs)); [|now apply X].
    clear - S. intros z. revert gs. induction S as [|x y es es' H S IH]; intros [|g gs] I; cbn [combine]; try constructor.
    - split; [apply I; now left|reflexivity].
    - apply IH. intros q Hq. apply I. now right. }
  eapply paired_bind; [apply (filter_relabelled Z Zs _ _ M)|]. intros [dt ly] [dt' ly'] (Md & El). cbn [fst snd] in *. subst ly'. now apply (scene_relabelled p _ _ _ Z Zs Zc).
Qed.

Lemma renamed_regrouped : forall f d d', Forall2 (renamed f) d d' ->
  (forall s t, group_name d s -> group_name d t -> f s = f t -> s = t) ->
  (forall s, group_name d s -> ((exists z, integer_text s z) <-> (exists z, integer_text (f s) z))) -> regrouped d d'.
Proof.
  intros f d d' F Inj Int. split.
  - assert (X : forall D : doc, incl D d -> forall D', Forall2 (renamed f) D D' -> Forall2 renumbered D D'); [|now apply X].
    intros D. induction D as [|x D IH]; intros I D' G; inversion G; subst; constructor; [|apply IH; [|assumption]; intros q Hq; apply I; now right].
    match goal with H : renamed f x _ |- _ => destruct H as (B & V & W) end. split; [exact B|]. split; [exact V|]. intros k Hk. rewrite (W k Hk). destruct (doc_value x k) as [s|] eqn:E; cbn [option_map].
    + split; [split; discriminate|]. intros a b Ea Eb. injection Ea as <-. injection Eb as <-. apply Int. exists x, k. repeat split; auto. apply I. now left.
    + split; [tauto|]. intros a b Ea. discriminate.
  - intros i j e e' h h' A B C D. destruct (Forall2_nth _ _ _ _ _ F _ _ B) as (x & Ex & _ & _ & Wx), (Forall2_nth _ _ _ _ _ F _ _ D) as (y & Ey & _ & _ & Wy).
    assert (x = e) by congruence. assert (y = h) by congruence. subst. unfold linked. rewrite (Wx (lit "_tb_group") (or_intror eq_refl)), (Wy (lit "_tb_id") (or_introl eq_refl)).
    apply nth_error_In in A, C. destruct (doc_value e (lit "_tb_group")) as [s|] eqn:Es, (doc_value h (lit "_tb_id")) as [t|] eqn:Et; cbn [option_map].
    + split; intros (g & P & Q).
      * exists (f s). split; congruence.
      * injection P as P. injection Q as Q. assert (s = t) as -> by (apply Inj; [exists e, (lit "_tb_group"); repeat split; auto; now right|exists h, (lit "_tb_id"); repeat split; auto; now left|congruence]). eauto.
    + split; intros (g & P & Q); discriminate.
    + split; intros (g & P & Q); discriminate.
    + split; intros (g & P & Q); discriminate.
Qed.
End Run.
