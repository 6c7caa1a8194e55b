(** Mesh surfaces and collision shapes: lemmas for C30 to C35. *)
From Coq Require Import Sorted Permutation FinFun.
From Verif Require Import Prelude F32 Text MapModel GeoModel LayerModel GameDataModel SceneModel
  GatherSpec SurfaceSpec BaseProofs GatherProofs.

Lemma listed_existsb : forall t l, existsb (str_eqb t) l = listed t l.
Proof.
  intros t l. unfold listed. destruct (in_dec str_dec t l) as [H|H].
  - apply existsb_exists. exists t. split; [exact H|apply str_eqb_refl].
  - destruct (existsb (str_eqb t) l) eqn:E; [|reflexivity]. exfalso. apply H.
    apply existsb_exists in E. destruct E as (x & Hx & Ex). apply str_eqb_eq in Ex. now subst.
Qed.

Lemma listed_In : forall t l, listed t l = true <-> In t l.
Proof. intros t l. unfold listed. destruct (in_dec str_dec t l); split; auto; discriminate. Qed.

Section Surfaces.
Context {T : Type} (O : num T).

Lemma drawn_brush_model : forall bl (b : brush_geo T), brush_not_blacklisted bl b = drawn_brush bl b.
Proof.
  intros bl b. unfold brush_not_blacklisted, drawn_brush. induction (bg_faces b) as [|f l IH]; [reflexivity|].
  simpl. rewrite IH. unfold drawn_face, is_blacklisted_brush. destruct (f_texture f); [|reflexivity].
  now rewrite listed_existsb.
Qed.

Lemma with_texture_model : forall t (f : face T), has_texture t f = with_texture t f.
Proof.
  intros t f. unfold has_texture, with_texture. destruct (opt_dec (f_texture f) t) as [H|H].
  - now apply opt_str_eqb_eq.
  - destruct (opt_str_eqb (f_texture f) t) eqn:E; [|reflexivity]. apply opt_str_eqb_eq in E. congruence.
Qed.

Lemma with_texture_true : forall t (f : face T), with_texture t f = true <-> f_texture f = t.
Proof. intros t f. unfold with_texture. destruct (opt_dec (f_texture f) t); split; auto; discriminate. Qed.

Lemma gather_brush_ext : forall fp fp' vp (b : brush_geo T), (forall f, fp f = fp' f) ->
  gather_brush O fp vp b = gather_brush O fp' vp b.
Proof. intros fp fp' vp b H. unfold gather_brush. rewrite (filter_ext _ _ H). reflexivity. Qed.

Lemma gather_entity_ext : forall bp bp' fp fp' vp (g : entity_geo T), (forall b, bp b = bp' b) -> (forall f, fp f = fp' f) ->
  gather_entity O bp fp vp g = gather_entity O bp' fp' vp g.
Proof.
  intros bp bp' fp fp' vp g H H'. unfold gather_entity. rewrite (filter_ext _ _ H).
  rewrite (mapM_ext _ _ (gather_brush O fp vp) (gather_brush O fp' vp)); [reflexivity|].
  intros b _. now apply gather_brush_ext.
Qed.

Lemma vertex_refines : forall a b : vertex T, vertex_eq O a b -> vertex_pos_eq O a b.
Proof. intros a b H. apply H. Qed.

Lemma selected_in_bounds : forall bp fp (g : entity_geo T), geometry_in_bounds g ->
  forall f, In f (selected_faces bp fp g) -> in_bounds f.
Proof.
  intros bp fp g H f Hf. unfold selected_faces in Hf. apply in_flat_map in Hf. destruct Hf as (b & Hb & Hf).
  apply filter_In in Hb. apply filter_In in Hf. destruct Hb, Hf. eapply H; eauto.
Qed.

Lemma restriction_nil : forall (R : vertex T -> vertex T -> Prop) vs, restriction (first_of_equals R vs) vs [] -> vs = [].
Proof.
  intros R [|v vs] (sel & _ & I & E); [reflexivity|]. exfalso.
  assert (sel = []) by (destruct sel; [reflexivity|discriminate]). subst sel.
  apply (proj2 (I 0)). simpl. split; [lia|]. exists v. split; [reflexivity|]. intros; lia.
Qed.

Lemma restriction_In : forall A P (l out : list A) x, restriction P l out -> In x out ->
  exists i, nth_error l i = Some x /\ P i.
Proof.
  intros A P l out x (sel & _ & I & E) Hx. apply in_map with (f := Some) in Hx. rewrite <- E in Hx.
  apply in_map_iff in Hx. destruct Hx as (i & Ei & Hi). exists i. split; [exact Ei|]. now apply I.
Qed.

Lemma restriction_has : forall A (P : nat -> Prop) (l out : list A) i x, restriction P l out -> nth_error l i = Some x -> P i -> In x out.
Proof.
  intros A P l out i x (sel & _ & I & E) Hx Hp.
  assert (Hi : In i sel). { apply I. split; [apply nth_error_Some; congruence|exact Hp]. }
  apply in_map with (f := nth_error l) in Hi. rewrite E, Hx in Hi. apply in_map_iff in Hi.
  destruct Hi as (y & Ey & Hy). congruence.
Qed.

Section Laws.
Hypothesis laws : eq_laws O.

(** Everything about one surface. *)
Theorem surface_full : forall g bl t, geometry_in_bounds g ->
  exists os, texture_surface O g bl t = Ok os /\
  exists kept resolved,
    Forall2 (fun b out => restriction (first_of_equals (vertex_eq O) (face_vertices (brush_faces (with_texture t) b)))
                            (face_vertices (brush_faces (with_texture t) b)) out)
      (filter (drawn_brush bl) (eg_brushes g)) kept
    /\ Forall2 (fun b rs => Forall2 (resolves O (vertex_eq O) (face_vertices (brush_faces (with_texture t) b)))
                               (corner_positions (brush_faces (with_texture t) b)) rs)
         (filter (drawn_brush bl) (eg_brushes g)) resolved
    /\ match os with
       | None => concat kept = []
       | Some s => concat kept <> [] /\ s_texture s = t /\ describes s (concat kept)
                   /\ map (nth_error (concat kept)) (s_indices s) = map Some (concat resolved)
       end.
Proof.
  intros g bl t H.
  destruct (gather_entity_full O laws (same_vertex O) (vertex_eq O) (eqb_vertex O) vertex_refines
    (drawn_brush bl) (with_texture t) g (selected_in_bounds _ _ g H)) as (kl & rs & vs & ix & E & -> & F1 & M & F2).
  unfold texture_surface. unfold unique.
  rewrite (gather_entity_ext _ _ _ _ _ g (drawn_brush_model bl) (with_texture_model t)), E. cbn [bind].
  eexists. split; [reflexivity|]. exists kl, rs. split; [exact F1|]. split; [exact F2|].
  destruct (concat kl) as [|v vs] eqn:C; [reflexivity|]. split; [discriminate|]. split; [reflexivity|].
  rewrite <- C in *. split; [|exact M]. repeat split; simpl; try apply sequence_some.
Qed.

Lemma draws_intro : forall (vs : list (vertex T)) ix faces,
  Forall (fun i => i < length vs) ix ->
  Forall2 (fun i c => exists v w, nth_error vs i = Some v /\ c = Some w /\ (v = w \/ vertex_pos_eq O v w))
         ix (flat_map face_corners faces) ->
  draws O (map vt_pos vs) ix faces.
Proof.
  intros vs ix faces B F. split; [|split].
  - apply Forall2_length in F. rewrite F. clear. induction faces as [|f l IH]; [reflexivity|]. simpl. rewrite app_length, IH.
    f_equal. unfold face_corners, corners. apply map_length.
  - rewrite map_length. exact B.
  - eapply Forall2_impl; [|exact F]. intros i c (v & w & E & -> & K). exists (vt_pos v), w.
    rewrite nth_error_map, E. split; [reflexivity|]. split; [reflexivity|]. destruct K as [->|K]; auto.
Qed.

Theorem surface_draws : forall g bl t s, geometry_in_bounds g -> texture_surface O g bl t = Ok (Some s) ->
  draws O (s_vertices s) (s_indices s) (selected_faces (drawn_brush bl) (with_texture t) g).
Proof.
  intros g bl t s H E. unfold texture_surface, unique in E.
  destruct (gather_entity_spec O laws (same_vertex O) (vertex_eq O) (eqb_vertex O) vertex_refines
    (drawn_brush bl) (with_texture t) g (selected_in_bounds _ _ g H)) as (vs & ix & G & B & F).
  rewrite (gather_entity_ext _ _ _ _ _ g (drawn_brush_model bl) (with_texture_model t)), G in E. cbn [bind] in E.
  destruct vs as [|v vs]; [discriminate|]. injection E as <-. simpl s_vertices. simpl s_indices.
  now apply (draws_intro (v :: vs)).
Qed.

Lemma concat_nil : forall A (l : list (list A)), concat l = [] <-> forall x, In x l -> x = [].
Proof.
  induction l as [|x l IH]; simpl; [split; auto; intros _ x []|].
  split.
  - intros H. apply app_eq_nil in H. destruct H as [-> H]. intros y [<-|Hy]; [reflexivity|]. now apply IH.
  - intros H. rewrite (H x (or_introl eq_refl)). apply IH. intros; apply H; auto.
Qed.

Lemma kept_nil : forall (R : vertex T -> vertex T -> Prop) fp bs kept,
  Forall2 (fun b out => restriction (first_of_equals R (face_vertices (brush_faces fp b)))
                          (face_vertices (brush_faces fp b)) out) bs kept ->
  concat kept = [] <-> forall f : face T, In f (flat_map (brush_faces fp) bs) -> f_vertices f = [].
Proof.
  intros R fp bs kept F. rewrite concat_nil. split.
  - intros H f Hf. apply in_flat_map in Hf. destruct Hf as (b & Hb & Hf).
    destruct (Forall2_in_l _ _ _ _ _ _ F Hb) as (out & Ho & Rs). rewrite (H out Ho) in Rs.
    apply restriction_nil in Rs. destruct (f_vertices f) as [|v l] eqn:V; [reflexivity|]. exfalso.
    assert (In v (face_vertices (brush_faces fp b))).
    { apply in_flat_map. exists f. split; [exact Hf|]. rewrite V. simpl. auto. }
    rewrite Rs in *. contradiction.
  - intros H out Ho. destruct (Forall2_in_r _ _ _ _ _ _ F Ho) as (b & Hb & Rs).
    destruct out as [|v out]; [reflexivity|]. exfalso.
    destruct (restriction_In _ _ _ _ v Rs (or_introl eq_refl)) as (i & Hi & _). apply nth_error_In in Hi.
    apply in_flat_map in Hi. destruct Hi as (f & Hf & Hv). rewrite (H f) in Hv; [contradiction|].
    apply in_flat_map. eauto.
Qed.

Theorem surface_absent : forall g bl t os, geometry_in_bounds g -> texture_surface O g bl t = Ok os ->
  os = None <-> forall f, In f (selected_faces (drawn_brush bl) (with_texture t) g) -> f_vertices f = [].
Proof.
  intros g bl t os H E. destruct (surface_full g bl t H) as (os' & E' & kept & rs & F1 & F2 & M).
  assert (os' = os) by congruence. subst os'.
  change (selected_faces (drawn_brush bl) (with_texture t) g)
    with (flat_map (brush_faces (with_texture t)) (filter (drawn_brush bl) (eg_brushes g))).
  rewrite <- (kept_nil _ _ _ _ F1). destruct os as [s|]; [|tauto].
  destruct M as (N & _). split; [discriminate|]. contradiction.
Qed.

Theorem surface_total : forall g bl t, geometry_in_bounds g -> exists os, texture_surface O g bl t = Ok os.
Proof. intros g bl t H. destruct (surface_full g bl t H) as (os & E & _). eauto. Qed.

(** The corner keeps all its attributes when equal positions in a brush mean equal vertices. *)
Theorem surface_attributes : forall g bl t s, geometry_in_bounds g -> texture_surface O g bl t = Ok (Some s) ->
  (forall b v w, In b (eg_brushes g) -> drawn_brush bl b = true ->
     In v (face_vertices (brush_faces (with_texture t) b)) -> In w (face_vertices (brush_faces (with_texture t) b)) ->
     vertex_pos_eq O v w -> v = w \/ vertex_eq O v w) ->
  exists vs, describes s vs /\
    Forall2 (fun i c => exists v w, nth_error vs i = Some v /\ c = Some w /\ (v = w \/ vertex_eq O v w))
      (s_indices s) (flat_map face_corners (selected_faces (drawn_brush bl) (with_texture t) g)).
Proof.
  intros g bl t s H E U. destruct (surface_full g bl t H) as (os' & E' & kept & rs & F1 & F2 & M).
  assert (os' = Some s) by congruence. subst os'. destruct M as (_ & _ & D & M). exists (concat kept). split; [exact D|].
  pose proof (selected_in_bounds (drawn_brush bl) (with_texture t) g H) as SB.
  assert (G : Forall2 (fun v c => exists w, c = Some w /\ (v = w \/ vertex_eq O v w))
    (concat rs) (flat_map face_corners (selected_faces (drawn_brush bl) (with_texture t) g))).
  { unfold selected_faces in *. change (fun b => filter (with_texture t) (bg_faces b)) with (brush_faces (T := T) (with_texture t)) in *.
    assert (U' : forall b, In b (filter (drawn_brush bl) (eg_brushes g)) -> forall v w,
      In v (face_vertices (brush_faces (with_texture t) b)) -> In w (face_vertices (brush_faces (with_texture t) b)) ->
      vertex_pos_eq O v w -> v = w \/ vertex_eq O v w).
    { intros b Hb v w. apply filter_In in Hb. apply U; apply Hb. }
    clear - F2 SB U'. revert F2 SB U'. generalize (filter (drawn_brush bl) (eg_brushes g)). intros bs F2 SB U'.
    induction F2 as [|b r bs rs F1 F IH]; [constructor|].
    simpl. rewrite flat_map_app. apply Forall2_app.
    2:{ apply IH; [intros f Hf; apply SB; simpl; apply in_or_app; auto|intros; eapply U'; simpl; eauto]. }
    assert (Bf : forall f, In f (brush_faces (with_texture t) b) -> in_bounds f).
    { intros f Hf. apply SB. simpl. apply in_or_app. auto. }
    rewrite <- corner_positions_corners by exact Bf. pose proof (corner_positions_bound _ Bf) as CB.
    specialize (U' b (or_introl eq_refl)).
    revert F1 CB. generalize (corner_positions (brush_faces (with_texture t) b)). intros cp F1 CB.
    induction F1 as [|i v l l' Rv F1 IHF]; simpl; constructor; [|apply IHF; intros; apply CB; simpl; auto].
    specialize (CB i (or_introl eq_refl)).
    destruct (nth_error (face_vertices (brush_faces (with_texture t) b)) i) as [w|] eqn:W; [|apply nth_error_None in W; lia].
    exists w. split; [reflexivity|]. destruct Rv as [[_ Rv]|(_ & w' & k & Hw & Hv & P & _)]; [left; congruence|].
    assert (w' = w) by congruence. subst w'. apply U'; auto; eapply nth_error_In; eauto. }
  clear - G M. revert M. generalize (s_indices s). intros ix M.
  revert ix M. induction G as [|v c l l' (w & Ec & Ew) G IH]; intros [|i ix] M; try discriminate; constructor.
  - simpl in M. injection M as E1 E2. exists v, w. auto.
  - apply IH. simpl in M. now injection M.
Qed.

(** Arrays. *)
Theorem surface_arrays : forall g bl t s, geometry_in_bounds g -> texture_surface O g bl t = Ok (Some s) ->
  s_vertices s <> [] /\ length (s_normals s) = length (s_vertices s) /\ length (s_tangents s) = length (s_vertices s)
  /\ (forall uvs, s_uvs s = Some uvs -> length uvs = length (s_vertices s))
  /\ (forall cs, s_colors s = Some cs -> length cs = length (s_vertices s))
  /\ (uv_iff_texture g -> (s_uvs s = None <-> t = None)).
Proof.
  intros g bl t s H E. destruct (surface_full g bl t H) as (os' & E' & kept & rs & F1 & F2 & M).
  assert (os' = Some s) by congruence. subst os'. destruct M as (N & _ & (D1 & D2 & D3 & D4 & D5) & _).
  rewrite D1, D2, D3, !map_length. split; [destruct (concat kept); [congruence|discriminate]|].
  split; [reflexivity|]. split; [reflexivity|]. split; [|split].
  - intros uvs Hu. apply D4 in Hu. apply f_equal with (f := @length _) in Hu. now rewrite !map_length in Hu.
  - intros cs Hu. apply D5 in Hu. apply f_equal with (f := @length _) in Hu. now rewrite !map_length in Hu.
  - intros U.
    assert (V : forall v, In v (concat kept) -> vt_uv v = None <-> t = None).
    { intros v Hv. apply in_concat in Hv. destruct Hv as (out & Ho & Hv).
      destruct (Forall2_in_r _ _ _ _ _ _ F1 Ho) as (b & Hb & Rs).
      destruct (restriction_In _ _ _ _ v Rs Hv) as (i & Hi & _). apply nth_error_In in Hi.
      apply in_flat_map in Hi. destruct Hi as (f & Hf & Hvf). apply filter_In in Hf. destruct Hf as [Hf Ht].
      apply with_texture_true in Ht. apply filter_In in Hb. destruct Hb as [Hb _].
      rewrite <- (U b f v Hb Hf Hvf), Ht. tauto. }
    destruct (s_uvs s) as [uvs|] eqn:Es.
    + split; [discriminate|]. intros ->. exfalso. pose proof (proj1 (D4 uvs) eq_refl) as Eu. destruct (concat kept) as [|v l]; [congruence|].
      destruct uvs as [|u uvs]; [discriminate|]. simpl in Eu.
      assert (vt_uv v = None) by (apply V; simpl; auto). congruence.
    + split; [|reflexivity]. intros _. destruct t as [t|]; [|reflexivity]. exfalso.
      assert (W : exists uvs, map vt_uv (concat kept) = map Some uvs).
      { clear - V. induction (concat kept) as [|v l IH]; [exists []; reflexivity|].
        destruct IH as (uvs & IH); [intros; apply V; simpl; auto|].
        destruct (vt_uv v) as [u|] eqn:Ev; [|apply (V v (or_introl eq_refl)) in Ev; discriminate].
        exists (u :: uvs). simpl. rewrite Ev, IH. reflexivity. }
      destruct W as (uvs & W). apply D4 in W. congruence.
Qed.

(** ** The whole mesh *)
Lemma unique_textures_In : forall bl ts t, In t (unique_textures bl ts) <-> In t ts /\ ~ In t (bl_plane bl).
Proof.
  intros bl ts t. induction ts as [|x ts IH]; simpl; [tauto|].
  unfold is_blacklisted_plane. rewrite listed_existsb.
  destruct (existsb (fun c => str_eqb c x) ts) eqn:Ex; simpl.
  - rewrite IH. split; [tauto|]. intros [[<-|H] N]; [|tauto]. split; [|exact N].
    apply existsb_exists in Ex. destruct Ex as (y & Hy & Ey). apply str_eqb_eq in Ey. now subst.
  - destruct (listed x (bl_plane bl)) eqn:L; simpl; rewrite IH.
    + apply listed_In in L. split; [tauto|]. intros [[<-|H] N]; [contradiction|tauto].
    + assert (~ In x (bl_plane bl)) by (rewrite <- listed_In; congruence).
      split; [intros [<-|H']; tauto|tauto].
Qed.

Lemma unique_textures_NoDup : forall bl ts, NoDup (unique_textures bl ts).
Proof.
  intros bl ts. induction ts as [|x ts IH]; simpl; [constructor|].
  destruct (existsb (fun c => str_eqb c x) ts) eqn:Ex; simpl; [exact IH|].
  destruct (is_blacklisted_plane bl x); simpl; [exact IH|]. constructor; [|exact IH].
  rewrite unique_textures_In. intros [Hx _].
  assert (existsb (fun c => str_eqb c x) ts = true); [|congruence].
  apply existsb_exists. exists x. split; [exact Hx|apply str_eqb_refl].
Qed.

Lemma surface_texture : forall g bl t s, texture_surface O g bl t = Ok (Some s) -> s_texture s = t.
Proof.
  intros g bl t s E. unfold texture_surface in E. apply bind_ok in E. destruct E as ([vs ix] & _ & E).
  destruct vs; [discriminate|]. now injection E as <-.
Qed.

Lemma surfaces_NoDup : forall g bl ts l, NoDup ts -> mapM (texture_surface O g bl) ts = Ok l ->
  NoDup (map s_texture (filter_map (fun o => o) l)) /\
  (forall s, In s (filter_map (fun o => o) l) -> In (s_texture s) ts /\ texture_surface O g bl (s_texture s) = Ok (Some s)).
Proof.
  intros g bl ts l N M. apply mapM_ok in M. induction M as [|t o ts l E M IH]; [split; [constructor|intros s []]|].
  inv N. destruct IH as [I1 I2]; [assumption|]. destruct o as [s|]; simpl.
  - pose proof (surface_texture _ _ _ _ E) as St. split.
    + constructor; [|exact I1]. rewrite St. intros Hin. apply in_map_iff in Hin. destruct Hin as (s' & Es & Hs).
      apply I2 in Hs. rewrite Es in Hs. tauto.
    + intros s' [<-|Hs]; [rewrite St; auto|]. apply I2 in Hs. tauto.
  - split; [exact I1|]. intros s' Hs. apply I2 in Hs. tauto.
Qed.

Theorem mesh_full : forall e g bd bl, geometry_in_bounds g -> bd_visual bd = VMesh ->
  exists l, brush_visual O e g bd bl = Ok (match l with [] => VisNone | _ => VisMesh l end)
    /\ NoDup (map s_texture l)
    /\ (forall s t, In s l -> s_texture s = Some t -> mentions e t /\ ~ In t (bl_plane bl))
    /\ (forall t f, match t with Some t' => mentions e t' /\ ~ In t' (bl_plane bl) | None => True end ->
          In f (selected_faces (drawn_brush bl) (with_texture t) g) -> f_vertices f <> [] ->
          exists s, In s l /\ s_texture s = t)
    /\ (forall s, In s l -> texture_surface O g bl (s_texture s) = Ok (Some s)).
Proof.
  intros e g bd bl H V. unfold brush_visual. rewrite V.
  set (names := flat_map (fun b => map bp_texture b) (e_brushes e)).
  assert (Nm : forall t, In t names <-> mentions e t).
  { intros t. unfold names. rewrite in_flat_map. unfold mentions. split.
    - intros (b & Hb & Ht). apply in_map_iff in Ht. destruct Ht as (pl & Et & Hp). eauto.
    - intros (b & pl & Hb & Hp & Et). exists b. split; [exact Hb|]. apply in_map_iff. eauto. }
  set (ts := map Some (unique_textures bl names) ++ [None]).
  assert (N : NoDup ts).
  { unfold ts. apply (Permutation_NoDup (l := None :: map Some (unique_textures bl names))); [apply Permutation_cons_append|].
    constructor; [intros Hn; apply in_map_iff in Hn; destruct Hn as (? & ? & _); discriminate|].
    apply Injective_map_NoDup; [intros x y Exy; now injection Exy|apply unique_textures_NoDup]. }
  assert (Ts : forall t, In t ts <-> match t with Some t' => mentions e t' /\ ~ In t' (bl_plane bl) | None => True end).
  { intros t. unfold ts. rewrite in_app_iff, in_map_iff. destruct t as [t|]; [|simpl; tauto].
    rewrite <- Nm, <- unique_textures_In. split.
    - intros [(x & Ex & Hx)|[Hx|[]]]; [now injection Ex as <-|discriminate].
    - intros Hx. left. eauto. }
  destruct (mapM_total _ _ (texture_surface O g bl) ts) as (l & M); [intros t _; now apply surface_total|].
  fold ts. rewrite M. cbn [bind]. destruct (surfaces_NoDup g bl ts l N M) as [D1 D2].
  exists (filter_map (fun o => o) l). split; [|split; [exact D1|split; [|split]]].
  - now destruct (filter_map (fun o => o) l).
  - intros s t Hs Et. apply D2 in Hs. destruct Hs as [Hs _]. rewrite Et in Hs. exact (proj1 (Ts (Some t)) Hs).
  - intros t f Ht Hf Hv. apply Ts in Ht. apply mapM_ok in M. destruct (Forall2_in_l _ _ _ _ _ _ M Ht) as (o & Ho & E).
    destruct o as [s|].
    + exists s. split; [apply filter_map_In; eauto|]. eapply surface_texture; eauto.
    + exfalso. apply Hv. pose proof (proj1 (surface_absent g bl t None H E) eq_refl) as A. now apply A.
  - intros s Hs. apply D2 in Hs. tauto.
Qed.

(** ** Collision *)
Lemma pos_sym' : forall a b, pos_eq O a b -> pos_eq O b a.
Proof. intros a b (A & B & C). repeat split; now apply (law_sym O laws). Qed.
Lemma pos_trans' : forall a b c, pos_eq O a b -> pos_eq O b c -> pos_eq O a c.
Proof. intros a b c (A & B & C) (D & E & F). repeat split; eapply (law_trans O laws); eauto. Qed.

Lemma unique_points_restriction : forall ps, restriction (last_of_equals O ps) ps (unique_points O ps).
Proof.
  induction ps as [|x ps (sel & S & I & E)]; simpl.
  - exists []. split; [constructor|]. split; [|reflexivity]. intros i. simpl. split; [tauto|]. lia.
  - assert (L : forall i, last_of_equals O (x :: ps) (Datatypes.S i) <-> last_of_equals O ps i).
    { intros i. split; intros (v & Hv & F); exists v; (split; [exact Hv|]).
      - intros j w Hj Hw. apply (F (Datatypes.S j) w); [lia|exact Hw].
      - intros [|j] w Hj Hw; [lia|]. apply (F j w); [lia|exact Hw]. }
    assert (Z : last_of_equals O (x :: ps) 0 <-> existsb (fun comp => v3_eqb O x comp) ps = false).
    { split.
      - intros (v & Hv & F). injection Hv as <-. destruct (existsb _ ps) eqn:Ex; [|reflexivity]. exfalso.
        apply existsb_exists in Ex. destruct Ex as (w & Hw & Ew). apply eqb_pos in Ew.
        apply In_nth_error in Hw. destruct Hw as (j & Hj). apply (F (Datatypes.S j) w); [lia|exact Hj|exact Ew].
      - intros Ex. exists x. split; [reflexivity|]. intros [|j] w Hj Hw Ew; [lia|]. simpl in Hw.
        assert (existsb (fun comp => v3_eqb O x comp) ps = true); [|congruence].
        apply existsb_exists. exists w. split; [eapply nth_error_In; eauto|]. now apply eqb_pos. }
    assert (S' : StronglySorted lt (map Datatypes.S sel)).
    { clear - S. induction S as [|a l S IH F]; simpl; constructor; auto. rewrite Forall_map.
      eapply Forall_impl; [|exact F]. simpl. intros; lia. }
    assert (M : map (nth_error (x :: ps)) (map Datatypes.S sel) = map Some (unique_points O ps)).
    { rewrite map_map. exact E. }
    assert (Is : forall i, In i (map Datatypes.S sel) <-> exists k, i = Datatypes.S k /\ k < length ps /\ last_of_equals O ps k).
    { intros i. rewrite in_map_iff. split.
      - intros (k & <- & Hk). exists k. split; [reflexivity|]. now apply I.
      - intros (k & -> & Hk). exists k. split; [reflexivity|]. now apply I. }
    destruct (existsb (fun comp => v3_eqb O x comp) ps) eqn:Ex.
    + exists (map Datatypes.S sel). split; [exact S'|]. split; [|exact M]. intros i. rewrite Is. split.
      * intros (k & -> & Hk & Lk). split; [simpl; lia|]. now apply L.
      * intros (Hi & Li). destruct i as [|k]; [apply Z in Li; discriminate|]. exists k. simpl in Hi. split; [reflexivity|].
        split; [lia|]. now apply L.
    + exists (0 :: map Datatypes.S sel). split; [|split].
      * constructor; [exact S'|]. apply Forall_forall. intros y Hy. apply in_map_iff in Hy. destruct Hy as (k & <- & _). lia.
      * intros i. simpl. rewrite Is. split.
        -- intros [<-|(k & -> & Hk & Lk)]; [split; [lia|now apply Z]|]. split; [lia|]. now apply L.
        -- intros (Hi & Li). destruct i as [|k]; [auto|]. right. exists k. split; [reflexivity|]. split; [lia|]. now apply L.
      * cbn [map]. f_equal. exact M.
Qed.

Lemma last_pairwise : forall ps out, restriction (last_of_equals O ps) ps out -> pairwise_not (pos_eq O) out.
Proof.
  intros ps out (sel & S & I & E) i j a b Hij Ha Hb.
  assert (G : forall k c, nth_error out k = Some c -> exists p, nth_error sel k = Some p /\ nth_error ps p = Some c).
  { intros k c Hk. assert (M : nth_error (map (nth_error ps) sel) k = Some (Some c)).
    { rewrite E, nth_error_map, Hk. reflexivity. }
    rewrite nth_error_map in M. destruct (nth_error sel k) as [q|]; [|discriminate]. simpl in M. inv M. eauto. }
  destruct (G i a Ha) as (pa & Sa & Va). destruct (G j b Hb) as (pb & Sb & Vb).
  assert (pa < pb) by (eapply sorted_nth; eauto).
  destruct (proj1 (I pa) (nth_error_In _ _ Sa)) as (_ & v & Vv & F).
  assert (v = a) by congruence. subst v. eapply F; eauto.
Qed.

Lemma unique_points_cover : forall ps x, In x ps -> exists q, In q (unique_points O ps) /\ (q = x \/ pos_eq O q x).
Proof.
  induction ps as [|y ps IH]; intros x []; simpl.
  - subst y. destruct (existsb (fun comp => v3_eqb O x comp) ps) eqn:Ex; [|exists x; simpl; auto].
    apply existsb_exists in Ex. destruct Ex as (w & Hw & Ew). apply eqb_pos in Ew.
    destruct (IH w Hw) as (q & Hq & K). exists q. split; [exact Hq|]. right. destruct K as [->|K].
    + now apply pos_sym'. + eapply pos_trans'; [exact K|]. now apply pos_sym'.
  - destruct (IH x H) as (q & Hq & K). exists q. split; [|exact K].
    destruct (existsb (fun comp => v3_eqb O y comp) ps); simpl; auto.
Qed.

Lemma unique_points_sub : forall ps x, In x (unique_points O ps) -> In x ps.
Proof.
  induction ps as [|y ps IH]; intros x; simpl; [auto|].
  destruct (existsb (fun comp => v3_eqb O y comp) ps); simpl; [auto|]. intros [->|H]; auto.
Qed.

Theorem convex_full : forall g, exists shapes, collision_of O CConvex g = Ok (ColConvex shapes)
  /\ Forall2 (fun b c => cx_center c = bg_center b
       /\ restriction (last_of_equals O (map vt_pos (face_vertices (bg_faces b)))) (map vt_pos (face_vertices (bg_faces b))) (cx_points c)
       /\ pairwise_not (pos_eq O) (cx_points c)
       /\ (forall f v, In f (bg_faces b) -> In v (f_vertices f) -> exists q, In q (cx_points c) /\ (q = vt_pos v \/ pos_eq O q (vt_pos v)))
       /\ (forall q, In q (cx_points c) -> exists f v, In f (bg_faces b) /\ In v (f_vertices f) /\ q = vt_pos v))
       (eg_brushes g) shapes.
Proof.
  intros g. eexists. split; [reflexivity|]. apply Forall2_map_r.
  induction (eg_brushes g) as [|b bs IH]; constructor; [|exact IH]. cbn [cx_center cx_points].
  assert (Eq : flat_map (fun f : face T => map vt_pos (f_vertices f)) (bg_faces b) = map vt_pos (face_vertices (bg_faces b))).
  { unfold face_vertices. induction (bg_faces b) as [|f l IHl]; [reflexivity|]. simpl. rewrite map_app, IHl. reflexivity. }
  rewrite Eq. split; [reflexivity|]. split; [apply unique_points_restriction|].
  split; [eapply last_pairwise; apply unique_points_restriction|]. split.
  - intros f v Hf Hv. apply unique_points_cover. apply in_map. apply in_flat_map. eauto.
  - intros q Hq. apply unique_points_sub in Hq. apply in_map_iff in Hq. destruct Hq as (v & <- & Hv).
    apply in_flat_map in Hv. destruct Hv as (f & Hf & Hv). eauto.
Qed.

Lemma position_reflects : forall a b : vertex T, same_position O a b = true <-> vertex_pos_eq O a b.
Proof. apply eqb_position. Qed.

Theorem concave_full : forall g, geometry_in_bounds g ->
  exists kept vs ix, collision_of O CConcave g = Ok (match vs with [] => ColNone | _ => ColConcave [Concave (eg_center g) vs ix] end)
    /\ Forall2 (fun b out => restriction (first_of_equals (vertex_pos_eq O) (face_vertices (bg_faces b))) (face_vertices (bg_faces b)) out
                  /\ pairwise_not (vertex_pos_eq O) out) (eg_brushes g) kept
    /\ vs = map vt_pos (concat kept)
    /\ draws O vs ix (flat_map bg_faces (eg_brushes g))
    /\ (vs = [] <-> forall b f, In b (eg_brushes g) -> In f (bg_faces b) -> f_vertices f = []).
Proof.
  intros g H.
  pose proof (selected_in_bounds (fun _ => true) (fun _ => true) g H) as SB.
  assert (FT : forall A (l : list A), filter (fun _ => true) l = l).
  { intros A l. induction l as [|x l IH]; simpl; [reflexivity|]. now rewrite IH. }
  destruct (gather_entity_full O laws (same_position O) (vertex_pos_eq O) position_reflects (fun a b h => h)
    _ _ g SB) as (kl & rs & vs & ix & E & Ev & F1 & M & F2).
  destruct (gather_entity_spec O laws (same_position O) (vertex_pos_eq O) position_reflects (fun a b h => h)
    _ _ g SB) as (vs' & ix' & E' & B & D).
  rewrite E in E'. injection E' as <- <-.
  exists kl, (map vt_pos vs), ix. unfold collision_of, concave_collision, unique_position. rewrite E. cbn [bind].
  assert (F1' : Forall2 (fun b out => restriction (first_of_equals (vertex_pos_eq O) (face_vertices (brush_faces (fun _ => true) b)))
     (face_vertices (brush_faces (fun _ => true) b)) out) (eg_brushes g) kl).
  { unfold brush_faces. rewrite FT in F1. exact F1. }
  split; [destruct vs; reflexivity|]. split.
  { unfold brush_faces in F1'. eapply Forall2_impl; [|exact F1']. cbv beta. intros b out Rs. rewrite FT in Rs. split; [exact Rs|].
    eapply restriction_pairwise; eauto. }
  split; [now rewrite Ev|]. split.
  { apply draws_intro; [exact B|]. unfold selected_faces in D. rewrite FT in D.
    erewrite (flat_map_ext (fun b => filter (fun _ => true) (bg_faces b))) in D; [exact D|]. intros b. apply FT. }
  assert (N : map vt_pos vs = [] <-> concat kl = []).
  { rewrite Ev. destruct (concat kl); simpl; split; auto; discriminate. }
  rewrite N, (kept_nil _ _ _ _ F1'). split.
  - intros K b f Hb Hf. apply K. apply in_flat_map. exists b. split; [exact Hb|]. unfold brush_faces. now rewrite FT.
  - intros K f Hf. apply in_flat_map in Hf. destruct Hf as (b & Hb & Hf). unfold brush_faces in Hf. rewrite FT in Hf. eauto.
Qed.
End Laws.
End Surfaces.
