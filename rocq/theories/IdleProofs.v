(** Idle planes: lemmas for C115. *)
From Coq Require Import Permutation.
From Verif Require Import Prelude F32 Text MapModel GeoModel LayerModel GameDataModel SceneModel RunModel
  GatherSpec GeoSpec LayerSpec SurfaceSpec TreeSpec PropertySpec MapSpec Utf8Spec RunSpec InvarianceSpec PointsSpec GrowSpec ReworkSpec IdleSpec
  BaseProofs TokenProofs MapProofs GeoProofs SurfaceProofs LayerProofs NodeProofs RunProofs InvarianceProofs PointsProofs SiblingProofs GrowProofs ReworkProofs.

(** ** Faces *)
Section Faces.
Context {T : Type} (O : num T).

Lemma merged_self : forall A (N : A -> Prop) l, merged eq N l l.
Proof. intros A N l. induction l; constructor; auto. Qed.
Lemma merged_app : forall A B (R : A -> B -> Prop) N l m l' m', merged R N l l' -> merged R N m m' -> merged R N (l ++ m) (l' ++ m').
Proof. intros A B R N l m l' m' H K. induction H; cbn [app]; [exact K| |]; constructor; auto. Qed.
Lemma merged_one : forall A (N : A -> Prop) l m q, N q -> merged eq N (l ++ m) (l ++ q :: m).
Proof. intros A N l m q H. apply merged_app; [apply merged_self|]. apply MergedNew; [exact H|apply merged_self]. Qed.

Lemma merged_members : forall A (N : A -> Prop) k k', merged eq N k k' -> merged eq (fun x => N x /\ In x k') k k'.
Proof.
  intros A N k k' K. induction K as [|x y k k' -> K IH|y k k' Ny K IH]; [constructor|apply MergedKept; [reflexivity|]|apply MergedNew; [split; [exact Ny|now left]|]];
    (eapply merged_weaken; [| |exact IH]; [auto|]; intros z (? & ?); split; [assumption|now right]).
Qed.
Lemma merged_pairs : forall A (N : A -> Prop) l l' k k', merged eq N l l' -> merged eq N k k' ->
  merged eq (fun x => (N (fst x) \/ N (snd x)) /\ In (fst x) l' /\ In (snd x) k') (list_prod l k) (list_prod l' k').
Proof.
  intros A N l l' k k' H K. induction H as [|x y l l' -> H IH|y l l' Ny H IH]; cbn [list_prod]; [constructor| |].
  - apply merged_app.
    + assert (X : forall Q : A -> Prop, (forall x, Q x -> N x /\ In x k') -> forall r r', merged eq Q r r' ->
        merged eq (fun x => (N (fst x) \/ N (snd x)) /\ In (fst x) (y :: l') /\ In (snd x) k') (map (pair y) r) (map (pair y) r')).
      { intros Q HQ r r' X. induction X as [|a b m n -> X J|b m n Qb X J]; cbn [map]; [constructor|now apply MergedKept|apply MergedNew; [|exact J]].
        destruct (HQ b Qb) as (Nb & Ib). cbn [fst snd]. split; [now right|]. split; [now left|exact Ib]. }
      exact (X _ (fun x Hx => Hx) _ _ (merged_members _ _ _ _ K)).
    + eapply merged_weaken; [| |exact IH]; [auto|]. intros z (? & ? & ?). cbn [In]. auto.
  - assert (X : forall m, (forall z, In z m -> In z k') -> forall r r', merged eq (fun x => (N (fst x) \/ N (snd x)) /\ In (fst x) (y :: l') /\ In (snd x) k') r r' ->
       merged eq (fun x => (N (fst x) \/ N (snd x)) /\ In (fst x) (y :: l') /\ In (snd x) k') r (map (pair y) m ++ r')).
    { intros m Sub r r' M. induction m as [|z m J]; [exact M|]. cbn [map app]. apply MergedNew; [|apply J; intros w Hw; apply Sub; now right]. cbn [fst snd]. split; [now left|]. split; [now left|apply Sub; now left]. }
    apply X; [auto|]. eapply merged_weaken; [| |exact IH]; [auto|]. intros z (? & ? & ?). cbn [In]. auto.
Qed.

Lemma inside_middle : forall l m q x, inside O (l ++ q :: m) x <-> inside O (q :: l ++ m) x.
Proof. intros l m q x. unfold inside. split; intros H r Hr; apply H; rewrite ?in_app_iff in *; cbn [In] in *; rewrite ?in_app_iff in *; tauto. Qed.

Lemma vertex_idle : forall tex e l m q plane p1 p2, idle O (l ++ m) q -> In plane (l ++ m) -> In p1 (l ++ m) -> In p2 (l ++ m) ->
  build_plane_vertex O tex e (l ++ q :: m) plane p1 p2 = build_plane_vertex O tex e (l ++ m) plane p1 p2.
Proof.
  intros tex e l m q plane p1 p2 (I1 & I2) Hp H1 H2. unfold build_plane_vertex. destruct (intersect_planes O plane p1 p2) as [x|] eqn:X; [|reflexivity].
  replace (vertex_in_hull O x (l ++ q :: m)) with (vertex_in_hull O x (l ++ m)); [reflexivity|]. apply same_bool. rewrite !hull_iff, inside_middle. split; intros H r Hr; [|apply H; now right].
  destruct Hr as [<-|Hr]; [|now apply H]. apply (I1 plane p1 p2 x Hp). repeat split; auto.
Qed.
Lemma vertex_gone : forall tex e l m q plane p1 p2, idle O (l ++ m) q -> In plane (l ++ q :: m) -> In p1 (l ++ q :: m) -> In p2 (l ++ q :: m) -> plane = q \/ p1 = q \/ p2 = q ->
  build_plane_vertex O tex e (l ++ q :: m) plane p1 p2 = Ok None.
Proof.
  intros tex e l m q plane p1 p2 (I1 & I2) Hp H1 H2 K. unfold build_plane_vertex. destruct (intersect_planes O plane p1 p2) as [x|] eqn:X; [|reflexivity].
  destruct (vertex_in_hull O x (l ++ q :: m)) eqn:Hx; [|reflexivity]. exfalso. apply hull_iff, inside_middle in Hx.
  assert (Mv : forall r, In r (l ++ q :: m) -> In r (q :: l ++ m)) by (intros r Hr; cbn [In]; rewrite in_app_iff in *; cbn [In] in Hr; tauto).
  destruct (I2 plane p1 p2 x (Mv _ Hp)) as (K1 & K2 & K3); [repeat split; auto|]. destruct K as [K|[K|K]]; auto.
Qed.

Lemma collect_merged : forall A B (f g : A -> res (option B)) N l l', merged eq N l l' -> (forall x, In x l -> f x = g x) -> (forall x, N x -> g x = Ok None) ->
  (vs <- mapM f l ;; Ok (filter_map (fun o => o) vs)) = (vs <- mapM g l' ;; Ok (filter_map (fun o => o) vs)).
Proof.
  intros A B f g N l l' M. induction M as [|x y l l' -> M IH|y l l' Ny M IH]; intros H K; [reflexivity| |].
  - cbn [mapM]. rewrite (H y (or_introl eq_refl)). destruct (g y) as [o| | |]; cbn [bind]; try reflexivity. assert (J := IH (fun x Hx => H x (or_intror Hx)) K).
    destruct (mapM f l) as [r| | |], (mapM g l') as [r'| | |]; cbn [bind] in *; try congruence; try discriminate. injection J as J. cbn [filter_map]. now rewrite J.
  - cbn [mapM]. rewrite (K y Ny). cbn [bind]. rewrite (IH H K). destruct (mapM g l') as [r'| | |]; reflexivity.
Qed.

Lemma vertices_idle : forall tex e l m q plane, idle O (l ++ m) q -> In plane (l ++ m) ->
  plane_vertices O tex e (l ++ q :: m) plane = plane_vertices O tex e (l ++ m) plane.
Proof.
  intros tex e l m q plane I Hp. unfold plane_vertices. symmetry.
  assert (M : merged eq (fun x => x = q) (l ++ m) (l ++ q :: m)) by now apply merged_one.
  apply (collect_merged _ _ _ _ _ _ _ (merged_pairs _ _ _ _ _ _ M M)).
  - intros [p1 p2] Hx. apply in_prod_iff in Hx. cbn [fst snd]. symmetry. apply vertex_idle; tauto.
  - intros [p1 p2] (N & H1 & H2). cbn [fst snd] in *. apply vertex_gone; auto. rewrite in_app_iff in *. cbn [In]. tauto.
Qed.
Lemma vertices_gone : forall tex e l m q, idle O (l ++ m) q -> plane_vertices O tex e (l ++ q :: m) q = Ok [].
Proof.
  intros tex e l m q I. unfold plane_vertices.
  assert (Z : forall k, (forall x, In x k -> build_plane_vertex O tex e (l ++ q :: m) q (fst x) (snd x) = Ok None) ->
    (vs <- mapM (fun pq => build_plane_vertex O tex e (l ++ q :: m) q (fst pq) (snd pq)) k ;; Ok (filter_map (fun o => o) vs)) = Ok []).
  { induction k as [|x k IH]; intros H; [reflexivity|]. cbn [mapM]. rewrite (H x (or_introl eq_refl)). cbn [bind]. specialize (IH (fun y Hy => H y (or_intror Hy))).
    destruct (mapM _ k) as [r| | |]; cbn [bind] in *; try discriminate. exact IH. }
  apply Z. intros [p1 p2] Hx. apply in_prod_iff in Hx. cbn [fst snd]. apply vertex_gone; auto; [|tauto|tauto]. apply in_or_app. right. now left.
Qed.

Lemma face_idle : forall tx e l m q plane, idle O (l ++ m) q -> In plane (l ++ m) -> build_face O tx e (l ++ q :: m) plane = build_face O tx e (l ++ m) plane.
Proof. intros tx e l m q plane I Hp. unfold build_face. now rewrite (vertices_idle _ e l m q plane I Hp). Qed.
Lemma face_gone : forall tx e l m q, idle O (l ++ m) q -> exists f, build_face O tx e (l ++ q :: m) q = Ok f /\ f_vertices f = [] /\ f_indices f = []
  /\ f_texture f = match hget tx (bp_texture q) with Some _ => Some (bp_texture q) | None => None end.
Proof. intros tx e l m q I. unfold build_face. rewrite (vertices_gone _ e l m q I). cbn [bind]. eexists. split; [reflexivity|]. repeat split. Qed.

(** ** Brushes *)
Definition stuffed (b b' : brush_geo T) : Prop := merged eq (empty_face (bg_faces b)) (bg_faces b) (bg_faces b').

Lemma faces_texture : forall tx e b faces, mapM (build_face O tx e b) b = Ok faces ->
  map f_texture faces = map (fun t => match hget tx t with Some _ => Some t | None => None end) (map bp_texture b).
Proof.
  intros tx e b faces M. apply mapM_ok in M. set (planes := b) in M at 1. clearbody planes. induction M as [|pl f pls fs Ef F IH]; [reflexivity|]. cbn [map]. rewrite IH. f_equal.
  unfold build_face in Ef. apply bind_ok in Ef. destruct Ef as (vs & _ & Ef). injection Ef as <-. reflexivity.
Qed.

(** Faces of the brush with one plane more. *)
Lemma faces_idle : forall tx e l m q, idle O (l ++ m) q -> 
  paired (fun fs fs' => exists f, merged eq (fun x => x = f) fs fs' /\ f_vertices f = [] /\ f_indices f = [] /\ f_texture f = match hget tx (bp_texture q) with Some _ => Some (bp_texture q) | None => None end)
    (mapM (build_face O tx e (l ++ m)) (l ++ m)) (mapM (build_face O tx e (l ++ q :: m)) (l ++ q :: m)).
Proof.
  intros tx e l m q I. destruct (face_gone tx e l m q I) as (f & Ef & H1 & H2 & H3).
  assert (X : forall k k', merged eq (fun x => x = q) k k' -> (forall x, In x k -> In x (l ++ m)) ->
    paired (fun fs fs' => merged eq (fun x => x = f) fs fs') (mapM (build_face O tx e (l ++ m)) k) (mapM (build_face O tx e (l ++ q :: m)) k')).
  { intros k k' M. induction M as [|x y k k' -> M IH|y k k' -> M IH]; intros Sub; [apply paired_ok; constructor| |].
    - cbn [mapM]. rewrite (face_idle tx e l m q y I (Sub y (or_introl eq_refl))). destruct (build_face O tx e (l ++ m) y) as [g| | |]; cbn [bind]; try (apply paired_fail; discriminate).
      eapply paired_bind; [apply IH; intros x Hx; apply Sub; now right|]. intros fs fs' R. cbv beta in R. apply paired_ok. now apply MergedKept.
    - cbn [mapM]. rewrite Ef. cbn [bind]. specialize (IH Sub). destruct IH as (J1 & J2). split.
      + intros fs E. destruct (J1 fs E) as (fs' & E' & R). exists (f :: fs'). rewrite E'. split; [reflexivity|]. now apply MergedNew.
      + intros fs' E. apply bind_ok in E. destruct E as (fs2 & E & Eq). injection Eq as <-. destruct (J2 fs2 E) as (fs & E' & R). exists fs. split; [exact E'|]. now apply MergedNew. }
  eapply paired_weaken; [|apply X; [now apply merged_one|auto]]. intros fs fs' R. cbv beta in R. exists f. auto.
Qed.

Lemma merged_trans : forall A (N : A -> Prop) l m k, merged eq N l m -> merged eq N m k -> merged eq N l k.
Proof.
  intros A N l m k H K. revert l H. induction K as [|x y m k -> K IH|y m k Ny K IH]; intros l H; [exact H| |].
  - inversion H as [|a b l' m' Eab M'|b l' m' Nb M']; subst; [apply MergedKept; auto|apply MergedNew; auto].
  - apply MergedNew; auto.
Qed.

Theorem brush_padded : forall tx e b b', padded O b b' -> paired stuffed (build_brush O tx e b) (build_brush O tx e b').
Proof.
  intros tx e b b' P. unfold build_brush.
  assert (X : paired (fun fs fs' => merged eq (empty_face fs) fs fs') (mapM (build_face O tx e b) b) (mapM (build_face O tx e b') b')).
  { induction P as [|l m q P IH I Ht]; [apply paired_eq; intros fs _; apply merged_self|]. pose proof (faces_idle tx e l m q I) as (Q1 & Q2). destruct IH as (J1 & J2).
    assert (Z : forall fs mid f fs', mapM (build_face O tx e b) b = Ok fs -> merged eq (empty_face fs) fs mid -> merged eq (fun x => x = f) mid fs' -> f_vertices f = [] -> f_indices f = [] ->
      f_texture f = match hget tx (bp_texture q) with Some _ => Some (bp_texture q) | None => None end -> merged eq (empty_face fs) fs fs').
    { intros fs mid f fs' Ef M1 M2 H1 H2 H3. eapply merged_trans; [exact M1|]. eapply merged_weaken; [| |exact M2]; [auto|]. intros y ->. split; [exact H1|]. split; [exact H2|].
      rewrite (faces_texture _ _ _ _ Ef), H3. apply (in_map (fun t => match hget tx t with Some _ => Some t | None => None end)) in Ht. exact Ht. }
    split.
    - intros fs Ef. destruct (J1 fs Ef) as (mid & Em & M1). destruct (Q1 mid Em) as (fs' & Ef' & f & M2 & H1 & H2 & H3). exists fs'. split; [exact Ef'|]. eapply Z; eauto.
    - intros fs' Ef'. destruct (Q2 fs' Ef') as (mid & Em & f & M2 & H1 & H2 & H3). destruct (J2 mid Em) as (fs & Ef & M1). exists fs. split; [exact Ef|]. eapply Z; eauto. }
  eapply paired_bind; [exact X|]. intros fs fs' M. cbv beta in M. apply paired_ok. exact M.
Qed.
End Faces.

(** ** Geometry made of such brushes *)
Section Gathered.
Context (p : platform).
Local Notation O := (f32_num p).
Local Notation stuffed := (@stuffed f32).

Lemma merged_forallb : forall X (P : X -> Prop) (f : X -> bool) l l', merged eq P l l' -> (forall x, P x -> exists y, In y l /\ f x = f y) -> forallb f l = forallb f l'.
Proof.
  intros X P f l l' M H. assert (G : forall k, (forall x, In x l -> In x k) -> (forall x, P x -> exists y, In y k /\ f x = f y) -> forallb f k = forallb f (k ++ l')).
  { clear H. induction M as [|x y l l' -> M IH|y l l' Py M IH]; intros k Sub H; [now rewrite app_nil_r| |].
    - rewrite (IH k (fun x Hx => Sub x (or_intror Hx)) H). rewrite !forallb_app. cbn [forallb]. destruct (forallb f k) eqn:Ek; [|reflexivity].
      rewrite forallb_forall in Ek. rewrite (Ek y (Sub y (or_introl eq_refl))). reflexivity.
    - rewrite (IH k Sub H), !forallb_app. cbn [forallb]. destruct (forallb f k) eqn:Ek; [|reflexivity]. destruct (H y Py) as (z & Hz & ->). rewrite forallb_forall in Ek. now rewrite (Ek z Hz). }
  specialize (G l (fun x Hx => Hx) H). rewrite forallb_app in G. destruct (forallb f l') eqn:E.
  - destruct (forallb f l) eqn:El; [reflexivity|]. rewrite <- El. apply forallb_forall. intros x Hx. rewrite forallb_forall in E. apply E. eapply merged_in; eauto.
  - rewrite Bool.andb_false_r in G. exact G.
Qed.
Lemma layer_stuffed : forall t b b', stuffed b b' -> in_layer t b = in_layer t b'.
Proof.
  intros t b b' M. unfold in_layer. eapply merged_forallb; [exact M|]. intros f (_ & _ & H). apply in_map_iff in H. destruct H as (g & Eg & Hg). exists g. split; [exact Hg|]. now rewrite Eg.
Qed.
Lemma existsb_negb : forall X (f : X -> bool) l, existsb f l = negb (forallb (fun x => negb (f x)) l).
Proof. intros X f l. induction l as [|x l IH]; [reflexivity|]. cbn [existsb forallb]. rewrite IH. destruct (f x); reflexivity. Qed.
Lemma black_stuffed : forall bl b b', stuffed b b' -> brush_not_blacklisted bl b = brush_not_blacklisted bl b'.
Proof.
  intros bl b b' M. unfold brush_not_blacklisted. rewrite !existsb_negb. f_equal. eapply merged_forallb; [exact M|]. intros f (_ & _ & H). apply in_map_iff in H. destruct H as (g & Eg & Hg). exists g. split; [exact Hg|]. now rewrite Eg.
Qed.

Lemma indices_stuffed : forall (N : face f32 -> Prop) fs fs', (forall f, N f -> f_vertices f = [] /\ f_indices f = []) -> merged eq N fs fs' -> forall k,
  flat_map f_vertices fs' = flat_map f_vertices fs /\ concat_indices k (map (fun f => (f_vertices f, f_indices f)) fs') = concat_indices k (map (fun f => (f_vertices f, f_indices f)) fs).
Proof.
  intros N fs fs' H M. induction M as [|x y l l' -> M IH|y l l' Ny M IH]; intros k; [split; reflexivity| |]; cbn [flat_map map concat_indices].
  - split; [now rewrite (proj1 (IH k))|]. now rewrite (proj2 (IH _)).
  - destruct (H y Ny) as (-> & ->). cbn [app map length]. rewrite Nat.add_0_r. apply IH.
Qed.
Lemma merged_filter_eq : forall X (N : X -> Prop) f l m, merged eq N l m -> merged eq N (filter f l) (filter f m).
Proof. intros X N f l m M. eapply merged_weaken; [| |exact (merged_filter _ _ f _ _ M)]; [auto|]. now intros y (? & _). Qed.
Lemma gather_stuffed : forall fp vp b b', stuffed b b' -> gather_brush O fp vp b' = gather_brush O fp vp b.
Proof.
  intros fp vp b b' M. unfold gather_brush. pose proof (merged_filter_eq _ _ fp _ _ M) as M'.
  destruct (indices_stuffed _ _ _ (fun f (H : empty_face (bg_faces b) f) => conj (proj1 H) (proj1 (proj2 H))) M' 0) as (E1 & E2). now rewrite E1, E2.
Qed.
Lemma gather_entity_stuffed : forall bp fp vp g g', (forall b b', stuffed b b' -> bp b = bp b') -> Forall2 stuffed (eg_brushes g) (eg_brushes g') ->
  gather_entity O bp fp vp g' = gather_entity O bp fp vp g.
Proof.
  intros bp fp vp g g' Hb F. unfold gather_entity. erewrite (mapM_same _ _ (fun b' b => stuffed b b') (gather_brush O fp vp) (gather_brush O fp vp)); [reflexivity| |].
  - apply (filter_same _ (fun b' b => stuffed b b') bp bp); [now apply flipped|]. intros x y R. symmetry. now apply Hb.
  - intros x y R. now apply gather_stuffed.
Qed.
Lemma surface_stuffed : forall g g' bl t, Forall2 stuffed (eg_brushes g) (eg_brushes g') -> texture_surface O g' bl t = texture_surface O g bl t.
Proof. intros g g' bl t F. unfold texture_surface. rewrite (gather_entity_stuffed _ _ _ g g' (black_stuffed bl) F). reflexivity. Qed.

(** ** Visuals and collisions *)
Definition same_textures (e e' : entity f32) : Prop :=
  forall t, In t (flat_map (fun b => map bp_texture b) (e_brushes e)) <-> In t (flat_map (fun b => map bp_texture b) (e_brushes e')).
Definition dressed_alike (e e' : entity f32) : Prop := (forall k, get_property e k = get_property e' k) /\ same_textures e e'.

Lemma mesh_same : forall l l' : list (surface f32), Permutation l l' ->
  paired same_picture (match l with [] => Ok VisNone | _ => Ok (VisMesh l) end) (match l' with [] => Ok VisNone | _ => Ok (VisMesh l') end).
Proof.
  intros l l' P. destruct l as [|x l]; [apply Permutation_nil in P; subst; apply paired_ok; constructor|].
  destruct l' as [|y l']; [symmetry in P; now apply Permutation_nil in P|]. apply paired_ok. now constructor.
Qed.
Lemma visual_stuffed : forall bl e e' g g' bd, dressed_alike e e' -> Forall2 stuffed (eg_brushes g) (eg_brushes g') ->
  paired same_picture (brush_visual O e g bd bl) (brush_visual O e' g' bd bl).
Proof.
  intros bl e e' g g' bd (_ & Ht) F. unfold brush_visual. destruct (bd_visual bd); [apply paired_ok; constructor|]. cbv zeta.
  set (ts := map Some (unique_textures bl (flat_map (fun b => map bp_texture b) (e_brushes e))) ++ [None]).
  set (ts' := map Some (unique_textures bl (flat_map (fun b => map bp_texture b) (e_brushes e'))) ++ [None]).
  assert (P : Permutation ts ts').
  { apply Permutation_app_tail, Permutation_map, NoDup_Permutation; try apply unique_textures_NoDup. intros t. rewrite !unique_textures_In, (Ht t). reflexivity. }
  rewrite (mapM_ext _ _ (texture_surface O g' bl) (texture_surface O g bl)) by (intros t _; now apply surface_stuffed).
  apply paired_bind with (R := fun s s' => Permutation s s').
  - split; intros r Er; [destruct (mapM_moved _ _ _ _ _ _ P Er) as (r' & E & Q)|destruct (mapM_moved _ _ _ _ _ _ (Permutation_sym P) Er) as (r' & E & Q)]; exists r'; auto using Permutation_sym.
  - intros s s' Q. pose proof (somes_moved _ _ _ Q) as Q'. pose proof (mesh_same _ _ Q') as Z. destruct (filter_map (fun o => o) s), (filter_map (fun o => o) s'); exact Z.
Qed.
Lemma layer_visual_stuffed : forall l t bs bs', Forall2 stuffed bs bs' -> paired same_picture (layer_visual O l t bs) (layer_visual O l t bs').
Proof.
  intros l t bs bs' F. unfold layer_visual. destruct (wl_visual l); [apply paired_ok; constructor|]. rewrite (surface_stuffed (EntityGeo (v3_zero O) bs) (EntityGeo (v3_zero O) bs') _ _ F).
  destruct (texture_surface O (EntityGeo (v3_zero O) bs) blacklist_default (Some t)) as [[s|]| | |]; cbn [bind]; try (apply paired_fail; discriminate); apply paired_ok; constructor. apply Permutation_refl.
Qed.

Lemma points_stuffed : forall b b', stuffed b b' -> flat_map (fun f => map vt_pos (f_vertices f)) (bg_faces b') = flat_map (fun f => map vt_pos (f_vertices f)) (bg_faces b).
Proof.
  intros b b' M. unfold IdleProofs.stuffed in M. revert M. generalize (bg_faces b) at 1. intros fs M. induction M as [|x y l l' -> M IH|y l l' Ny M IH]; [reflexivity| |]; cbn [flat_map]; [now rewrite IH|].
  destruct Ny as (-> & _). exact IH.
Qed.
Lemma collision_stuffed : forall (fixed : Prop) t g g', (fixed -> eg_center g = eg_center g') -> Forall2 stuffed (eg_brushes g) (eg_brushes g') ->
  paired (same_shape fixed) (collision_of O t g) (collision_of O t g').
Proof.
  intros fixed t g g' Hc F. destruct t; cbn [collision_of].
  - apply paired_ok. constructor.
  - apply paired_ok. constructor. rewrite !map_map. cbn [cx_points]. induction F as [|b b' l l' S F IH]; [reflexivity|]. cbn [map]. rewrite IH by auto. now rewrite (points_stuffed _ _ S).
  - unfold concave_collision. rewrite (gather_entity_stuffed (fun _ => true) (fun _ => true) _ g g' (fun _ _ _ => eq_refl) F).
    destruct (gather_entity O (fun _ => true) (fun _ => true) (Some (unique_position O)) g) as [[vs ix]| | |]; cbn [bind]; try (apply paired_fail; discriminate).
    destruct vs as [|v vs]; apply paired_ok; constructor; try reflexivity. cbn [map cc_center]. intros Hf. now rewrite (Hc Hf).
Qed.
End Gathered.

(** ** Runs *)
Lemma paired_bind_ok : forall A B A' B' (R : A -> B -> Prop) (Q : A' -> B' -> Prop) a b f g, paired R a b -> (forall x y, a = Ok x -> b = Ok y -> R x y -> paired Q (f x) (g y)) ->
  paired Q (bind a f) (bind b g).
Proof.
  intros A B A' B' R Q a b f g (H1 & H2) K. apply paired_bind with (R := fun x y => a = Ok x /\ b = Ok y /\ R x y); [|intros x y (? & ? & ?); auto].
  split; [intros x E; destruct (H1 x E) as (y & Ey & Rxy)|intros y E; destruct (H2 y E) as (x & Ex & Rxy)]; eauto 6.
Qed.
Lemma padded_textures : forall T (O : num T) b b', padded O b b' -> forall t, In t (map bp_texture b) <-> In t (map bp_texture b').
Proof.
  intros T O b b' P t. induction P as [|l m q P IH I Ht]; [reflexivity|]. rewrite IH, !map_app. cbn [map]. rewrite !in_app_iff. cbn [In]. split; [tauto|].
  intros [H|[<-|H]]; try tauto. rewrite <- in_app_iff, <- map_app. apply IH, Ht.
Qed.

Section Run.
Context (p : platform).
Local Notation O := (f32_num p).

Definition padded_parsed (e e' : entity f32) : Prop := (forall k, get_property e k = get_property e' k) /\ Forall2 (padded O) (e_brushes e) (e_brushes e').
Lemma parsed_dressed : forall e e', padded_parsed e e' -> dressed_alike e e'.
Proof.
  intros e e' (Hp & F). split; [exact Hp|]. intros t. rewrite !in_flat_map. split.
  - intros (b & Hb & Ht). destruct (Forall2_in_l _ _ _ _ _ _ F Hb) as (b' & Hb' & P). exists b'. split; [exact Hb'|]. now apply (padded_textures _ _ _ _ P).
  - intros (b' & Hb' & Ht). destruct (Forall2_in_r _ _ _ _ _ _ F Hb') as (b & Hb & P). exists b. split; [exact Hb|]. now apply (padded_textures _ _ _ _ P).
Qed.
Lemma brush_values : forall tx (e e' : entity f32) b, (forall k, get_property e k = get_property e' k) -> build_brush O tx e b = build_brush O tx e' b.
Proof.
  intros tx e e' b H. unfold build_brush. erewrite mapM_ext; [reflexivity|]. intros pl _.
  exact (face_alike p tx tx e (Entity (e_props e') (e_brushes e)) b pl (conj eq_refl H) eq_refl).
Qed.
Lemma geo_padded : forall (fixed : Prop) tx e e', padded_parsed e e' -> (fixed -> e_brushes e = e_brushes e' \/ get_property e (lit "origin") <> None) ->
  paired (fun g g' => related fixed dressed_alike (Forall2 (@stuffed f32)) (e, g) (e', g')) (build_entity_geo O tx e) (build_entity_geo O tx e').
Proof.
  intros fixed tx e e' P Hf. pose proof (parsed_dressed e e' P) as Pd. destruct P as (Hp & F). unfold build_entity_geo.
  eapply paired_bind_ok.
  - apply (paired_mapM _ _ _ _ (padded O) (@stuffed f32) (build_brush O tx e) (build_brush O tx e') _ _ F). intros b b' P. rewrite <- (brush_values tx e e' b' Hp). now apply brush_padded.
  - intros bs bs' Eb Eb' S. apply paired_ok. split; [exact Pd|]. cbn [fst snd eg_center eg_brushes]. split; [|exact S]. intros Hx. specialize (Hp (lit "origin")). unfold get_property in *. rewrite <- Hp.
    destruct (hget (e_props e) (lit "origin")) as [s|]; [reflexivity|]. destruct (Hf Hx) as [Es|N]; [|now destruct N]. do 2 f_equal. rewrite Es in Eb.
    rewrite (mapM_ext _ _ (build_brush O tx e) (build_brush O tx e')) in Eb by (intros b _; apply brush_values; exact (proj1 Pd)). congruence.
Qed.
Lemma geometry_padded : forall (fixed : Prop) tx es es', Forall2 (fun e e' => padded_parsed e e' /\ (fixed -> e_brushes e = e_brushes e' \/ get_property e (lit "origin") <> None)) es es' ->
  paired (fun gs gs' => Forall2 (related fixed dressed_alike (Forall2 (@stuffed f32))) (combine es gs) (combine es' gs')) (build_geometry O tx es) (build_geometry O tx es').
Proof.
  intros fixed tx es es' F. unfold build_geometry. induction F as [|e e' es es' (P & Hf) F IH]; [apply paired_ok; constructor|]. cbn [mapM].
  eapply paired_bind; [apply (geo_padded fixed tx e e' P Hf)|]. intros g g' Rg. cbv beta in Rg. eapply paired_bind; [exact IH|]. intros gs gs' Rs. cbv beta in Rs. apply paired_ok. cbn [combine]. now constructor.
Qed.

Lemma lines_parsed : forall b b' pls pls', padded_lines p b b' -> Forall2 (reads_as p) b pls -> Forall2 (reads_as p) b' pls' -> padded O pls pls'.
Proof.
  intros b b' pls pls' (q & q' & F & F' & P) G G'.
  rewrite <- (Forall2_functional _ _ _ (read_unique p) _ _ _ F G), <- (Forall2_functional _ _ _ (read_unique p) _ _ _ F' G'). exact P.
Qed.
Lemma entity_parsed : forall d d' e e', padded_entity p d d' -> entity_agrees (reads_as p) d e -> entity_agrees (reads_as p) d' e' -> padded_parsed e e'
  /\ (anchored d d' -> e_brushes e = e_brushes e' \/ get_property e (lit "origin") <> None).
Proof.
  intros d d' e e' (Hv & F) (G1 & B1) (G2 & B2). split.
  - split; [intros k; now rewrite G1, G2, Hv|]. clear - F B1 B2. revert F B1 B2. generalize (doc_brushes d) (doc_brushes d') (e_brushes e) (e_brushes e'). intros l l' m m' F. revert m m'.
    induction F as [|b b' l l' P F IH]; intros m m' G G'; inversion G; inversion G'; subst; constructor; [eapply lines_parsed; eauto|auto].
  - intros [E|N]; [left|right; now rewrite G1]. rewrite <- E in B2. eapply Forall2_functional; [|exact B1|exact B2]. intros; eapply Forall2_functional; eauto. apply read_unique.
Qed.
Lemma padded_readable : forall d d', Forall2 (padded_entity p) d d' ->
  (forall e b l, In e d -> In b (doc_brushes e) -> In l b -> exists ws pl, written ws l /\ plane_words (parse_f32 (p_modern_parse p)) (to_lowercase p) ws pl)
  /\ (forall e b l, In e d' -> In b (doc_brushes e) -> In l b -> exists ws pl, written ws l /\ plane_words (parse_f32 (p_modern_parse p)) (to_lowercase p) ws pl).
Proof.
  intros d d' F. split; intros e b l He Hb Hl.
  - destruct (Forall2_in_l _ _ _ _ _ _ F He) as (e' & _ & _ & Fb). destruct (Forall2_in_l _ _ _ _ _ _ Fb Hb) as (b' & _ & pls & pls' & G & _). destruct (Forall2_in_l _ _ _ _ _ _ G Hl) as (pl & _ & ws & W). eauto.
  - destruct (Forall2_in_r _ _ _ _ _ _ F He) as (e' & _ & _ & Fb). destruct (Forall2_in_r _ _ _ _ _ _ Fb Hb) as (b' & _ & pls & pls' & _ & G & _). destruct (Forall2_in_l _ _ _ _ _ _ G Hl) as (pl & _ & ws & W). eauto.
Qed.
Lemma documents_padded : forall d d' es es' (fixed : Prop), Forall2 (padded_entity p) d d' -> (fixed -> Forall2 anchored d d') -> Forall2 (entity_agrees (reads_as p)) d es -> Forall2 (entity_agrees (reads_as p)) d' es' ->
  Forall2 (fun e e' => padded_parsed e e' /\ (fixed -> e_brushes e = e_brushes e' \/ get_property e (lit "origin") <> None)) es es'.
Proof.
  intros d d' es es' fixed F. revert es es'. induction F as [|x y d d' P F IH]; intros es es' H G G'; inversion G; inversion G'; subst; constructor.
  - match goal with A : entity_agrees _ x ?e, A' : entity_agrees _ y ?e' |- _ => destruct (entity_parsed x y e e' P A A') as (Q1 & Q2) end. split; [exact Q1|]. intros Hx. apply Q2. specialize (H Hx). now inversion H.
  - apply IH; auto. intros Hx. specialize (H Hx). now inversion H.
Qed.

Context (order : hmap (list (brush_geo f32)) -> list (str * list (brush_geo f32))) (permutes : forall m, Permutation (order m) m).
Lemma run_paired : forall fuel c c' text text' d d', same_but_map c c' -> file_text (cf_map c) text -> file_text (cf_map c') text' -> text_document p text d -> text_document p text' d' ->
  Forall2 (padded_entity p) d d' ->
  paired (reworked_run (Forall2 anchored d d') same_picture (same_shape (Forall2 anchored d d'))) (run p order fuel c) (run p order fuel c').
Proof.
  intros fuel c c' text text' d d' (Et & Eb & Ef & Eg) Ft Ft' (ls & ts & L & K & Sg) (ls' & ts' & L' & K' & Sg') F. rewrite !run_split. apply read_ok in Ft, Ft'. rewrite Ft, Ft'. cbn [bind].
  destruct (padded_readable d d' F) as (R & R'). destruct (load_doc p text ls ts d L K Sg R) as (ps & es & Lo & Ag). destruct (load_doc p text' ls' ts' d' L' K' Sg' R') as (ps' & es' & Lo' & Ag').
  rewrite Lo, Lo'. cbn [bind]. pose proof (documents_padded d d' es es' (Forall2 anchored d d') F (fun H => H) Ag Ag') as G.
  apply (built_reworked p order permutes (Forall2 anchored d d') same_picture (same_shape (Forall2 anchored d d')) dressed_alike (Forall2 (@stuffed f32)) c c' Eb Ef Eg).
  - intros e e' (H & _). exact H.
  - apply pairwise_layers, layer_stuffed.
  - constructor.
  - constructor.
  - intros v v' [|l l' P]; split; congruence || discriminate.
  - intros k k' [| |]; split; congruence || discriminate.
  - intros e e' g g' bd H B. apply visual_stuffed; assumption.
  - intros l t bs bs' B. apply layer_visual_stuffed. exact B.
  - intros t g g' H B. now apply collision_stuffed.
  - rewrite <- Et. apply geometry_padded. exact G.
Qed.
End Run.
