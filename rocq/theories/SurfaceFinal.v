(** The surface lemmas at f32, in the form of C30 to C35. *)
From Verif Require Import Prelude F32 Text MapModel GeoModel LayerModel GameDataModel SceneModel
  GatherSpec SurfaceSpec BaseProofs GatherProofs SurfaceProofs SurfaceWitness.

Section F.
Context (p : platform).
Let O := f32_num p.
Let laws : eq_laws O := f32_eq_laws p.

Lemma surface_c30 : forall g bl t, geometry_in_bounds g ->
  exists os, texture_surface O g bl t = Ok os
    /\ match os with
       | Some s => draws O (s_vertices s) (s_indices s) (selected_faces (drawn_brush bl) (with_texture t) g)
       | None => forall f, In f (selected_faces (drawn_brush bl) (with_texture t) g) -> f_vertices f = []
       end.
Proof.
  intros g bl t H. destruct (surface_total O laws g bl t H) as (os & E). exists os. split; [exact E|].
  destruct os as [s|]; [now apply surface_draws|]. now apply (surface_absent O laws g bl t None H E).
Qed.

Lemma concave_c30 : forall g, geometry_in_bounds g ->
  collision_of O CConcave g = Ok ColNone
  \/ exists vs ix, collision_of O CConcave g = Ok (ColConcave [Concave (eg_center g) vs ix])
       /\ draws O vs ix (flat_map bg_faces (eg_brushes g)).
Proof.
  intros g H. destruct (concave_full O laws g H) as (kept & vs & ix & E & _ & _ & D & _). rewrite E.
  destruct vs; [left; reflexivity|]. right. eauto.
Qed.

Lemma surface_c31 : forall g bl t s, geometry_in_bounds g -> texture_surface O g bl t = Ok (Some s) ->
  exists kept, describes s (concat kept)
    /\ Forall2 (fun b out =>
         let vs := face_vertices (brush_faces (with_texture t) b) in
         restriction (first_of_equals (vertex_eq O) vs) vs out /\ pairwise_not (vertex_eq O) out)
       (filter (drawn_brush bl) (eg_brushes g)) kept.
Proof.
  intros g bl t s H E. destruct (surface_full O laws g bl t H) as (os & E' & kept & rs & F1 & _ & M).
  assert (os = Some s) by congruence. subst os. exists kept. split; [apply M|].
  eapply Forall2_impl; [|exact F1]. cbv beta. intros b out Rs. split; [exact Rs|].
  eapply restriction_pairwise; eauto.
Qed.

Lemma concave_c31 : forall g center vs ix, geometry_in_bounds g ->
  collision_of O CConcave g = Ok (ColConcave [Concave center vs ix]) ->
  exists kept, vs = map vt_pos (concat kept)
    /\ Forall2 (fun b out =>
         let vs := face_vertices (bg_faces b) in
         restriction (first_of_equals (vertex_pos_eq O) vs) vs out /\ pairwise_not (vertex_pos_eq O) out) (eg_brushes g) kept.
Proof.
  intros g center vs ix H E. destruct (concave_full O laws g H) as (kept & vs' & ix' & E' & F & V & _ & _).
  exists kept. split; [|exact F]. rewrite E in E'. destruct vs' as [|v vs']; [discriminate|]. injection E' as _ -> _. exact V.
Qed.

Lemma corner_refuted : exists g bl t s k i n w, geometry_in_bounds g
  /\ texture_surface O g bl t = Ok (Some s)
  /\ nth_error (s_indices s) k = Some i /\ nth_error (s_normals s) i = Some n
  /\ nth_error (flat_map face_corners (selected_faces (drawn_brush bl) (with_texture t) g)) k = Some (Some w)
  /\ ~ pos_eq O n (vt_normal w).
Proof.
  destruct (doubled_corner p) as (s & E & I & N & C). do 8 eexists.
  split; [exact doubled_in_bounds|]. split; [exact E|]. split; [exact I|]. split; [exact N|]. split; [exact C|].
  intros (_ & H & _). vm_compute in H. discriminate.
Qed.

Lemma surface_c32 : forall g bl t s, geometry_in_bounds g -> texture_surface O g bl t = Ok (Some s) ->
  exists vs resolved, describes s vs
    /\ map (nth_error vs) (s_indices s) = map Some (concat resolved)
    /\ Forall2 (fun b rs =>
         let faces := brush_faces (with_texture t) b in
         Forall2 (resolves O (vertex_eq O) (face_vertices faces)) (corner_positions faces) rs)
       (filter (drawn_brush bl) (eg_brushes g)) resolved.
Proof.
  intros g bl t s H E. destruct (surface_full O laws g bl t H) as (os & E' & kept & rs & _ & F2 & M).
  assert (os = Some s) by congruence. subst os. destruct M as (_ & _ & D & M). exists (concat kept), rs. auto.
Qed.

Definition surface_c32_same := surface_attributes O laws.
Definition surface_c33 := surface_arrays O laws.

Lemma surface_c33_describes : forall g bl t s, geometry_in_bounds g ->
  texture_surface O g bl t = Ok (Some s) -> s_texture s = t /\ exists vs, vs <> [] /\ describes s vs.
Proof.
  intros g bl t s H E. destruct (surface_full O laws g bl t H) as (os & E' & kept & rs & _ & _ & M).
  assert (os = Some s) by congruence. subst os. destruct M as (N & S & D & _). eauto.
Qed.

Lemma plain_uvs : geometry_in_bounds plain /\ uv_iff_texture plain
  /\ exists s, texture_surface O plain blacklist_default tex = Ok (Some s) /\ length (s_vertices s) = 9.
Proof.
  split; [exact plain_in_bounds|]. split.
  - intros b f v Hb Hf Hv. simpl in Hb.
    repeat match goal with H : _ \/ _ |- _ => destruct H | H : False |- _ => destruct H end; subst; simpl in Hf;
    repeat match goal with H : _ \/ _ |- _ => destruct H | H : False |- _ => destruct H end; subst;
    simpl in Hv; repeat match goal with H : _ \/ _ |- _ => destruct H | H : False |- _ => destruct H end; subst; simpl; split; discriminate.
  - exists (surface_of (texture_surface O plain blacklist_default tex)). split; vm_compute; reflexivity.
Qed.

Lemma drawn_brush_spec : forall bl (b : brush_geo f32), drawn_brush bl b = true <->
  exists f', In f' (bg_faces b) /\ forall t, f_texture f' = Some t -> ~ In t (bl_brush bl).
Proof.
  intros bl b. unfold drawn_brush. rewrite existsb_exists. unfold drawn_face.
  split; intros (f & Hf & K); exists f; (split; [exact Hf|]); destruct (f_texture f) as [t|].
  - intros t' Et. injection Et as <-. intros Hin. apply listed_In in Hin. rewrite Hin in K. discriminate.
  - intros t' Et. discriminate.
  - specialize (K t eq_refl). destruct (listed t (bl_brush bl)) eqn:L; [|reflexivity]. apply listed_In in L. contradiction.
  - reflexivity.
Qed.

Lemma mesh_c34 : forall e g bd bl, geometry_in_bounds g -> bd_visual bd = VMesh ->
  exists l, brush_visual O e g bd bl = Ok (match l with [] => VisNone | _ => VisMesh l end)
    /\ NoDup (map s_texture l)
    /\ (forall s t, In s l -> s_texture s = Some t -> mentions e t /\ ~ In t (bl_plane bl))
    /\ (forall b f, In b (eg_brushes g) -> In f (bg_faces b) -> f_vertices f <> [] ->
          (exists f' , In f' (bg_faces b) /\ forall t, f_texture f' = Some t -> ~ In t (bl_brush bl)) ->
          (forall t, f_texture f = Some t -> mentions e t /\ ~ In t (bl_plane bl)) ->
          exists s, In s l /\ s_texture s = f_texture f
            /\ In f (selected_faces (drawn_brush bl) (with_texture (s_texture s)) g))
    /\ (forall s, In s l -> draws O (s_vertices s) (s_indices s)
                              (selected_faces (drawn_brush bl) (with_texture (s_texture s)) g)).
Proof.
  intros e g bd bl H V. destruct (mesh_full O laws e g bd bl H V) as (l & E & N & Tx & Co & Su).
  exists l. split; [exact E|]. split; [exact N|]. split; [exact Tx|]. split.
  - intros b f Hb Hf Hv Hd Ht. apply drawn_brush_spec in Hd.
    assert (Sel : In f (selected_faces (drawn_brush bl) (with_texture (f_texture f)) g)).
    { unfold selected_faces. apply in_flat_map. exists b. split; [now apply filter_In|]. apply filter_In.
      split; [exact Hf|]. now apply with_texture_true. }
    destruct (Co (f_texture f) f) as (s & Hs & Es); auto.
    + destruct (f_texture f) as [t|]; [now apply Ht|exact I].
    + exists s. rewrite Es. auto.
  - intros s Hs. now apply surface_draws, Su.
Qed.

Definition convex_c35 := convex_full O laws.

Lemma concave_c35 : forall g, geometry_in_bounds g ->
  (collision_of O CConcave g = Ok ColNone <->
   forall b f, In b (eg_brushes g) -> In f (bg_faces b) -> f_vertices f = [])
  /\ (collision_of O CConcave g <> Ok ColNone ->
      exists vs ix, vs <> [] /\ collision_of O CConcave g = Ok (ColConcave [Concave (eg_center g) vs ix])).
Proof.
  intros g H. destruct (concave_full O laws g H) as (kept & vs & ix & E & _ & _ & _ & K). rewrite E, <- K.
  destruct vs as [|v vs]; split; try (split; congruence); try congruence.
  intros _. exists (v :: vs), ix. split; [discriminate|reflexivity].
Qed.
End F.

Lemma selection_c34 : forall bl t (g : entity_geo f32) f,
  In f (selected_faces (drawn_brush bl) (with_texture t) g) <->
  exists b, In b (eg_brushes g) /\ In f (bg_faces b) /\ f_texture f = t
    /\ exists f', In f' (bg_faces b) /\ forall t', f_texture f' = Some t' -> ~ In t' (bl_brush bl).
Proof.
  intros bl t g f. unfold selected_faces. rewrite in_flat_map. split.
  - intros (b & Hb & Hf). apply filter_In in Hb. apply filter_In in Hf. destruct Hb as [Hb D], Hf as [Hf W].
    exists b. split; [exact Hb|]. split; [exact Hf|]. split; [now apply with_texture_true|]. now apply drawn_brush_spec.
  - intros (b & Hb & Hf & Ht & D). exists b. split; apply filter_In; (split; [assumption|]).
    + now apply drawn_brush_spec. + now apply with_texture_true.
Qed.
