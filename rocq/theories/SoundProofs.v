(** Meshes of whole runs are well formed: lemmas for C79. *)
From Coq Require Import Permutation.
From Verif Require Import Prelude F32 Text MapModel GeoModel LayerModel GameDataModel SceneModel RunModel
  GatherSpec SurfaceSpec GeoSpec LayerSpec TreeSpec PropertySpec MapSpec Utf8Spec RunSpec InvarianceSpec
  BaseProofs ParserProofs MapProofs GeoProofs GeoFinal LayerProofs SurfaceProofs SurfaceFinal RunProofs.

(** What is known of every built face. *)
Definition whole (f : face f32) : Prop :=
  in_bounds f /\ (exists k, length (f_indices f) = 3 * k) /\ forall v, In v (f_vertices f) -> (f_texture f = None <-> vt_uv v = None).
Definition whole_brushes (bs : list (brush_geo f32)) : Prop := forall b f, In b bs -> In f (bg_faces b) -> whole f.

Section Sound.
Context (p : platform).
Local Notation O := (f32_num p).

Lemma built_whole : forall tx es gs, build_geometry O tx es = Ok gs -> forall e g, In (e, g) (combine es gs) -> whole_brushes (eg_brushes g).
Proof.
  intros tx es gs E e g I b f Hb Hf. apply geometry_shape in E. apply (in_combine_Forall2 _ _ _ _ _ _ _ E) in I.
  destruct I as (I & _). destruct (Forall2_in_r _ _ _ _ _ _ I Hb) as (br & _ & F & _).
  destruct (Forall2_in_r _ _ _ _ _ _ F Hf) as (pl & _ & B). pose proof B as K. apply face_texture in K. destruct K as (_ & U & _).
  apply face_fan in B. destruct B as (L & B & _). split; [exact B|]. split; [eauto|]. intros v Hv. now symmetry; apply U.
Qed.
Lemma filtered_whole : forall (data out : list (entity f32 * entity_geo f32)) layers,
  (forall e g, In (e, g) data -> whole_brushes (eg_brushes g)) -> layer_filter data = Ok (out, layers) ->
  (forall e g, In (e, g) out -> whole_brushes (eg_brushes g)) /\ (forall t bs, In (t, bs) layers -> whole_brushes bs).
Proof.
  intros data out layers B E. destruct (layer_filter_single data _ E) as (we & wg & others & S).
  rewrite (layer_filter_ok data we wg others S) in E. injection E as <- <-.
  destruct S as (pre & post & -> & -> & _ & _).
  assert (W : whole_brushes (eg_brushes wg)) by (apply (B we); apply in_or_app; simpl; auto). split.
  - intros e g [I|I].
    + injection I as <- <-. intros b f Hb Hf. simpl in Hb. apply filter_In in Hb. destruct Hb as [Hb _]. apply filter_In in Hb. apply (W b f); tauto.
    + apply (B e). apply in_app_or in I. apply in_or_app. simpl. tauto.
  - intros t bs [I|[I|[]]]; injection I as <- <-; intros b f Hb Hf; simpl in Hb; apply filter_In in Hb; destruct Hb as [Hb _].
    + apply (W b f); auto.
    + apply filter_In in Hb. apply (W b f); tauto.
Qed.

Lemma whole_bounds : forall g : entity_geo f32, whole_brushes (eg_brushes g) -> geometry_in_bounds g.
Proof. intros g W b f Hb Hf. now apply (W b f). Qed.
Lemma whole_uvs : forall g : entity_geo f32, whole_brushes (eg_brushes g) -> uv_iff_texture g.
Proof. intros g W b f v Hb Hf. now apply (W b f). Qed.

Lemma sum_three : forall l : list nat, Forall (fun n => exists k, n = 3 * k) l -> exists k, list_sum l = 3 * k.
Proof.
  intros l F. induction F as [|n l (k & ->) F (j & IH)]; [exists 0; reflexivity|]. exists (k + j). cbn. fold (list_sum l). lia.
Qed.
Lemma draws_triangles : forall points ix faces, Forall whole faces -> draws O points ix faces -> triangles points ix.
Proof.
  intros points ix faces W (L & B & _). split; [|exact B]. rewrite L. apply sum_three. apply Forall_map. eapply Forall_impl; [|exact W].
  intros f H. apply H.
Qed.
Lemma selected_whole : forall bp fp (g : entity_geo f32), whole_brushes (eg_brushes g) -> Forall whole (selected_faces bp fp g).
Proof.
  intros bp fp g W. apply Forall_forall. intros f H. apply in_flat_map in H. destruct H as (b & Hb & Hf).
  apply filter_In in Hb, Hf. apply (W b f); tauto.
Qed.

Lemma surface_sound : forall g bl t s, whole_brushes (eg_brushes g) -> texture_surface O g bl t = Ok (Some s) -> sound_surface s.
Proof.
  intros g bl t s W E. pose proof (whole_bounds g W) as B.
  destruct (surface_c33 p g bl t s B E) as (N & Ln & Lt & Lu & Lc & U). specialize (U (whole_uvs g W)).
  destruct (surface_c33_describes p g bl t s B E) as (St & _).
  destruct (surface_c30 p g bl t B) as (os & E' & D). rewrite E in E'. injection E' as <-.
  unfold sound_surface. rewrite St. split; [exact N|]. split; [eapply draws_triangles; [apply selected_whole; exact W|exact D]|].
  repeat split; try tauto; auto.
Qed.

Lemma visual_sound : forall c gd bl e g v n, whole_brushes (eg_brushes g) -> entity_visual O gd bl e g = Ok v ->
  In n (visual_nodes c v) -> sound_node p n.
Proof.
  intros c gd bl e g v n W E I. unfold entity_visual in E. destruct (get_property e (lit "classname")) as [cl|]; [|discriminate].
  destruct (find_def gd cl) as [d|]; [|injection E as <-; contradiction].
  destruct (ed_data d) as [q|q bd]; [injection E as <-; contradiction|].
  destruct (bd_visual bd) eqn:V; [unfold brush_visual in E; rewrite V in E; injection E as <-; contradiction|].
  destruct (mesh_c34 p e g bd bl (whole_bounds g W) V) as (l & E' & N & _).
  assert (So : Forall sound_surface l).
  { clear I. unfold brush_visual in E, E'. rewrite V in E, E'. cbv zeta in E, E'. rewrite E in E'. injection E' as ->.
    apply bind_ok in E. destruct E as (os & M & E). apply mapM_ok in M.
    assert (F : Forall sound_surface (filter_map (fun o => o) os)).
    { clear E. induction M as [|t o ts os H M IH]; [constructor|]. destruct o as [s|]; cbn; [|exact IH]. constructor; [eapply surface_sound; eauto|exact IH]. }
    destruct (filter_map (fun o => o) os); destruct l; try discriminate; [constructor|]. injection E as <- <-. exact F. }
  rewrite E in E'. injection E' as ->. destruct l as [|s l]; [contradiction|]. destruct I as [<-|[]]. cbn. repeat split; auto. discriminate.
Qed.
Lemma collision_sound : forall c t g k n, whole_brushes (eg_brushes g) -> collision_of O t g = Ok k ->
  In n (collision_nodes c k) -> sound_node p n.
Proof.
  intros c t g k n W E I. destruct t.
  - injection E as <-. contradiction.
  - destruct (convex_c35 p g) as (shapes & E' & F). rewrite E in E'. injection E' as ->. destruct I as [<-|[]]. cbn.
    apply Forall_forall. intros x Hx. destruct (Forall2_in_r _ _ _ _ _ _ F Hx) as (b & _ & _ & _ & Pn & _). exact Pn.
  - destruct (concave_c30 p g (whole_bounds g W)) as [E'|(vs & ix & E' & D)]; rewrite E in E'; injection E' as ->; [contradiction|].
    destruct (concave_c35 p g (whole_bounds g W)) as (_ & C). destruct C as (vs' & ix' & N & C); [rewrite E; discriminate|].
    rewrite E in C. injection C as <- <-. destruct I as [<-|[]]. cbn. eexists. split; [reflexivity|]. cbn. split; [exact N|].
    eapply draws_triangles; [|exact D]. apply Forall_forall. intros f Hf. apply in_flat_map in Hf. destruct Hf as (b & Hb & Hf). now apply (W b f).
Qed.
Lemma entity_collision_sound : forall c gd e g k n, whole_brushes (eg_brushes g) -> entity_collision O gd e g = Ok k ->
  In n (collision_nodes c k) -> sound_node p n.
Proof.
  intros c gd e g k n W E I. unfold entity_collision in E. destruct (get_property e (lit "classname")) as [cl|]; [|discriminate].
  destruct (find_def gd cl) as [d|]; [|injection E as <-; contradiction].
  destruct (ed_data d) as [q|q bd]; [injection E as <-; contradiction|]. eapply collision_sound; eauto.
Qed.

Lemma leaf_within : forall (c : vec3 f32) v n m, In m (visual_nodes c v) -> within n m -> n = m.
Proof. intros c v n m I H. destruct v; [contradiction|]. destruct I as [<-|[]]. now inv H. Qed.
Lemma leaf_within' : forall (c : vec3 f32) k n m, In m (collision_nodes c k) -> within n m -> n = m.
Proof. intros c k n m I H. destruct k; [contradiction| |]; destruct I as [<-|[]]; now inv H. Qed.

Lemma entity_sound : forall gd fd bl data, (forall e g, In (e, g) data -> whole_brushes (eg_brushes g)) -> forall fuel origin e g m,
  In (e, g) data -> build_entity O fuel gd fd bl data origin (e, g) = Ok m -> forall n, within n m -> sound_node p n.
Proof.
  intros gd fd bl data W fuel. induction fuel as [|fuel IH]; intros origin e g m I E n H; [discriminate|].
  cbn [build_entity] in E. apply bind_ok in E. destruct E as (v & Ev & E). apply bind_ok in E. destruct E as (k & Ek & E).
  apply bind_ok in E. destruct E as (ch & Ec & E). apply bind_ok in E. destruct E as (nm & _ & E). apply bind_ok in E. destruct E as (pr & _ & E).
  injection E as <-. inv H; [exact Logic.I|].
  match goal with H : In _ (_ ++ _) |- _ => apply in_app_or in H; destruct H as [H|H]; [|apply in_app_or in H; destruct H as [H|H]] end.
  - match goal with H : within _ _, K : In _ _ |- _ => pose proof (leaf_within _ _ _ _ K H); subst end. eapply visual_sound; eauto.
  - match goal with H : within _ _, K : In _ (collision_nodes _ _) |- _ => pose proof (leaf_within' _ _ _ _ K H); subst end. eapply entity_collision_sound; eauto.
  - apply mapM_ok in Ec. match goal with K : In _ ch |- _ => destruct (Forall2_in_r _ _ _ _ _ _ Ec K) as ([e' g'] & Hx & Ex) end.
    eapply IH; [|exact Ex|eassumption]. apply filter_In in Hx. destruct Hx as [Hx _]. destruct data; [contradiction|]. now right.
Qed.

Lemma layer_sound : forall gd t bs m, whole_brushes bs -> build_layer O gd (t, bs) = Ok (Some m) -> forall n, within n m -> sound_node p n.
Proof.
  intros gd t bs m W E n H. unfold build_layer in E. destruct (filter _ (gd_layers gd)) as [|l [|]]; try discriminate.
  apply bind_ok in E. destruct E as (v & Ev & E). apply bind_ok in E. destruct E as (k & Ek & E).
  assert (A : forall x, In x (visual_nodes (v3_zero O) v ++ collision_nodes (v3_zero O) k) -> forall y, within y x -> sound_node p y).
  { intros x Hx y Hy. apply in_app_or in Hx. destruct Hx as [Hx|Hx].
    - pose proof (leaf_within _ _ _ _ Hx Hy); subst. unfold layer_visual in Ev. destruct (wl_visual l); [injection Ev as <-; contradiction|].
      apply bind_ok in Ev. destruct Ev as (os & Es & Ev). destruct os as [s|]; injection Ev as <-; [|contradiction].
      destruct Hx as [<-|[]]. cbn. split; [discriminate|]. split; [repeat constructor; intros []|]. constructor; [|constructor].
      eapply surface_sound; [|exact Es]. exact W.
    - pose proof (leaf_within' _ _ _ _ Hx Hy); subst. eapply collision_sound; [|exact Ek|exact Hx]. exact W. }
  destruct (visual_nodes (v3_zero O) v ++ collision_nodes (v3_zero O) k) as [|x xs] eqn:Ex; [discriminate|].
  injection E as <-. inv H; [exact Logic.I|]. eauto.
Qed.

Theorem run_sound : forall order, (forall m, Permutation (order m) m) -> forall fuel c nodes, run p order fuel c = Ok nodes ->
  forall m n, In m nodes -> within n m -> sound_node p n.
Proof.
  intros order P fuel c nodes E m n I H. rewrite run_split in E. apply bind_ok in E. destruct E as (text & _ & E).
  apply bind_ok in E. destruct E as ([ps es] & _ & E). apply bind_ok in E. destruct E as (gs & Eg & E).
  apply bind_ok in E. destruct E as ([data layers] & Ef & E).
  destruct (filtered_whole _ _ _ (built_whole _ _ _ Eg) Ef) as (Wd & Wl).
  unfold build_scene in E. apply bind_ok in E. destruct E as (w & Ew & E). apply bind_ok in E. destruct E as (ls & El & E).
  apply bind_ok in E. destruct E as (os & Eo & E). injection E as <-. apply mapM_ok in Ew, El, Eo.
  apply in_app_or in I. destruct I as [I|I]; [|apply in_app_or in I; destruct I as [I|I]].
  - destruct (Forall2_in_r _ _ _ _ _ _ Ew I) as ([e g] & Hd & Ed). eapply entity_sound; [exact Wd| |exact Ed|exact H].
    destruct data; [contradiction|]. destruct Hd as [->|[]]. now left.
  - apply filter_map_In in I. destruct I as (o & Io & ->). destruct (Forall2_in_r _ _ _ _ _ _ El Io) as ([t bs] & Hd & Ed).
    eapply layer_sound; [|exact Ed|exact H]. apply (Wl t). eapply Permutation_in; [apply P|exact Hd].
  - destruct (Forall2_in_r _ _ _ _ _ _ Eo I) as ([e g] & Hd & Ed). eapply entity_sound; [exact Wd| |exact Ed|exact H].
    apply filter_In in Hd. destruct Hd as [Hd _]. destruct data; [contradiction|]. now right.
Qed.
End Sound.
