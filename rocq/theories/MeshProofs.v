(** Where the vertices of meshes come from: lemmas for C102. *)
From Coq Require Import Permutation.
From Verif Require Import Prelude F32 Text MapModel GeoModel LayerModel GameDataModel SceneModel RunModel
  GatherSpec SurfaceSpec GeoSpec LayerSpec TreeSpec PropertySpec MapSpec Utf8Spec RunSpec InvarianceSpec PointsSpec
  BaseProofs TokenProofs ParserProofs MapProofs GatherProofs GeoProofs GeoFinal LayerProofs SurfaceProofs SurfaceFinal RunProofs SoundProofs PointsProofs.

Section Mesh.
Context (p : platform).
Local Notation O := (f32_num p).
Local Notation laws := (f32_eq_laws p).

(** A surface made of vertices of faces of brushes with [B]. *)
Definition mesh_of (B : brush_geo f32 -> Prop) (s : surface f32) : Prop :=
  exists vs, vs <> [] /\ describes s vs /\ forall w, In w vs -> exists b f, B b /\ In f (bg_faces b) /\ f_texture f = s_texture s /\ In w (f_vertices f)
    /\ forall w', In w' (f_vertices f) -> exists v', In v' (s_vertices s) /\ (v' = vt_pos w' \/ pos_eq O v' (vt_pos w')).

Section Run.
Context (B : brush_geo f32 -> Prop) (B_bounds : forall b f, B b -> In f (bg_faces b) -> in_bounds f).
Definition meshed (n : node f32) : Prop := forall o ss, n = NVisual o (VisMesh ss) -> Forall (mesh_of B) ss.

Lemma surface_mesh : forall g bl t s, Forall B (eg_brushes g) -> texture_surface O g bl t = Ok (Some s) -> mesh_of B s.
Proof.
  intros g bl t s F E. destruct (surface_full O laws g bl t (fine_bounds B B_bounds g F)) as (os & E' & kept & rs & F1 & _ & M).
  assert (os = Some s) by congruence. subst os. destruct M as (Ne & St & D & _). exists (concat kept). split; [exact Ne|]. split; [exact D|].
  intros w Hw. apply in_concat in Hw. destruct Hw as (out & Ho & Hw).
  destruct (Forall2_in_r _ _ _ _ _ _ F1 Ho) as (b & Hb & Rs). destruct (restriction_In _ _ _ _ w Rs Hw) as (i & Hi & _). apply nth_error_In in Hi.
  apply in_flat_map in Hi. destruct Hi as (f & Hf & Hwf). pose proof Hf as Hf'. apply filter_In in Hf'. destruct Hf' as [Hf' Ht].
  exists b, f. apply filter_In in Hb. rewrite Forall_forall in F. split; [now apply F|]. split; [exact Hf'|].
  split; [rewrite St; now apply with_texture_true in Ht|]. split; [exact Hwf|].
  destruct D as (D & _). rewrite D.
  intros w' Hw'. destruct (restriction_cover p (same_vertex O) (vertex_eq O) (eqb_vertex O) (vertex_refines O) _ _ w' Rs) as (z & Hz & Ez); [apply in_flat_map; eauto|].
  exists (vt_pos z). split; [apply in_map, in_concat; eauto|]. destruct Ez as [->|Ez]; [now left|right; exact Ez].
Qed.

Lemma visual_mesh : forall c gd bl e g v n, Forall B (eg_brushes g) -> entity_visual O gd bl e g = Ok v -> In n (visual_nodes c v) -> meshed n.
Proof.
  intros c gd bl e g v n W E I o ss En. unfold entity_visual in E. destruct (get_property e (lit "classname")) as [cl|]; [|discriminate].
  destruct (find_def gd cl) as [d|]; [|injection E as <-; contradiction].
  destruct (ed_data d) as [q|q bd]; [injection E as <-; contradiction|]. unfold brush_visual in E.
  destruct (bd_visual bd); [injection E as <-; contradiction|]. cbv zeta in E. apply bind_ok in E. destruct E as (os & M & E). apply mapM_ok in M.
  assert (F : Forall (mesh_of B) (filter_map (fun o => o) os)).
  { clear E. induction M as [|t o' ts os H M IH]; [constructor|]. destruct o' as [s|]; cbn; [|exact IH]. constructor; [eapply surface_mesh; eauto|exact IH]. }
  destruct (filter_map (fun o => o) os) as [|s l]; injection E as <-; [contradiction|]. destruct I as [<-|[]]. injection En as _ <-. exact F.
Qed.
Lemma collision_mesh : forall c (k : collision f32) n, In n (collision_nodes c k) -> meshed n.
Proof. intros c k n I o ss En. destruct k; [contradiction| |]; destruct I as [<-|[]]; discriminate. Qed.

Lemma entity_mesh : forall gd fd bl data, (forall e g, In (e, g) data -> Forall B (eg_brushes g)) -> forall fuel origin e g m,
  In (e, g) data -> build_entity O fuel gd fd bl data origin (e, g) = Ok m -> forall n, within n m -> meshed n.
Proof.
  intros gd fd bl data W fuel. induction fuel as [|fuel IH]; intros origin e g m I E n H; [discriminate|].
  cbn [build_entity] in E. apply bind_ok in E. destruct E as (v & Ev & E). apply bind_ok in E. destruct E as (k & Ek & E).
  apply bind_ok in E. destruct E as (ch & Ec & E). apply bind_ok in E. destruct E as (nm & _ & E). apply bind_ok in E. destruct E as (pr & _ & E).
  injection E as <-. inv H; [intros o ss; discriminate|].
  match goal with H : In _ (_ ++ _) |- _ => apply in_app_or in H; destruct H as [H|H]; [|apply in_app_or in H; destruct H as [H|H]] end.
  - match goal with H : within _ _, K : In _ _ |- _ => pose proof (leaf_within _ _ _ _ K H); subst end. eapply visual_mesh; eauto.
  - match goal with H : within _ _, K : In _ (collision_nodes _ _) |- _ => pose proof (leaf_within' _ _ _ _ K H); subst end. eapply collision_mesh; eauto.
  - apply mapM_ok in Ec. match goal with K : In _ ch |- _ => destruct (Forall2_in_r _ _ _ _ _ _ Ec K) as ([e' g'] & Hx & Ex) end.
    eapply IH; [|exact Ex|eassumption]. apply filter_In in Hx. destruct Hx as [Hx _]. destruct data; [contradiction|]. now right.
Qed.

Lemma layer_mesh : forall gd t bs m, Forall B bs -> build_layer O gd (t, bs) = Ok (Some m) -> forall n, within n m -> meshed n.
Proof.
  intros gd t bs m W E n H. unfold build_layer in E. destruct (filter _ (gd_layers gd)) as [|l [|]]; try discriminate.
  apply bind_ok in E. destruct E as (v & Ev & E). apply bind_ok in E. destruct E as (k & Ek & E).
  assert (A : forall x, In x (visual_nodes (v3_zero O) v ++ collision_nodes (v3_zero O) k) -> forall y, within y x -> meshed y).
  { intros x Hx y Hy. apply in_app_or in Hx. destruct Hx as [Hx|Hx].
    - pose proof (leaf_within _ _ _ _ Hx Hy); subst. unfold layer_visual in Ev. destruct (wl_visual l); [injection Ev as <-; contradiction|].
      apply bind_ok in Ev. destruct Ev as (os & Es & Ev). destruct os as [s|]; injection Ev as <-; [|contradiction].
      destruct Hx as [<-|[]]. intros o ss En. injection En as _ <-. constructor; [|constructor]. eapply surface_mesh; [|exact Es]. exact W.
    - pose proof (leaf_within' _ _ _ _ Hx Hy); subst. eapply collision_mesh; exact Hx. }
  destruct (visual_nodes (v3_zero O) v ++ collision_nodes (v3_zero O) k) as [|x xs] eqn:Ex; [discriminate|].
  injection E as <-. inv H; [intros o ss; discriminate|]. eauto.
Qed.

Theorem run_mesh : forall order, (forall m, Permutation (order m) m) -> forall fuel c nodes text ps es, file_text (cf_map c) text -> load p text = Ok (ps, es) ->
  (forall gs, build_geometry O (cf_textures c) es = Ok gs -> forall e g, In (e, g) (combine es gs) -> Forall B (eg_brushes g)) ->
  run p order fuel c = Ok nodes -> forall m n, In m nodes -> within n m -> meshed n.
Proof.
  intros order P fuel c nodes text ps es Ft El Made E m n I H. rewrite run_split in E. apply read_ok in Ft. rewrite Ft in E. cbn [bind] in E. rewrite El in E. cbn [bind] in E.
  apply bind_ok in E. destruct E as (gs & Eg & E). apply bind_ok in E. destruct E as ([data layers] & Ef & E).
  destruct (filtered_fine B _ _ _ (Made gs Eg) Ef) as (Wd & Wl).
  unfold build_scene in E. apply bind_ok in E. destruct E as (w & Ew & E). apply bind_ok in E. destruct E as (ls & Els & E).
  apply bind_ok in E. destruct E as (os & Eo & E). injection E as <-. apply mapM_ok in Ew, Els, Eo.
  apply in_app_or in I. destruct I as [I|I]; [|apply in_app_or in I; destruct I as [I|I]].
  - destruct (Forall2_in_r _ _ _ _ _ _ Ew I) as ([e g] & Hd & Ed). eapply entity_mesh; [exact Wd| |exact Ed|exact H].
    destruct data; [contradiction|]. destruct Hd as [->|[]]. now left.
  - apply filter_map_In in I. destruct I as (o & Io & ->). destruct (Forall2_in_r _ _ _ _ _ _ Els Io) as ([t bs] & Hd & Ed).
    eapply layer_mesh; [|exact Ed|exact H]. apply (Wl t). eapply Permutation_in; [apply P|exact Hd].
  - destruct (Forall2_in_r _ _ _ _ _ _ Eo I) as ([e g] & Hd & Ed). eapply entity_mesh; [exact Wd| |exact Ed|exact H].
    apply filter_In in Hd. destruct Hd as [Hd _]. destruct data; [contradiction|]. now right.
Qed.
End Run.
End Mesh.
