(** Where the triangles of meshes and collision shapes come from: lemmas for C106. *)
From Coq Require Import Permutation Lia.
From Verif Require Import Prelude F32 Text MapModel GeoModel LayerModel GameDataModel SceneModel RunModel
  GatherSpec SurfaceSpec GeoSpec LayerSpec TreeSpec PropertySpec MapSpec Utf8Spec RunSpec InvarianceSpec PointsSpec TriangleSpec
  BaseProofs TokenProofs ParserProofs MapProofs GatherProofs GeoProofs GeoFinal LayerProofs SurfaceProofs SurfaceFinal RunProofs SoundProofs PointsProofs.

Section Triangles.
Context (p : platform).
Local Notation O := (f32_num p).
Local Notation laws := (f32_eq_laws p).

Section Run.
Context (B : brush_geo f32 -> Prop) (B_bounds : forall b f, B b -> In f (bg_faces b) -> in_bounds f).

(** An array of triangles made of the faces of brushes with [B]. *)
Definition traced (x : list (vec3 f32) * list nat * option (option str)) : Prop :=
  let '(points, ix, t) := x in
  exists faces, draws O points ix faces
    /\ forall f, In f faces -> (exists b, B b /\ In f (bg_faces b)) /\ match t with Some t => f_texture f = t | None => True end.
Definition all_traced (n : node f32) : Prop := Forall traced (drawings n).

Lemma surface_traced : forall g bl t s, Forall B (eg_brushes g) -> texture_surface O g bl t = Ok (Some s) -> traced (s_vertices s, s_indices s, Some (s_texture s)).
Proof.
  intros g bl t s F E. pose proof (fine_bounds B B_bounds g F) as W.
  destruct (surface_c30 p g bl t W) as (os & E' & D). assert (os = Some s) by congruence. subst os.
  destruct (surface_full O laws g bl t W) as (os & E'' & kept & rs & _ & _ & M). assert (os = Some s) by congruence. subst os. destruct M as (_ & St & _ & _).
  exists (selected_faces (drawn_brush bl) (with_texture t) g). split; [exact D|].
  intros f Hf. unfold selected_faces in Hf. apply in_flat_map in Hf. destruct Hf as (b & Hb & Hf). apply filter_In in Hb, Hf. destruct Hb as [Hb _], Hf as [Hf Ht].
  split; [exists b; rewrite Forall_forall in F; auto|]. rewrite St. now apply with_texture_true in Ht.
Qed.

Lemma visual_traced : forall c gd bl e g v n, Forall B (eg_brushes g) -> entity_visual O gd bl e g = Ok v -> In n (visual_nodes c v) -> all_traced n.
Proof.
  intros c gd bl e g v n W E I. unfold entity_visual in E. destruct (get_property e (lit "classname")) as [cl|]; [|discriminate].
  destruct (find_def gd cl) as [d|]; [|injection E as <-; contradiction].
  destruct (ed_data d) as [q|q bd]; [injection E as <-; contradiction|]. unfold brush_visual in E.
  destruct (bd_visual bd); [injection E as <-; contradiction|]. cbv zeta in E. apply bind_ok in E. destruct E as (os & M & E). apply mapM_ok in M.
  assert (F : Forall traced (map (fun s => (s_vertices s, s_indices s, Some (s_texture s))) (filter_map (fun o => o) os))).
  { clear E. induction M as [|t o' ts os H M IH]; [constructor|]. destruct o' as [s|]; cbn; [|exact IH]. constructor; [eapply surface_traced; eauto|exact IH]. }
  destruct (filter_map (fun o => o) os) as [|s l]; injection E as <-; [contradiction|]. destruct I as [<-|[]]. exact F.
Qed.

Lemma collision_traced : forall c g ct k n, Forall B (eg_brushes g) -> collision_of O ct g = Ok k -> In n (collision_nodes c k) -> all_traced n.
Proof.
  intros c g ct k n F E I. pose proof (fine_bounds B B_bounds g F) as W. destruct ct.
  - injection E as <-. contradiction.
  - injection E as <-. destruct I as [<-|[]]. constructor.
  - destruct (concave_c30 p g W) as [E'|(vs & ix & E' & D)]; rewrite E' in E; injection E as <-; [contradiction|].
    destruct I as [<-|[]]. constructor; [|constructor]. exists (flat_map bg_faces (eg_brushes g)). split; [exact D|].
    intros f Hf. apply in_flat_map in Hf. destruct Hf as (b & Hb & Hf). split; [|trivial]. exists b. rewrite Forall_forall in F. auto.
Qed.

Lemma entity_collision_traced : forall c gd e g k n, Forall B (eg_brushes g) -> entity_collision O gd e g = Ok k -> In n (collision_nodes c k) -> all_traced n.
Proof.
  intros c gd e g k n W E I. unfold entity_collision in E. destruct (get_property e (lit "classname")) as [cl|]; [|discriminate].
  destruct (find_def gd cl) as [d|]; [|injection E as <-; contradiction].
  destruct (ed_data d) as [q|q bd]; [injection E as <-; contradiction|]. eapply collision_traced; eauto.
Qed.

Lemma entity_traced : forall gd fd bl data, (forall e g, In (e, g) data -> Forall B (eg_brushes g)) -> forall fuel origin e g m,
  In (e, g) data -> build_entity O fuel gd fd bl data origin (e, g) = Ok m -> forall n, within n m -> all_traced n.
Proof.
  intros gd fd bl data W fuel. induction fuel as [|fuel IH]; intros origin e g m I E n H; [discriminate|].
  cbn [build_entity] in E. apply bind_ok in E. destruct E as (v & Ev & E). apply bind_ok in E. destruct E as (k & Ek & E).
  apply bind_ok in E. destruct E as (ch & Ec & E). apply bind_ok in E. destruct E as (nm & _ & E). apply bind_ok in E. destruct E as (pr & _ & E).
  injection E as <-. inv H; [constructor|].
  match goal with H : In _ (_ ++ _) |- _ => apply in_app_or in H; destruct H as [H|H]; [|apply in_app_or in H; destruct H as [H|H]] end.
  - match goal with H : within _ _, K : In _ _ |- _ => pose proof (leaf_within _ _ _ _ K H); subst end. eapply visual_traced; eauto.
  - match goal with H : within _ _, K : In _ (collision_nodes _ _) |- _ => pose proof (leaf_within' _ _ _ _ K H); subst end. eapply entity_collision_traced; eauto.
  - apply mapM_ok in Ec. match goal with K : In _ ch |- _ => destruct (Forall2_in_r _ _ _ _ _ _ Ec K) as ([e' g'] & Hx & Ex) end.
    eapply IH; [|exact Ex|eassumption]. apply filter_In in Hx. destruct Hx as [Hx _]. destruct data; [contradiction|]. now right.
Qed.

Lemma layer_traced : forall gd t bs m, Forall B bs -> build_layer O gd (t, bs) = Ok (Some m) -> forall n, within n m -> all_traced n.
Proof.
  intros gd t bs m W E n H. unfold build_layer in E. destruct (filter _ (gd_layers gd)) as [|l [|]]; try discriminate.
  apply bind_ok in E. destruct E as (v & Ev & E). apply bind_ok in E. destruct E as (k & Ek & E).
  assert (A : forall x, In x (visual_nodes (v3_zero O) v ++ collision_nodes (v3_zero O) k) -> forall y, within y x -> all_traced y).
  { intros x Hx y Hy. apply in_app_or in Hx. destruct Hx as [Hx|Hx].
    - pose proof (leaf_within _ _ _ _ Hx Hy); subst. unfold layer_visual in Ev. destruct (wl_visual l); [injection Ev as <-; contradiction|].
      apply bind_ok in Ev. destruct Ev as (os & Es & Ev). destruct os as [s|]; injection Ev as <-; [|contradiction].
      destruct Hx as [<-|[]]. constructor; [|constructor]. eapply surface_traced; [|exact Es]. exact W.
    - pose proof (leaf_within' _ _ _ _ Hx Hy); subst. eapply collision_traced; [|exact Ek|exact Hx]. exact W. }
  destruct (visual_nodes (v3_zero O) v ++ collision_nodes (v3_zero O) k) as [|x xs] eqn:Ex; [discriminate|].
  injection E as <-. inv H; [constructor|]. eauto.
Qed.

Theorem run_traced : forall order, (forall m, Permutation (order m) m) -> forall fuel c nodes text ps es, file_text (cf_map c) text -> load p text = Ok (ps, es) ->
  (forall gs, build_geometry O (cf_textures c) es = Ok gs -> forall e g, In (e, g) (combine es gs) -> Forall B (eg_brushes g)) ->
  run p order fuel c = Ok nodes -> forall m n, In m nodes -> within n m -> all_traced n.
Proof.
  intros order P fuel c nodes text ps es Ft El Made E m n I H. rewrite run_split in E. apply read_ok in Ft. rewrite Ft in E. cbn [bind] in E. rewrite El in E. cbn [bind] in E.
  apply bind_ok in E. destruct E as (gs & Eg & E). apply bind_ok in E. destruct E as ([data layers] & Ef & E).
  destruct (filtered_fine B _ _ _ (Made gs Eg) Ef) as (Wd & Wl).
  unfold build_scene in E. apply bind_ok in E. destruct E as (w & Ew & E). apply bind_ok in E. destruct E as (ls & Els & E).
  apply bind_ok in E. destruct E as (os & Eo & E). injection E as <-. apply mapM_ok in Ew, Els, Eo.
  apply in_app_or in I. destruct I as [I|I]; [|apply in_app_or in I; destruct I as [I|I]].
  - destruct (Forall2_in_r _ _ _ _ _ _ Ew I) as ([e g] & Hd & Ed). eapply entity_traced; [exact Wd| |exact Ed|exact H].
    destruct data; [contradiction|]. destruct Hd as [->|[]]. now left.
  - apply filter_map_In in I. destruct I as (o & Io & ->). destruct (Forall2_in_r _ _ _ _ _ _ Els Io) as ([t bs] & Hd & Ed).
    eapply layer_traced; [|exact Ed|exact H]. apply (Wl t). eapply Permutation_in; [apply P|exact Hd].
  - destruct (Forall2_in_r _ _ _ _ _ _ Eo I) as ([e g] & Hd & Ed). eapply entity_traced; [exact Wd| |exact Ed|exact H].
    apply filter_In in Hd. destruct Hd as [Hd _]. destruct data; [contradiction|]. now right.
Qed.
End Run.

(** ** Triangles of an array lie in one face each *)
Lemma Forall2_nth : forall A C (R : A -> C -> Prop) l m i x, Forall2 R l m -> nth_error l i = Some x -> exists y, nth_error m i = Some y /\ R x y.
Proof. intros A C R l m i x H. revert i. induction H as [|a c l m Q H IH]; intros [|i] E; try discriminate; cbn in *; [injection E as ->; eauto|auto]. Qed.
Lemma Forall2_nth_r : forall A C (R : A -> C -> Prop) l m i y, Forall2 R l m -> nth_error m i = Some y -> exists x, nth_error l i = Some x /\ R x y.
Proof. intros A C R l m i y H. revert i. induction H as [|a c l m Q H IH]; intros [|i] E; try discriminate; cbn in *; [injection E as ->; eauto|auto]. Qed.

Lemma triple_face : forall (faces : list (face f32)) k, (forall f, In f faces -> exists n, length (face_corners f) = 3 * n) ->
  3 * k < length (flat_map face_corners faces) ->
  exists f m h, In f faces /\ 3 * m + 2 < length (face_corners f) /\ h + length (face_corners f) <= length (flat_map face_corners faces)
    /\ h + 3 * m = 3 * k /\ forall i, i < length (face_corners f) -> nth_error (flat_map face_corners faces) (h + i) = nth_error (face_corners f) i.
Proof.
  induction faces as [|f faces IH]; intros k M L; [cbn in L; lia|]. destruct (M f (or_introl eq_refl)) as (n & Ln). cbn [flat_map] in *. rewrite app_length in *.
  destruct (Nat.lt_ge_cases k n) as [Lt|Ge].
  - exists f, k, 0. split; [now left|]. split; [lia|]. split; [lia|]. split; [lia|]. intros i Hi. cbn [plus]. apply nth_error_app1. exact Hi.
  - destruct (IH (k - n)) as (f' & m & h & If & Lm & Lh & Eh & N); [intros; apply M; now right|lia|].
    exists f', m, (length (face_corners f) + h). split; [now right|]. split; [exact Lm|]. split; [lia|]. split; [lia|].
    intros i Hi. rewrite nth_error_app2 by lia. replace (length (face_corners f) + h + i - length (face_corners f)) with (h + i) by lia. auto.
Qed.
End Triangles.
