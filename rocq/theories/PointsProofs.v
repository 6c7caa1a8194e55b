(** Where the points of meshes come from: lemmas for C97. *)
From Coq Require Import Permutation.
From Verif Require Import Prelude F32 Text MapModel GeoModel LayerModel GameDataModel SceneModel RunModel
  GatherSpec SurfaceSpec GeoSpec LayerSpec TreeSpec PropertySpec MapSpec Utf8Spec RunSpec InvarianceSpec PointsSpec
  BaseProofs TokenProofs ParserProofs MapProofs GatherProofs GeoProofs GeoFinal LayerProofs SurfaceProofs SurfaceFinal RunProofs SoundProofs.

Section Points.
Context (p : platform).
Local Notation O := (f32_num p).
Local Notation laws := (f32_eq_laws p).

(** Nothing is lost by dropping equals: each vertex has one at its position among those kept. *)
Lemma restriction_cover : forall eqb (R : vertex f32 -> vertex f32 -> Prop), (forall a b, eqb a b = true <-> R a b) ->
  (forall a b, R a b -> vertex_pos_eq O a b) -> forall vs out v, restriction (first_of_equals R vs) vs out -> In v vs ->
  exists w, In w out /\ (w = v \/ vertex_pos_eq O w v).
Proof.
  intros eqb R Rf Rp vs out v Rs I. apply In_nth_error in I. destruct I as (i & Hi).
  assert (L : i < length vs) by (apply nth_error_Some; congruence).
  destruct (kept (first_at eqb) vs i) eqn:K.
  - apply (kept_spec O eqb R Rf Rp vs i L) in K. exists v. split; [eapply restriction_has; eauto|now left].
  - unfold kept in K. rewrite Hi in K.
    destruct (first_at_dropped O laws eqb (refines' O eqb R Rf Rp) vs i v Hi K) as (k & Ek & Lk & Kk).
    apply position_some in Ek. destruct Ek as ((w & Hw & Ew) & _). apply eqb_position in Ew.
    apply (kept_spec O eqb R Rf Rp vs k) in Kk; [|lia]. exists w. split; [eapply restriction_has; eauto|now right].
Qed.

(** A list of points that are corners of faces of brushes with [B], with all corners of the same face. *)
Definition of_faces (B : brush_geo f32 -> Prop) (l : list (vec3 f32)) : Prop :=
  forall v, In v l -> exists b f w, B b /\ In f (bg_faces b) /\ In w (f_vertices f) /\ v = vt_pos w
    /\ forall w', In w' (f_vertices f) -> exists v', In v' l /\ (v' = vt_pos w' \/ pos_eq O v' (vt_pos w')).

Lemma kept_faces : forall (B : brush_geo f32 -> Prop) eqb R fp bs kept, (forall a b, eqb a b = true <-> R a b) ->
  (forall a b, R a b -> vertex_pos_eq O a b) -> Forall B bs ->
  Forall2 (fun b out => restriction (first_of_equals R (face_vertices (brush_faces fp b))) (face_vertices (brush_faces fp b)) out) bs kept ->
  of_faces B (map vt_pos (concat kept)).
Proof.
  intros B eqb R fp bs kept Rf Rp Bs F v Hv. apply in_map_iff in Hv. destruct Hv as (w & <- & Hw). apply in_concat in Hw. destruct Hw as (out & Ho & Hw).
  destruct (Forall2_in_r _ _ _ _ _ _ F Ho) as (b & Hb & Rs). destruct (restriction_In _ _ _ _ w Rs Hw) as (i & Hi & _). apply nth_error_In in Hi.
  apply in_flat_map in Hi. destruct Hi as (f & Hf & Hwf). pose proof Hf as Hf'. apply filter_In in Hf'. destruct Hf' as [Hf' _].
  exists b, f, w. rewrite Forall_forall in Bs. split; [now apply Bs|]. split; [exact Hf'|]. split; [exact Hwf|]. split; [reflexivity|].
  intros w' Hw'. destruct (restriction_cover eqb R Rf Rp _ _ w' Rs) as (z & Hz & E); [apply in_flat_map; eauto|].
  exists (vt_pos z). split; [apply in_map, in_concat; eauto|]. destruct E as [->|E]; [now left|right; exact E].
Qed.

Section Run.
(** What is known of every brush. *)
Context (B : brush_geo f32 -> Prop) (B_bounds : forall b f, B b -> In f (bg_faces b) -> in_bounds f).
Definition fine (n : node f32) : Prop := Forall (of_faces B) (point_lists n).

Lemma fine_bounds : forall g : entity_geo f32, Forall B (eg_brushes g) -> geometry_in_bounds g.
Proof. intros g F b f Hb Hf. rewrite Forall_forall in F. apply (B_bounds b); auto. Qed.
Lemma filter_Forall : forall (P : brush_geo f32 -> bool) l, Forall B l -> Forall B (filter P l).
Proof. intros P l F. rewrite Forall_forall in *. intros x H. apply filter_In in H. apply F, H. Qed.

Lemma surface_fine : forall g bl t s, Forall B (eg_brushes g) -> texture_surface O g bl t = Ok (Some s) -> of_faces B (s_vertices s).
Proof.
  intros g bl t s F E. destruct (surface_full O laws g bl t (fine_bounds g F)) as (os & E' & kept & rs & F1 & _ & M).
  assert (os = Some s) by congruence. subst os. destruct M as (_ & _ & (D & _) & _). rewrite D.
  eapply kept_faces; [apply eqb_vertex|apply vertex_refines| |exact F1]. now apply filter_Forall.
Qed.
Lemma visual_fine : forall c gd bl e g v n, Forall B (eg_brushes g) -> entity_visual O gd bl e g = Ok v -> In n (visual_nodes c v) -> fine n.
Proof.
  intros c gd bl e g v n W E I. unfold entity_visual in E. destruct (get_property e (lit "classname")) as [cl|]; [|discriminate].
  destruct (find_def gd cl) as [d|]; [|injection E as <-; contradiction].
  destruct (ed_data d) as [q|q bd]; [injection E as <-; contradiction|]. unfold brush_visual in E.
  destruct (bd_visual bd); [injection E as <-; contradiction|]. cbv zeta in E. apply bind_ok in E. destruct E as (os & M & E). apply mapM_ok in M.
  assert (F : Forall (fun s => of_faces B (s_vertices s)) (filter_map (fun o => o) os)).
  { clear E. induction M as [|t o ts os H M IH]; [constructor|]. destruct o as [s|]; cbn; [|exact IH]. constructor; [eapply surface_fine; eauto|exact IH]. }
  destruct (filter_map (fun o => o) os) as [|s l]; injection E as <-; [contradiction|]. destruct I as [<-|[]]. unfold fine. cbn [point_lists].
  apply Forall_map. exact F.
Qed.
Lemma collision_fine : forall c t g k n, Forall B (eg_brushes g) -> collision_of O t g = Ok k -> In n (collision_nodes c k) -> fine n.
Proof.
  intros c t g k n W E I. destruct t.
  - injection E as <-. contradiction.
  - destruct (convex_full O laws g) as (shapes & E' & F). rewrite E in E'. injection E' as ->. destruct I as [<-|[]]. unfold fine. cbn [point_lists].
    apply Forall_map, Forall_forall. intros x Hx. destruct (Forall2_in_r _ _ _ _ _ _ F Hx) as (b & Hb & _ & _ & _ & C1 & C2).
    intros v Hv. destruct (C2 v Hv) as (f & w & Hf & Hw & ->). exists b, f, w. rewrite Forall_forall in W. repeat split; auto. intros w' Hw'. eauto.
  - destruct (concave_full O laws g (fine_bounds g W)) as (kept & vs & ix & E' & F & -> & _). rewrite E in E'. injection E' as ->.
    assert (K : of_faces B (map vt_pos (concat kept))).
    { apply (kept_faces B (same_position O) (vertex_pos_eq O) (fun _ => true) (eg_brushes g)); [apply position_reflects|auto|exact W|].
      eapply Forall2_impl; [|exact F]. cbv beta. intros b out (Rs & _). unfold brush_faces.
      assert (FT : forall (l : list (face f32)), filter (fun _ => true) l = l) by (intros l; induction l as [|y l IH]; simpl; congruence). rewrite FT. exact Rs. }
    destruct (map vt_pos (concat kept)) as [|x l]; [contradiction|]. destruct I as [<-|[]]. unfold fine. cbn [point_lists map cc_vertices]. constructor; [exact K|constructor].
Qed.
Lemma entity_collision_fine : forall c gd e g k n, Forall B (eg_brushes g) -> entity_collision O gd e g = Ok k -> In n (collision_nodes c k) -> fine n.
Proof.
  intros c gd e g k n W E I. unfold entity_collision in E. destruct (get_property e (lit "classname")) as [cl|]; [|discriminate].
  destruct (find_def gd cl) as [d|]; [|injection E as <-; contradiction].
  destruct (ed_data d) as [q|q bd]; [injection E as <-; contradiction|]. eapply collision_fine; eauto.
Qed.

Lemma entity_fine : forall gd fd bl data, (forall e g, In (e, g) data -> Forall B (eg_brushes g)) -> forall fuel origin e g m,
  In (e, g) data -> build_entity O fuel gd fd bl data origin (e, g) = Ok m -> forall n, within n m -> fine n.
Proof.
  intros gd fd bl data W fuel. induction fuel as [|fuel IH]; intros origin e g m I E n H; [discriminate|].
  cbn [build_entity] in E. apply bind_ok in E. destruct E as (v & Ev & E). apply bind_ok in E. destruct E as (k & Ek & E).
  apply bind_ok in E. destruct E as (ch & Ec & E). apply bind_ok in E. destruct E as (nm & _ & E). apply bind_ok in E. destruct E as (pr & _ & E).
  injection E as <-. inv H; [constructor|].
  match goal with H : In _ (_ ++ _) |- _ => apply in_app_or in H; destruct H as [H|H]; [|apply in_app_or in H; destruct H as [H|H]] end.
  - match goal with H : within _ _, K : In _ _ |- _ => pose proof (leaf_within _ _ _ _ K H); subst end. eapply visual_fine; eauto.
  - match goal with H : within _ _, K : In _ (collision_nodes _ _) |- _ => pose proof (leaf_within' _ _ _ _ K H); subst end. eapply entity_collision_fine; eauto.
  - apply mapM_ok in Ec. match goal with K : In _ ch |- _ => destruct (Forall2_in_r _ _ _ _ _ _ Ec K) as ([e' g'] & Hx & Ex) end.
    eapply IH; [|exact Ex|eassumption]. apply filter_In in Hx. destruct Hx as [Hx _]. destruct data; [contradiction|]. now right.
Qed.

Lemma layer_fine : forall gd t bs m, Forall B bs -> build_layer O gd (t, bs) = Ok (Some m) -> forall n, within n m -> fine n.
Proof.
  intros gd t bs m W E n H. unfold build_layer in E. destruct (filter _ (gd_layers gd)) as [|l [|]]; try discriminate.
  apply bind_ok in E. destruct E as (v & Ev & E). apply bind_ok in E. destruct E as (k & Ek & E).
  assert (A : forall x, In x (visual_nodes (v3_zero O) v ++ collision_nodes (v3_zero O) k) -> forall y, within y x -> fine y).
  { intros x Hx y Hy. apply in_app_or in Hx. destruct Hx as [Hx|Hx].
    - pose proof (leaf_within _ _ _ _ Hx Hy); subst. unfold layer_visual in Ev. destruct (wl_visual l); [injection Ev as <-; contradiction|].
      apply bind_ok in Ev. destruct Ev as (os & Es & Ev). destruct os as [s|]; injection Ev as <-; [|contradiction].
      destruct Hx as [<-|[]]. unfold fine. cbn [point_lists map]. constructor; [|constructor]. eapply surface_fine; [|exact Es]. exact W.
    - pose proof (leaf_within' _ _ _ _ Hx Hy); subst. eapply collision_fine; [|exact Ek|exact Hx]. exact W. }
  destruct (visual_nodes (v3_zero O) v ++ collision_nodes (v3_zero O) k) as [|x xs] eqn:Ex; [discriminate|].
  injection E as <-. inv H; [constructor|]. eauto.
Qed.

Lemma filtered_fine : forall (data out : list (entity f32 * entity_geo f32)) layers,
  (forall e g, In (e, g) data -> Forall B (eg_brushes g)) -> layer_filter data = Ok (out, layers) ->
  (forall e g, In (e, g) out -> Forall B (eg_brushes g)) /\ (forall t bs, In (t, bs) layers -> Forall B bs).
Proof.
  intros data out layers Bd E. destruct (layer_filter_single data _ E) as (we & wg & others & S).
  rewrite (layer_filter_ok data we wg others S) in E. injection E as <- <-.
  destruct S as (pre & post & -> & -> & _ & _).
  assert (W : Forall B (eg_brushes wg)) by (apply (Bd we); apply in_or_app; simpl; auto). split.
  - intros e g [I|I].
    + injection I as <- <-. cbn [eg_brushes]. now do 2 apply filter_Forall.
    + apply (Bd e). apply in_app_or in I. apply in_or_app. simpl. tauto.
  - intros t bs [I|[I|[]]]; injection I as <- <-; repeat apply filter_Forall; exact W.
Qed.

Theorem run_fine : forall order, (forall m, Permutation (order m) m) -> forall fuel c nodes text ps es, file_text (cf_map c) text -> load p text = Ok (ps, es) ->
  (forall gs, build_geometry O (cf_textures c) es = Ok gs -> forall e g, In (e, g) (combine es gs) -> Forall B (eg_brushes g)) ->
  run p order fuel c = Ok nodes -> forall m n, In m nodes -> within n m -> fine n.
Proof.
  intros order P fuel c nodes text ps es Ft El Made E m n I H. rewrite run_split in E. apply read_ok in Ft. rewrite Ft in E. cbn [bind] in E. rewrite El in E. cbn [bind] in E.
  apply bind_ok in E. destruct E as (gs & Eg & E). apply bind_ok in E. destruct E as ([data layers] & Ef & E).
  destruct (filtered_fine _ _ _ (Made gs Eg) Ef) as (Wd & Wl).
  unfold build_scene in E. apply bind_ok in E. destruct E as (w & Ew & E). apply bind_ok in E. destruct E as (ls & Els & E).
  apply bind_ok in E. destruct E as (os & Eo & E). injection E as <-. apply mapM_ok in Ew, Els, Eo.
  apply in_app_or in I. destruct I as [I|I]; [|apply in_app_or in I; destruct I as [I|I]].
  - destruct (Forall2_in_r _ _ _ _ _ _ Ew I) as ([e g] & Hd & Ed). eapply entity_fine; [exact Wd| |exact Ed|exact H].
    destruct data; [contradiction|]. destruct Hd as [->|[]]. now left.
  - apply filter_map_In in I. destruct I as (o & Io & ->). destruct (Forall2_in_r _ _ _ _ _ _ Els Io) as ([t bs] & Hd & Ed).
    eapply layer_fine; [|exact Ed|exact H]. apply (Wl t). eapply Permutation_in; [apply P|exact Hd].
  - destruct (Forall2_in_r _ _ _ _ _ _ Eo I) as ([e g] & Hd & Ed). eapply entity_fine; [exact Wd| |exact Ed|exact H].
    apply filter_In in Hd. destruct Hd as [Hd _]. destruct data; [contradiction|]. now right.
Qed.
End Run.

(** A loaded document. *)
Lemma loaded_document : forall text d ps es, text_document p text d -> load p text = Ok (ps, es) -> Forall2 (entity_agrees (reads_as p)) d es.
Proof.
  intros text d ps es (ls & ts & Ls & Ts & Sg) E.
  assert (R : forall e b l, In e d -> In b (doc_brushes e) -> In l b -> exists ws pl, written ws l /\ plane_words (parse_f32 (p_modern_parse p)) (to_lowercase p) ws pl).
  { intros e b l He Hb Hl. unfold load in E. apply bind_ok in E. destruct E as (ts' & Et & Ep).
    assert (ts' = ts).
    { apply (tokenize_lines_ok p text ls ts' Ls) in Et. destruct Et as (_ & F). clear - F Ts. revert ts' F. induction Ts as [|l t ls ts H T IH]; intros ts' F; inv F; [reflexivity|].
      f_equal; [|apply IH; assumption]. eapply token_spec_fun; eauto. }
    subst ts'. assert (W : orderly p ts) by (apply orderly_iff; apply parse_accepts; eauto).
    assert (It : In (TPlane l) ts).
    { assert (J : In (TPlane l) (significant ts)); [|apply filter_In in J; apply J]. rewrite Sg. apply in_flat_map. exists e. split; [exact He|]. right. apply in_or_app. left.
      clear - Hb Hl. induction e as [|[k v|b'] e IH]; cbn in Hb |- *; [contradiction|right; apply IH; exact Hb|].
      destruct Hb as [->|Hb]; [right; apply in_or_app; left; apply in_or_app; left; now apply in_map|]. right. apply in_or_app. right. apply IH, Hb. }
    apply in_split in It. destruct It as (pre & post & ->). destruct (W pre (TPlane l) post eq_refl) as (_ & K). destruct (K l eq_refl) as (ws & pl & A & C). eauto. }
  destruct (load_doc p text ls ts d Ls Ts Sg R) as (ps' & es' & E' & F). rewrite E in E'. injection E' as -> ->. exact F.
Qed.
End Points.
