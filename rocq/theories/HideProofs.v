(** Wider blacklists: lemmas for C113. *)
From Coq Require Import Permutation Lia.
From Verif Require Import Prelude F32 Text MapModel GeoModel LayerModel GameDataModel SceneModel RunModel
  GatherSpec GeoSpec LayerSpec SurfaceSpec DiffSpec TreeSpec PropertySpec MapSpec Utf8Spec RunSpec HideSpec
  BaseProofs DiffProofs GeoProofs GatherProofs SurfaceProofs LayerProofs NodeProofs SurfaceFinal RunProofs SoundProofs InvarianceProofs.

Lemma Forall2_sub : forall A B (R : A -> B -> Prop) f l r, Forall2 R l r -> exists r', Forall2 R (filter f l) r' /\ subseq r' r.
Proof.
  intros A B R f l r F. induction F as [|a b l r H F (r' & F' & S)]; [exists []; split; constructor|]. cbn [filter]. destruct (f a).
  - exists (b :: r'). split; now constructor.
  - exists r'. split; [exact F'|now constructor].
Qed.
Lemma subseq_map : forall A B (f : A -> B) s l, subseq s l -> subseq (map f s) (map f l).
Proof. intros A B f s l H. induction H; cbn [map]; now constructor. Qed.
Lemma subseq_flat : forall A B (f : A -> list B) s l, subseq s l -> flat_map f l = [] -> flat_map f s = [].
Proof.
  intros A B f s l H. induction H as [|x s l H IH|x s l H IH]; cbn [flat_map]; intros E; [reflexivity| |]; apply app_eq_nil in E; destruct E as (E1 & E2); [auto|]. rewrite E1. now apply IH.
Qed.
Lemma filter_finer : forall A (f g : A -> bool) l, (forall x, In x l -> g x = true -> f x = true) -> filter g l = filter g (filter f l).
Proof.
  intros A f g l H. induction l as [|x l IH]; [reflexivity|]. cbn [filter]. assert (H' : forall y, In y l -> g y = true -> f y = true) by (intros y Hy; apply H; now right).
  destruct (f x) eqn:Fx; cbn [filter]; destruct (g x) eqn:Gx; rewrite (IH H'); try reflexivity. rewrite (H x (or_introl eq_refl) Gx) in Fx. discriminate.
Qed.

Section Hide.
Context (p : platform) (bl bl' : blacklist) (W : wider bl bl').
Local Notation O := (f32_num p).

Lemma brush_wider : forall b : brush_geo f32, brush_not_blacklisted bl' b = true -> brush_not_blacklisted bl b = true.
Proof.
  intros b H. unfold brush_not_blacklisted in *. apply existsb_exists in H. destruct H as (f & Hf & N). apply existsb_exists. exists f. split; [exact Hf|].
  destruct (f_texture f) as [t|]; [|reflexivity]. apply negb_true_iff in N. apply negb_true_iff. unfold is_blacklisted_brush in *.
  destruct (existsb (str_eqb t) (bl_brush bl)) eqn:E; [|reflexivity]. rewrite <- N. symmetry. apply existsb_str. apply (proj1 W). now apply existsb_str.
Qed.
Lemma brush_same : incl (bl_brush bl') (bl_brush bl) -> forall b : brush_geo f32, brush_not_blacklisted bl' b = brush_not_blacklisted bl b.
Proof.
  intros I b. unfold brush_not_blacklisted. apply existsb_ext_in. intros f _. destruct (f_texture f) as [t|]; [|reflexivity]. f_equal. apply same_bool.
  unfold is_blacklisted_brush. rewrite !existsb_str. split; [apply I|apply (proj1 W)].
Qed.

(** ** Surfaces *)
Lemma part_bounds : forall fp b part, (forall f, In f (bg_faces b) -> whole f) -> gather_brush O fp (Some (unique O)) b = Ok part ->
  (forall i, In i (snd part) -> i < length (fst part)) /\ exists k, length (snd part) = 3 * k.
Proof.
  intros fp b part H E. destruct (gather_brush_spec O (f32_eq_laws p) (same_vertex O) (vertex_eq O) (eqb_vertex O) (vertex_refines O) fp b) as (out & ix & E' & _ & F); [intros f Hf _; now apply H|].
  change (first_at (same_vertex O)) with (unique O) in E'. rewrite E' in E. injection E as <-. cbn [fst snd]. split.
  - intros i Hi. destruct (Forall2_in_r _ _ _ _ _ _ F Hi) as (j & _ & v & N & _). apply nth_error_Some. congruence.
  - rewrite <- (Forall2_length _ _ _ _ _ F). assert (Q : Forall whole (filter fp (bg_faces b))) by (apply Forall_forall; intros f Hf; apply filter_In in Hf; now apply H).
    rewrite <- (map_length (nth_error (face_vertices (filter fp (bg_faces b))))), corner_positions_corners by (intros f Hf; rewrite Forall_forall in Q; now apply Q).
    clear - Q. induction Q as [|f l (_ & (k & Hk) & _) Q (k' & IH)]; [exists 0; reflexivity|]. exists (k + k'). cbn [flat_map]. rewrite app_length, IH. unfold face_corners, corners. rewrite map_length, Hk. lia.
Qed.

Definition piece (part : list (vertex f32) * list nat) : list (vertex f32) := filter_map (nth_error (fst part)) (snd part).
Lemma piece_all : forall part, (forall i, In i (snd part) -> i < length (fst part)) -> map (nth_error (fst part)) (snd part) = map Some (piece part).
Proof.
  intros [vs ix] H. unfold piece. cbn [fst snd] in *. induction ix as [|i ix IH]; [reflexivity|]. cbn [map filter_map].
  destruct (nth_error vs i) as [v|] eqn:E; [|apply nth_error_None in E; specialize (H i (or_introl eq_refl)); lia]. cbn [map]. rewrite IH; [reflexivity|]. intros j Hj. apply H. now right.
Qed.
Lemma parts_corners : forall parts, (forall part, In part parts -> forall i, In i (snd part) -> i < length (fst part)) ->
  map (nth_error (flat_map fst parts)) (concat_indices 0 parts) = map Some (concat (map piece parts)).
Proof.
  intros parts H. change (map (nth_error ([] ++ flat_map fst parts)) (concat_indices (@length (vertex f32) []) parts) = map Some (concat (map piece parts))). rewrite (concat_indices_corners _ parts []) by (intros vs ix i I; now apply (H (vs, ix))). induction parts as [|part parts IH]; [reflexivity|].
  cbn [flat_map map concat]. rewrite map_app, IH by (intros q Hq; apply H; now right). f_equal. apply piece_all, H. now left.
Qed.

Definition surface_made (t : option str) (parts : list (list (vertex f32) * list nat)) : option (surface f32) :=
  match flat_map fst parts with
  | [] => None
  | vs => Some (Surface t (map vt_pos vs) (map vt_normal vs) (map vt_tangent vs) (sequence (map vt_uv vs)) (sequence (map vt_color vs)) (concat_indices 0 parts))
  end.
Lemma made_corners : forall t parts s, (forall part, In part parts -> forall i, In i (snd part) -> i < length (fst part)) -> surface_made t parts = Some s ->
  s_texture s = t /\ surface_corners s (concat (map piece parts)).
Proof.
  intros t parts s H E. pose proof (parts_corners parts H) as C. unfold surface_made in E. destruct (flat_map fst parts) as [|v vs] eqn:F; [discriminate|]. injection E as <-.
  split; [reflexivity|]. exists (v :: vs). split; [|exact C]. split; [reflexivity|]. split; [reflexivity|]. split; [reflexivity|]. split; intros cs; [apply (sequence_some _ (map vt_uv (v :: vs)) cs)|apply (sequence_some _ (map vt_color (v :: vs)) cs)].
Qed.

Lemma surface_parts : forall q g t os, texture_surface O g q t = Ok os -> exists parts,
  Forall2 (fun b part => gather_brush O (has_texture t) (Some (unique O)) b = Ok part) (filter (brush_not_blacklisted q) (eg_brushes g)) parts /\ os = surface_made t parts.
Proof.
  intros q g t os E. unfold texture_surface, gather_entity in E. apply bind_ok in E. destruct E as ([vs ix] & E & Eo). apply bind_ok in E. destruct E as (parts & Ep & E).
  injection E as <- <-. injection Eo as <-. exists parts. split; [now apply mapM_ok|]. unfold surface_made. destruct (flat_map fst parts); reflexivity.
Qed.
Lemma parts_surface : forall q g t parts, Forall2 (fun b part => gather_brush O (has_texture t) (Some (unique O)) b = Ok part) (filter (brush_not_blacklisted q) (eg_brushes g)) parts ->
  texture_surface O g q t = Ok (surface_made t parts).
Proof.
  intros q g t parts F. apply mapM_ok in F. unfold texture_surface, gather_entity. rewrite F. cbn [bind]. unfold surface_made. destruct (flat_map fst parts); reflexivity.
Qed.

Lemma surface_thinned : forall g t os, whole_brushes (eg_brushes g) -> texture_surface O g bl t = Ok os ->
  exists os', texture_surface O g bl' t = Ok os' /\ (forall s', os' = Some s' -> exists s, os = Some s /\ thinned s s') /\ (incl (bl_brush bl') (bl_brush bl) -> os' = os).
Proof.
  intros g t os Wh E. destruct (surface_parts _ _ _ _ E) as (parts & F & Eo).
  destruct (Forall2_sub _ _ _ (brush_not_blacklisted bl') _ _ F) as (parts' & F' & Sp). rewrite <- filter_finer in F' by (intros b _; apply brush_wider).
  exists (surface_made t parts'). split; [now apply parts_surface|]. split.
  - assert (B : forall part, In part parts -> (forall i, In i (snd part) -> i < length (fst part)) /\ exists k, length (snd part) = 3 * k).
    { intros part Hp. destruct (Forall2_in_r _ _ _ _ _ _ F Hp) as (b & Hb & Eb). apply filter_In in Hb. apply (part_bounds (has_texture t) b part); [intros f Hf; apply (Wh b f); tauto|exact Eb]. }
    intros s' Es'. destruct os as [s|].
    + exists s. split; [reflexivity|]. destruct (made_corners t parts s (fun part Hp => proj1 (B part Hp)) (eq_sym Eo)) as (T & C).
      destruct (made_corners t parts' s' (fun part Hp => proj1 (B part (subseq_In _ _ _ _ Sp Hp))) Es') as (T' & C').
      split; [congruence|]. exists (map piece parts), (map piece parts'). repeat (split; [auto using subseq_map; fail|]).
      apply Forall_forall. intros l Hl. apply in_map_iff in Hl. destruct Hl as (part & <- & Hp). destruct (B part Hp) as (B1 & k & B2). exists k.
      rewrite <- B2, <- (map_length (nth_error (fst part))), piece_all, map_length by exact B1. reflexivity.
    + exfalso. unfold surface_made in *. destruct (flat_map fst parts) eqn:N; [|discriminate]. rewrite (subseq_flat _ _ _ _ _ Sp N) in Es'. discriminate.
  - intros I. rewrite (filter_ext _ _ (brush_same I)) in F'. rewrite Eo. f_equal. eapply Forall2_functional; [|exact F'|exact F]. cbn. intros; congruence.
Qed.

(** ** Visuals *)
Lemma textures_wider : forall ts, unique_textures bl' ts = filter (fun t => negb (is_blacklisted_plane bl' t)) (unique_textures bl ts).
Proof.
  induction ts as [|t ts IH]; [reflexivity|]. cbn [unique_textures]. destruct (existsb (fun c => str_eqb c t) ts); cbn [negb andb]; [exact IH|].
  destruct (is_blacklisted_plane bl t) eqn:E.
  - assert (E' : is_blacklisted_plane bl' t = true) by (unfold is_blacklisted_plane in *; apply existsb_str in E; apply existsb_str; now apply (proj2 W)). rewrite E'. exact IH.
  - cbn [negb filter]. destruct (is_blacklisted_plane bl' t); cbn [negb]; [exact IH|now f_equal].
Qed.

Definition shown_texture (o : option str) : bool := match o with Some t => negb (is_blacklisted_plane bl' t) | None => true end.
Lemma shown_listed : forall s, shown_texture (s_texture s) = true <-> ~ listed_texture bl' s.
Proof.
  intros s. unfold shown_texture, listed_texture, is_blacklisted_plane. destruct (s_texture s) as [t|].
  - rewrite negb_true_iff. split.
    + intros E (t' & Et & I). injection Et as <-. apply existsb_str in I. congruence.
    + intros N. destruct (existsb (str_eqb t) (bl_plane bl')) eqn:E; [|reflexivity]. exfalso. apply N. exists t. split; [reflexivity|]. now apply existsb_str.
  - split; [intros _ (t & E & _); discriminate|reflexivity].
Qed.

Lemma surfaces_dimmed : forall g ts os, whole_brushes (eg_brushes g) -> mapM (texture_surface O g bl) ts = Ok os -> exists os',
  mapM (texture_surface O g bl') (filter shown_texture ts) = Ok os'
  /\ (exists kept, subseq kept (filter_map (fun o => o) os) /\ Forall2 thinned kept (filter_map (fun o => o) os') /\ Forall (fun s => ~ listed_texture bl' s) kept)
  /\ (incl (bl_brush bl') (bl_brush bl) -> filter_map (fun o => o) os' = filter (fun s => shown_texture (s_texture s)) (filter_map (fun o => o) os)).
Proof.
  intros g ts os Wh E. apply mapM_ok in E. induction E as [|t os1 ts os E F (os' & M & (kept & S1 & S2 & S3) & Sa)].
  - exists []. split; [reflexivity|]. split; [exists []; repeat constructor|reflexivity].
  - assert (Tx : forall s, os1 = Some s -> s_texture s = t) by (intros s ->; eapply surface_texture; eauto). cbn [filter].
    destruct (surface_thinned g t os1 Wh E) as (os1' & E' & T1 & T2).
    assert (Te : forall s, os1' = Some s -> s_texture s = t) by (intros s ->; eapply surface_texture; eauto).
    destruct (shown_texture t) eqn:St.
    + exists (os1' :: os'). split; [cbn [mapM]; rewrite E'; cbn [bind]; now rewrite M|]. split.
      * destruct os1' as [s'|].
        -- destruct (T1 s' eq_refl) as (s & -> & Th). exists (s :: kept). cbn [filter_map]. split; [now constructor|]. split; [now constructor|]. constructor; [|exact S3]. apply shown_listed. now rewrite (Tx s eq_refl).
        -- exists kept. cbn [filter_map]. split; [|auto]. destruct os1; [now constructor|exact S1].
      * intros I. rewrite (T2 I). cbn [filter_map]. destruct os1 as [s|]; [|now apply Sa]. cbn [filter]. rewrite (Tx s eq_refl), St. f_equal. now apply Sa.
    + exists os'. split; [exact M|]. split.
      * exists kept. cbn [filter_map]. split; [|auto]. destruct os1; [now constructor|exact S1].
      * intros I. cbn [filter_map]. destruct os1 as [s|]; [|now apply Sa]. cbn [filter]. rewrite (Tx s eq_refl), St. now apply Sa.
Qed.

Lemma dimmed_none : dimmed bl bl' VisNone VisNone.
Proof. split; [exists []; repeat constructor|intros _; constructor]. Qed.

Lemma brush_dimmed : forall e g bd v, whole_brushes (eg_brushes g) -> brush_visual O e g bd bl = Ok v -> exists v', brush_visual O e g bd bl' = Ok v' /\ dimmed bl bl' v v'.
Proof.
  intros e g bd v Wh E. unfold brush_visual in *. destruct (bd_visual bd).
  all: try (injection E as <-; exists VisNone; split; [reflexivity|exact dimmed_none]).
  apply bind_ok in E. destruct E as (os & Eo & E).
  destruct (surfaces_dimmed g _ os Wh Eo) as (os' & M & K & Sa).
  rewrite filter_app in M. replace (filter shown_texture (map Some (unique_textures bl (flat_map (fun b => map bp_texture b) (e_brushes e)))))
    with (map (@Some str) (unique_textures bl' (flat_map (fun b => map bp_texture b) (e_brushes e)))) in M.
  2: { rewrite textures_wider. generalize (unique_textures bl (flat_map (fun b => map bp_texture b) (e_brushes e))). intros ts. induction ts as [|t ts IH]; [reflexivity|]. cbn [map filter shown_texture].
       destruct (negb (is_blacklisted_plane bl' t)); cbn [map]; now rewrite IH. }
  cbn [filter shown_texture] in M. rewrite M. cbn [bind].
  assert (Sv : forall l w, match l with [] => Ok VisNone | _ => Ok (VisMesh l) end = Ok w -> surfaces w = l) by (intros [|x l] w Q; injection Q as <-; reflexivity).
  assert (X : exists w, match filter_map (fun o => o) os' with [] => Ok VisNone | _ => Ok (VisMesh (filter_map (fun o => o) os')) end = Ok w) by (destruct (filter_map (fun o => o) os'); eauto).
  destruct X as (w & Ew). exists w. split; [destruct (filter_map (fun o => o) os'); exact Ew|]. split.
  - rewrite (Sv _ w Ew). replace (surfaces v) with (filter_map (fun o => o) os) by (symmetry; apply Sv; destruct (filter_map (fun o => o) os); exact E). exact K.
  - intros I. rewrite (Sv _ w Ew), (Sa I). replace (surfaces v) with (filter_map (fun o => o) os) by (symmetry; apply Sv; destruct (filter_map (fun o => o) os); exact E).
    apply selected_filter. intros s. apply shown_listed.
Qed.

Lemma visual_dimmed : forall gd e g v, whole_brushes (eg_brushes g) -> entity_visual O gd bl e g = Ok v -> exists v', entity_visual O gd bl' e g = Ok v' /\ dimmed bl bl' v v'.
Proof.
  intros gd e g v Wh E. unfold entity_visual in *. destruct (get_property e (lit "classname")) as [cl|]; [|discriminate].
  destruct (find_def gd cl) as [df|]; [|injection E as <-; exists VisNone; split; [reflexivity|exact dimmed_none]].
  destruct (ed_data df) as [q|q bd]; [injection E as <-; exists VisNone; split; [reflexivity|exact dimmed_none]|]. now apply brush_dimmed.
Qed.

End Hide.

(** ** Trees *)
Section Trees.
Context (p : platform) (bl bl' : blacklist) (V : visual f32 -> visual f32 -> Prop).
Local Notation O := (f32_num p).
Context (HV : forall gd e g v, whole_brushes (eg_brushes g) -> entity_visual O gd bl e g = Ok v -> exists v', entity_visual O gd bl' e g = Ok v' /\ V v v').
Lemma entity_redrawn : forall gd fd data, (forall e g, In (e, g) data -> whole_brushes (eg_brushes g)) -> forall fuel origin e g n, In (e, g) data ->
  build_entity O fuel gd fd bl data origin (e, g) = Ok n -> exists n', build_entity O fuel gd fd bl' data origin (e, g) = Ok n' /\ redrawn V n n'.
Proof.
  intros gd fd data Wh fuel. induction fuel as [|fuel IH]; intros origin e g n I E; [discriminate|].
  destruct (build_entity_inv O gd fd bl data _ _ _ _ _ E) as (f & cl & v & k & ch & pr & Ef & Hc & Ev & Ek & M & Ep & ->). injection Ef as <-.
  destruct (HV gd e g v (Wh e g I) Ev) as (v' & Ev' & Dv).
  assert (X : exists ch', mapM (build_entity O fuel gd fd bl' data (v3_neg O (eg_center g))) (filter (fun x => is_child e (fst x)) (tl data)) = Ok ch' /\ Forall2 (redrawn V) ch ch').
  { apply mapM_ok in M. assert (Sub : forall x, In x (filter (fun x => is_child e (fst x)) (tl data)) -> In x data) by (intros x Hx; apply filter_In in Hx; destruct data; [destruct (proj1 Hx)|right; apply Hx]).
    clear - IH M Sub. induction M as [|[x gx] y l m H F J]; [exists []; split; [reflexivity|constructor]|].
    destruct (IH _ _ _ _ (Sub _ (or_introl eq_refl)) H) as (y' & Ey & Ry). destruct J as (m' & Em & Rm); [intros z Hz; apply Sub; now right|].
    exists (y' :: m'). split; [|now constructor]. cbn [mapM]. rewrite Ey. cbn [bind]. rewrite Em. reflexivity. }
  destruct X as (ch' & Mc & Rc). eexists. split.
  - cbn [build_entity]. rewrite Ev'. cbn [bind]. rewrite Ek. cbn [bind]. rewrite Mc. cbn [bind]. rewrite Hc. cbn [unwrap bind]. rewrite Ep. cbn [bind]. rewrite app_assoc. reflexivity.
  - apply Redrawn with (c := eg_center g) (v := v) (v' := v') (k := k); [exact Dv|apply nodes_of|apply nodes_of|exact Rc].
Qed.
End Trees.

(** ** Runs *)
Lemma run_redrawn : forall (V : visual f32 -> visual f32 -> Prop) p order fuel c c' nodes, same_but_blacklist c c' ->
  (forall gd e g v, whole_brushes (eg_brushes g) -> entity_visual (f32_num p) gd (cf_blacklist c) e g = Ok v -> exists v', entity_visual (f32_num p) gd (cf_blacklist c') e g = Ok v' /\ V v v') ->
  run p order fuel c = Ok nodes ->
  exists world layers rest world' rest', nodes = world :: layers ++ rest /\ run p order fuel c' = Ok (world' :: layers ++ rest')
    /\ redrawn V world world' /\ Forall2 (redrawn V) rest rest'.
Proof.
  intros V p order fuel c c' nodes (Em & Et & Ef & Eg) W E. rewrite run_split in *. rewrite <- Em, <- Et, <- Ef, <- Eg.
  apply bind_ok in E. destruct E as (text & -> & E). cbn [bind]. apply bind_ok in E. destruct E as ([ps es] & -> & E). cbn [bind].
  apply bind_ok in E. destruct E as (gs & Eb & E). rewrite Eb. cbn [bind]. apply bind_ok in E. destruct E as ([data layers] & El & Es). rewrite El. cbn [bind].
  destruct (filtered_whole _ _ _ (built_whole p _ _ _ Eb) El) as (Wd & _).
  assert (Dn : exists x rest, data = x :: rest) by (destruct (layer_filter_single _ _ El) as (we & wg & others & Sw); rewrite (layer_filter_ok _ _ _ _ Sw) in El; injection El as <- _; eauto).
  destruct Dn as ([xe xg] & data' & ->). unfold build_scene in *. cbn [firstn tl mapM] in *.
  apply bind_ok in Es. destruct Es as (ws & Ew & Es). apply bind_ok in Ew. destruct Ew as (world & Ew & E'). cbn [bind] in E'. injection E' as <-.
  apply bind_ok in Es. destruct Es as (ls & Ely & Es). apply bind_ok in Es. destruct Es as (rest & Eo & Es). injection Es as <-.
  destruct (entity_redrawn p _ _ V W _ _ _ Wd fuel _ xe xg world (or_introl eq_refl) Ew) as (world' & Ew' & Rw).
  assert (X : exists r', mapM (build_entity (f32_num p) fuel (cf_game c) (cf_forge c) (cf_blacklist c') ((xe, xg) :: data') (v3_zero (f32_num p)))
      (filter (fun d => match get_property (fst d) (lit "_tb_group") with None => true | _ => false end) data') = Ok r' /\ Forall2 (redrawn V) rest r').
  { apply mapM_ok in Eo. assert (Sub : forall x, In x (filter (fun d => match get_property (fst d) (lit "_tb_group") with None => true | _ => false end) data') -> In x ((xe, xg) :: data')) by (intros x Hx; apply filter_In in Hx; right; apply Hx).
    clear - Eo W Wd Sub. induction Eo as [|[a ga] y l m H F J]; [exists []; split; [reflexivity|constructor]|].
    destruct (entity_redrawn p _ _ V W _ _ _ Wd fuel _ a ga y (Sub _ (or_introl eq_refl)) H) as (y' & Ey & Ry). destruct J as (m' & Em & Rm); [intros z Hz; apply Sub; now right|].
    exists (y' :: m'). split; [|now constructor]. cbn [mapM]. rewrite Ey. cbn [bind]. rewrite Em. reflexivity. }
  destruct X as (rest' & Mr & Rr). exists world, (filter_map (fun o => o) ls), rest, world', rest'. split; [reflexivity|]. split; [|split; assumption].
  rewrite Ew'. cbn [bind]. rewrite Ely. cbn [bind]. rewrite Mr. reflexivity.
Qed.
Theorem run_hides : forall p order fuel c c' nodes, same_but_blacklist c c' -> wider (cf_blacklist c) (cf_blacklist c') -> run p order fuel c = Ok nodes ->
  exists world layers rest world' rest', nodes = world :: layers ++ rest /\ run p order fuel c' = Ok (world' :: layers ++ rest')
    /\ redrawn (dimmed (cf_blacklist c) (cf_blacklist c')) world world' /\ Forall2 (redrawn (dimmed (cf_blacklist c) (cf_blacklist c'))) rest rest'.
Proof. intros p order fuel c c' nodes S W. apply run_redrawn; [exact S|]. intros gd e g v. now apply visual_dimmed. Qed.

(** Any two blacklists. *)
Lemma visual_exists : forall p gd bl bl' e g v, whole_brushes (eg_brushes g) -> entity_visual (f32_num p) gd bl e g = Ok v -> exists v', entity_visual (f32_num p) gd bl' e g = Ok v' /\ True.
Proof.
  intros p gd bl bl' e g v Wh E. unfold entity_visual in *. destruct (get_property e (lit "classname")) as [cl|]; [|discriminate E].
  destruct (find_def gd cl) as [df|]; [|eauto]. destruct (ed_data df) as [q|q bd]; [eauto|]. destruct (bd_visual bd) eqn:B; [unfold brush_visual; rewrite B; eauto|].
  destruct (mesh_c34 p e g bd bl' (whole_bounds g Wh) B) as (l & E' & _). eauto.
Qed.
Theorem run_blacklists : forall p order fuel c c' nodes, same_but_blacklist c c' -> run p order fuel c = Ok nodes ->
  exists world layers rest world' rest', nodes = world :: layers ++ rest /\ run p order fuel c' = Ok (world' :: layers ++ rest')
    /\ redrawn (fun _ _ => True) world world' /\ Forall2 (redrawn (fun _ _ => True)) rest rest'.
Proof. intros p order fuel c c' nodes S. apply run_redrawn; [exact S|]. intros gd e g v. apply visual_exists. Qed.
