(** No corner of the map file is lost in a run: lemmas for C98 and C99. *)
From Coq Require Import Reals Lra Lia ZArith Permutation.
From Flocq Require Import Core.
From Verif Require Import Prelude F32 Text MapModel GeoModel LayerModel GameDataModel SceneModel RunModel
  GatherSpec SurfaceSpec GeoSpec NumberSpec LayerSpec TreeSpec PropertySpec MapSpec Utf8Spec RunSpec InvarianceSpec RealSpec ErrorSpec PointsSpec KeptSpec
  BaseProofs FloatProofs NumberProofs ColorProofs ArithProofs ExactProofs GeoProofs GeoFinal LayerProofs NodeProofs RunProofs SoundProofs InvarianceProofs
  ErrorProofs ErrorFinal PointsProofs PointsFinal KeptProofs.
Local Open Scope R_scope.

Section Final.
Context (p : platform).
Local Notation O := (f32_num p).

(** ** A corner of a face *)
Lemma face_kept : forall tx e planes plane f l x g, build_face O tx e planes plane = Ok f -> (forall q, In q planes -> grid_plane q) -> In plane planes ->
  (Z.of_nat (length planes) <= 4000)%Z -> clear_corner (map plane_of planes) (plane_of plane) x g ->
  f_vertices f <> [] /\ ((forall v, In v l -> finite_point v) -> covers p l f -> has_near l x g).
Proof.
  intros tx e planes plane f l x g E G0 Ip L (q1 & q2 & I1 & I2 & X0 & X1 & X2 & Op & Eg & Q).
  apply in_map_iff in I1, I2. destruct I1 as (p1 & <- & I1). destruct I2 as (p2 & <- & I2).
  assert (G : forall q, In q (plane :: planes) -> grid_plane q) by (intros q [<-|I]; auto).
  destruct (corners_found p tx e planes plane f p1 p2 x E G L I1 I2 X0 X1 X2 Op) as (w & Hw & D).
  { intros q Hq. apply Q. now apply in_map. }
  { intros q Hq. rewrite <- Eg. apply Q. now apply in_map. }
  rewrite <- Eg in D. assert (Ne : f_vertices f <> []) by (intros K; rewrite K in Hw; destruct Hw). split; [exact Ne|].
  intros Fl C m Bm. destruct (corners_inside p tx e planes plane f E G L) as (_ & Fin).
  assert (Bf : forall w', In w' (f_vertices f) -> norm (point_of (vt_pos w')) <= m).
  { intros w' Hw'. destruct (C w' Hw') as (v' & Iv & [<-|Eq]); [now apply Bm|].
    apply (pos_eq_point p) in Eq; [rewrite <- Eq; now apply Bm|apply finite_fins; now apply Fl|apply finite_fins; now apply Fin]. }
  pose proof (centre_size p tx e planes plane f m E G L Ne Bf) as Cs. pose proof eta_small as HE.
  assert (M0 : 0 <= m) by (eapply Rle_trans; [apply norm_pos|now apply (Bf w)]).
  destruct (C w Hw) as (v & Iv & Ev). exists v. split; [exact Iv|]. split; [now apply Fl|].
  assert (Ep : point_of v = point_of (vt_pos w)).
  { destruct Ev as [->|Eq]; [reflexivity|]. apply (pos_eq_point p) in Eq; [exact Eq|apply finite_fins; now apply Fl|apply finite_fins; now apply Fin]. }
  rewrite Ep. eapply Rle_trans; [exact D|]. set (k := / 2 ^ 19 * g). clearbody k.
  replace (2 ^ 23) with 8388608 by ring. replace (2 ^ 21) with 2097152 by ring. replace (10 ^ 29) with 100000000000000000000000000000 by ring. replace (10 ^ 30) with 1000000000000000000000000000000 by ring. lra.
Qed.

(** ** Entities of the document *)
Lemma document_linked : forall d es gs data layers, Forall2 (entity_agrees (reads_as p)) d es -> length gs = length es ->
  layer_filter (combine es gs) = Ok (data, layers) -> forall e, in_tree d e -> forall x g, In (x, g) data -> (forall k, get_property x k = doc_value e k) ->
  linked data (x, g).
Proof.
  intros d es gs data layers Ag Lg Ef. destruct (layer_filter_single _ _ Ef) as (we & wg & others & S). rewrite (layer_filter_ok _ _ _ _ S) in Ef. injection Ef as <- _.
  set (bs := filter _ _). destruct S as (pre & post & Ec & Eo & Ww & Wn).
  assert (Cov : forall e, In e d -> exists x g, In (x, g) ((we, EntityGeo (eg_center wg) bs) :: others) /\ forall k, get_property x k = doc_value e k).
  { intros e He. destruct (Forall2_in_l _ _ _ _ _ _ Ag He) as (x & Hx & K & _).
    assert (J : exists g, In (x, g) (combine es gs)).
    { clear - Hx Lg. revert gs Lg. induction es as [|y es IH]; intros [|g gs] L; try discriminate; [destruct Hx|]. destruct Hx as [->|Hx]; [exists g; now left|].
      destruct (IH Hx gs) as (g' & I); [now injection L|]. exists g'. now right. }
    destruct J as (g & J). rewrite Ec in J. apply in_app_or in J. destruct J as [J|[J|J]].
    - exists x, g. split; [right; rewrite Eo; apply in_or_app; auto|exact K].
    - injection J as <- <-. exists we. eexists. split; [now left|exact K].
    - exists x, g. split; [right; rewrite Eo; apply in_or_app; auto|exact K]. }
  intros e T. induction T as [e I W|e I W|e e' g0 T IH I Gr Id]; intros x g J K.
  - destruct J as [<-|J]; [apply LinkFirst; now left|]. exfalso. apply (Wn (x, g) J). unfold worldspawn. cbn [fst]. rewrite <- W. apply K.
  - destruct J as [<-|J]; [apply LinkFirst; now left|]. apply LinkTop; [exact J|]. cbn [fst]. now rewrite K.
  - destruct J as [<-|J]; [apply LinkFirst; now left|].
    destruct (Cov e) as (y & gy & Iy & Ky); [destruct T; assumption|]. apply LinkMember with (y, gy); [now apply IH|exact J|].
    unfold is_child. cbn [fst]. rewrite K, Gr, Ky, Id. unfold opt_str_eqb. apply str_eqb_refl.
Qed.

Lemma side_named : forall tx e planes pl f, build_face O tx e planes pl = Ok f -> f_texture f = side_texture tx pl.
Proof.
  intros tx e planes pl f E. apply face_texture in E. destruct E as (E & _). unfold side_texture. destruct (hget tx (bp_texture pl)) as [s|] eqn:H.
  - apply E. eauto.
  - destruct (f_texture f) as [t|]; [|reflexivity]. destruct (E t) as [K _]. destruct (K eq_refl) as (-> & s & Q). congruence.
Qed.

(** ** Whole runs *)
Section Run.
Context (order : hmap (list (brush_geo f32)) -> list (str * list (brush_geo f32))) (permutes : forall m, Permutation (order m) m).
Context (fuel : nat) (c : config) (text : str) (d : doc) (nodes : list (node f32)).
Context (Ft : file_text (cf_map c) text) (Td : text_document p text d) (Gd : grid_document p d) (Er : run p order fuel c = Ok nodes).

Lemma listed_finite : forall n0 n l v, In n0 nodes -> InvarianceSpec.within n n0 -> In l (point_lists n) -> In v l -> finite_point v.
Proof.
  intros n0 n l v I0 W Il Iv.
  assert (B : exists m, forall v, In v l -> norm (point_of v) <= m).
  { clear. induction l as [|x l (m & H)]; [exists 0; intros v []|]. exists (Rmax (norm (point_of x)) m). intros v [<-|I]; [apply Rmax_l|].
    eapply Rle_trans; [now apply H|apply Rmax_r]. }
  destruct B as (m & B). now destruct (points_near p order permutes fuel c text d nodes Ft Td Gd Er n0 n l m I0 W Il B v Iv) as (F & _).
Qed.

(** A brush of the document, its faces, and where it went. *)
Lemma brush_found : forall e b planes, In e d -> In b (doc_brushes e) -> Forall2 (reads_as p) b planes ->
  exists data layers x g bg, build_scene O fuel (cf_game c) (cf_forge c) (cf_blacklist c) data (order layers) = Ok nodes
    /\ (in_tree d e -> linked data (x, EntityGeo (eg_center g) (eg_brushes g)))
    /\ (forall k, get_property x k = doc_value e k) /\ In planes (e_brushes x)
    /\ (forall e g, In (e, g) data -> geometry_in_bounds g) /\ (forall t bs, In (t, bs) layers -> geometry_in_bounds (EntityGeo (v3_zero O) bs))
    /\ In (x, g) data
    /\ Forall2 (fun pl f => build_face O (cf_textures c) x planes pl = Ok f) planes (bg_faces bg)
    /\ (stays (cf_textures c) e planes -> In bg (eg_brushes g))
    /\ (forall t, moved (cf_textures c) e planes t -> planes <> [] -> exists bs, In (t, bs) layers /\ In bg bs)
    /\ (forall e g b f, In (e, g) data -> In b (eg_brushes g) -> In f (bg_faces b) -> is_fan (length (f_vertices f)) (f_indices f))
    /\ (forall t bs b f, In (t, bs) layers -> In b bs -> In f (bg_faces b) -> is_fan (length (f_vertices f)) (f_indices f)).
Proof.
  intros e b planes He Hb Hp. pose proof Er as Er'. rewrite run_split in Er'. pose proof Ft as Ft'. apply read_ok in Ft'. rewrite Ft' in Er'. cbn [bind] in Er'.
  apply bind_ok in Er'. destruct Er' as ([ps es] & El & Er'). pose proof (loaded_document p text d ps es Td El) as Ag.
  apply bind_ok in Er'. destruct Er' as (gs & Eg & Er'). apply bind_ok in Er'. destruct Er' as ([data layers] & Ef & Es).
  pose proof (geometry_lengths p _ _ _ Eg) as (Lg & _).
  destruct (filtered_bounds p _ _ _ (built_bounds p _ _ _ Eg) Ef) as (B1 & B2).
  set (fans := fun b : brush_geo f32 => forall f, In f (bg_faces b) -> is_fan (length (f_vertices f)) (f_indices f)).
  assert (N0 : forall x g, In (x, g) (combine es gs) -> Forall fans (eg_brushes g)).
  { intros x g I. apply Forall_forall. intros b' Hb' f Hf. pose proof (geometry_shape _ _ _ _ Eg) as Sh. apply (in_combine_Forall2 _ _ _ _ _ _ _ Sh) in I.
    destruct I as (I & _). destruct (Forall2_in_r _ _ _ _ _ _ I Hb') as (br & _ & F & _). destruct (Forall2_in_r _ _ _ _ _ _ F Hf) as (pl & _ & B). eapply face_fan; exact B. }
  destruct (filtered_fine fans _ _ _ N0 Ef) as (N1 & N2).
  assert (F1 : forall e g b f, In (e, g) data -> In b (eg_brushes g) -> In f (bg_faces b) -> is_fan (length (f_vertices f)) (f_indices f)).
  { intros x g b' f I Hb' Hf. specialize (N1 x g I). rewrite Forall_forall in N1. exact (N1 b' Hb' f Hf). }
  assert (F2 : forall t bs b f, In (t, bs) layers -> In b bs -> In f (bg_faces b) -> is_fan (length (f_vertices f)) (f_indices f)).
  { intros t bs b' f I Hb' Hf. specialize (N2 t bs I). rewrite Forall_forall in N2. exact (N2 b' Hb' f Hf). }
  clear fans N0 N1 N2.
  destruct (Forall2_in_l _ _ _ _ _ _ Ag He) as (x & Hx & K & Fb). destruct (Forall2_in_l _ _ _ _ _ _ Fb Hb) as (planes' & Hpl & Fp).
  assert (planes' = planes) by (eapply (Forall2_functional _ _ (reads_as p)); [apply read_unique|exact Fp|exact Hp]). subst planes'.
  assert (J : exists g, In (x, g) (combine es gs)).
  { clear - Hx Lg. revert gs Lg. induction es as [|y es IH]; intros [|g gs] L; try discriminate; [destruct Hx|]. destruct Hx as [->|Hx]; [exists g; now left|].
    destruct (IH Hx gs) as (g' & I); [now injection L|]. exists g'. now right. }
  destruct J as (g & J). pose proof (geometry_shape _ _ _ _ Eg) as Sh. pose proof J as J'. apply (in_combine_Forall2 _ _ _ _ _ _ _ Sh) in J'. destruct J' as (J' & _).
  destruct (Forall2_in_l _ _ _ _ _ _ J' Hpl) as (bg & Hbg & Ff & _).
  assert (Tex : forall f, In f (bg_faces bg) -> exists pl, In pl planes /\ f_texture f = side_texture (cf_textures c) pl).
  { intros f Hf. destruct (Forall2_in_r _ _ _ _ _ _ Ff Hf) as (pl & Ip & E). exists pl. split; [exact Ip|]. eapply side_named; eauto. }
  assert (Tex' : forall pl, In pl planes -> exists f, In f (bg_faces bg) /\ f_texture f = side_texture (cf_textures c) pl).
  { intros pl Ip. destruct (Forall2_in_l _ _ _ _ _ _ Ff Ip) as (f & Hf & E). exists f. split; [exact Hf|]. eapply side_named; eauto. }
  pose proof Ef as Ef'. destruct (layer_filter_single _ _ Ef') as (we & wg & others & S). rewrite (layer_filter_ok _ _ _ _ S) in Ef'. injection Ef' as Ed Ely.
  pose proof S as (pre & post & Ec & Eo & Ww & Wn).
  assert (Wx : (x, g) = (we, wg) \/ In (x, g) others).
  { rewrite Ec in J. rewrite Eo. apply in_app_or in J. destruct J as [J|[J|J]]; [right; apply in_or_app; auto|left; now symmetry|right; apply in_or_app; auto]. }
  destruct Wx as [Wx|Wx].
  - injection Wx as -> ->. set (g' := EntityGeo (eg_center wg) (filter (fun b => negb (in_layer slime b)) (filter (fun b => negb (in_layer water b)) (eg_brushes wg)))) in *.
    assert (Id : In (we, g') data) by (rewrite <- Ed; now left).
    exists data, layers, we, g', bg. split; [exact Es|]. split; [intros T; eapply document_linked; eauto|]. split; [exact K|]. split; [exact Hpl|].
    split; [exact B1|]. split; [exact B2|]. split; [exact Id|]. split; [exact Ff|]. split.
    + intros [N|((q1 & I1 & N1) & (q2 & I2 & N2))]; [exfalso; apply N; rewrite <- K; exact Ww|].
      unfold g'. cbn [eg_brushes]. apply filter_In. split; [apply filter_In; split; [exact Hbg|]|]; apply negb_true_iff;
        (destruct (in_layer _ bg) eqn:Q; [|reflexivity]); apply in_layer_spec in Q; exfalso.
      * destruct (Tex' q1 I1) as (f & Hf & Tf). rewrite (Q f Hf) in Tf. congruence.
      * destruct (Tex' q2 I2) as (f & Hf & Tf). rewrite (Q f Hf) in Tf. congruence.
    + split; [|split; [exact F1|exact F2]]. intros t (_ & Tt & A) Ne.
      assert (All : all_faces t bg) by (intros f Hf; destruct (Tex f Hf) as (pl & Ip & ->); now apply A).
      assert (Fn : bg_faces bg <> []) by (intros Q; rewrite Q in Ff; inversion Ff; congruence).
      rewrite <- Ely. destruct Tt as [->| ->]; eexists.
      * split; [left; reflexivity|]. apply filter_In. split; [exact Hbg|]. now apply in_layer_spec.
      * split; [right; left; reflexivity|]. apply filter_In. split; [apply filter_In; split; [exact Hbg|]|now apply in_layer_spec].
        apply negb_true_iff. destruct (in_layer water bg) eqn:Q; [|reflexivity]. apply in_layer_spec in Q. exfalso. eapply layer_unique; eauto.
  - assert (Id : In (x, g) data) by (rewrite <- Ed; now right).
    exists data, layers, x, g, bg. split; [exact Es|]. split; [destruct g; intros T; eapply document_linked; eauto|]. split; [exact K|]. split; [exact Hpl|].
    split; [exact B1|]. split; [exact B2|]. split; [exact Id|]. split; [exact Ff|]. split; [intros _; exact Hbg|].
    split; [|split; [exact F1|exact F2]]. intros t (W & _) _. exfalso. apply (Wn (x, g) Wx). unfold worldspawn. cbn [fst]. rewrite <- W. apply K.
Qed.

Lemma planes_grid : forall e b planes, In e d -> In b (doc_brushes e) -> Forall2 (reads_as p) b planes ->
  (forall q, In q planes -> grid_plane q) /\ (Z.of_nat (length planes) <= 4000)%Z.
Proof.
  intros e b planes He Hb Hp. destruct (Gd e b He Hb) as (L & G). split; [|rewrite <- (Forall2_length _ _ _ _ _ Hp); exact L].
  intros q Hq. destruct (Forall2_in_r _ _ _ _ _ _ Hp Hq) as (l & Hl & R). eauto.
Qed.
Lemma tree_member : forall e, in_tree d e -> In e d.
Proof. intros e T. destruct T; assumption. Qed.

Theorem corners_drawn : forall e b planes pl x g bd, in_tree d e -> In b (doc_brushes e) -> Forall2 (reads_as p) b planes -> In pl planes ->
  brush_class (cf_game c) e bd -> bd_visual bd = VMesh -> stays (cf_textures c) e planes -> visible (cf_textures c) (cf_blacklist c) planes pl ->
  clear_corner (map plane_of planes) (plane_of pl) x g ->
  exists n0 o ss s, In n0 nodes /\ InvarianceSpec.within (NVisual o (VisMesh ss)) n0 /\ In s ss /\ s_texture s = side_texture (cf_textures c) pl
    /\ has_near (s_vertices s) x g.
Proof.
  intros e b planes pl x g bd T Hb Hp Ip (cl & k & q & Hc & Hk & Hd) Hm St ((q' & Iq & Vb) & Vp) Cl. pose proof (tree_member e T) as He.
  destruct (brush_found e b planes He Hb Hp) as (data & layers & y & g' & bg & Es & Lk & K & Iy & B1 & _ & Id & Ff & Sy & _).
  destruct (planes_grid e b planes He Hb Hp) as (G & L). specialize (Sy St). specialize (Lk T).
  destruct (linked_built p _ _ _ _ _ _ _ Es _ Lk) as (n0 & n & I0 & W & Bu). destruct g' as [ce bs]. cbn [eg_center eg_brushes] in *.
  destruct (Forall2_in_l _ _ _ _ _ _ Ff Ip) as (f & Hf & Ef). destruct (face_kept _ _ _ _ _ [] x g Ef G Ip L Cl) as (Ne & _).
  pose proof (side_named _ _ _ _ _ Ef) as Tf.
  destruct (built_visual p _ _ _ _ y (EntityGeo ce bs) n cl k q bd bg f (B1 _ _ Id) Bu) as (ss & s & W' & Is & Ts & Cs); auto.
  { rewrite K. exact Hc. }
  { unfold drawn_brush. apply existsb_exists. destruct (Forall2_in_l _ _ _ _ _ _ Ff Iq) as (f' & Hf' & Ef'). exists f'. split; [exact Hf'|].
    unfold drawn_face. rewrite (side_named _ _ _ _ _ Ef'). destruct (side_texture (cf_textures c) q') as [t|] eqn:Q; [|reflexivity].
    unfold listed. destruct (in_dec str_dec t (bl_brush (cf_blacklist c))) as [Z|]; [|reflexivity]. exfalso. exact (Vb t eq_refl Z). }
  { intros t Q. rewrite Tf in Q. split; [|now apply Vp]. exists planes, pl. split; [exact Iy|]. split; [exact Ip|].
    unfold side_texture in Q. destruct (hget (cf_textures c) (bp_texture pl)); congruence. }
  exists n0, ce, ss, s. cbn [eg_center] in W'. assert (W2 : InvarianceSpec.within (NVisual ce (VisMesh ss)) n0) by (eapply within_trans; eauto).
  split; [exact I0|]. split; [exact W2|]. split; [exact Is|]. split; [congruence|].
  destruct (face_kept _ _ _ _ _ (s_vertices s) x g Ef G Ip L Cl) as (_ & Nr). apply Nr; [|exact Cs].
  intros v Hv. eapply listed_finite; [exact I0|exact W2| |exact Hv]. cbn [point_lists]. now apply in_map.
Qed.

Theorem corners_solid : forall e b planes pl x g bd, in_tree d e -> In b (doc_brushes e) -> Forall2 (reads_as p) b planes -> In pl planes ->
  brush_class (cf_game c) e bd -> bd_collision bd <> CNone -> stays (cf_textures c) e planes -> clear_corner (map plane_of planes) (plane_of pl) x g ->
  exists n0 o shape l, In n0 nodes /\ InvarianceSpec.within (NCollision o shape) n0 /\ In l (point_lists (NCollision o shape)) /\ has_near l x g.
Proof.
  intros e b planes pl x g bd T Hb Hp Ip (cl & k & q & Hc & Hk & Hd) Hm St Cl. pose proof (tree_member e T) as He.
  destruct (brush_found e b planes He Hb Hp) as (data & layers & y & g' & bg & Es & Lk & K & Iy & B1 & _ & Id & Ff & Sy & _).
  destruct (planes_grid e b planes He Hb Hp) as (G & L). specialize (Sy St). specialize (Lk T).
  destruct (linked_built p _ _ _ _ _ _ _ Es _ Lk) as (n0 & n & I0 & W & Bu). destruct g' as [ce bs]. cbn [eg_center eg_brushes] in *.
  destruct (Forall2_in_l _ _ _ _ _ _ Ff Ip) as (f & Hf & Ef). destruct (face_kept _ _ _ _ _ [] x g Ef G Ip L Cl) as (Ne & _).
  destruct (built_collision p _ _ _ _ y (EntityGeo ce bs) n cl k q bd bg f (B1 _ _ Id) Bu) as (shape & l & W' & Il & Cs); auto.
  { rewrite K. exact Hc. }
  cbn [eg_center] in *. exists n0, ce, shape, l. assert (W2 : InvarianceSpec.within (NCollision ce shape) n0) by (eapply within_trans; eauto).
  split; [exact I0|]. split; [exact W2|]. split; [exact Il|].
  destruct (face_kept _ _ _ _ _ l x g Ef G Ip L Cl) as (_ & Nr). apply Nr; [|exact Cs].
  intros v Hv. eapply listed_finite; [exact I0|exact W2|exact Il|exact Hv].
Qed.

Theorem corners_layered : forall e b planes pl x g lay, In e d -> In b (doc_brushes e) -> Forall2 (reads_as p) b planes -> In pl planes ->
  moved (cf_textures c) e planes (wl_texture lay) -> only_one (fun l => wl_texture l = wl_texture lay) (gd_layers (cf_game c)) lay ->
  clear_corner (map plane_of planes) (plane_of pl) x g ->
  (wl_visual lay = VMesh -> exists n0 o s, In n0 nodes /\ InvarianceSpec.within (NVisual o (VisMesh [s])) n0 /\ s_texture s = Some (wl_texture lay) /\ has_near (s_vertices s) x g)
  /\ (wl_collision lay <> CNone -> exists n0 o shape l, In n0 nodes /\ InvarianceSpec.within (NCollision o shape) n0 /\ In l (point_lists (NCollision o shape)) /\ has_near l x g).
Proof.
  intros e b planes pl x g lay He Hb Hp Ip Mv On Cl.
  destruct (brush_found e b planes He Hb Hp) as (data & layers & y & g' & bg & Es & _ & _ & _ & _ & B2 & _ & Ff & _ & My & _).
  destruct (planes_grid e b planes He Hb Hp) as (G & L). destruct (My _ Mv) as (bs & Ib & Ibg); [intros ->; destruct Ip|].
  assert (Io : In (wl_texture lay, bs) (order layers)) by (eapply Permutation_in; [apply Permutation_sym, permutes|exact Ib]).
  pose proof Es as Es'. unfold build_scene in Es'. apply bind_ok in Es'. destruct Es' as (w & _ & Es'). apply bind_ok in Es'. destruct Es' as (ls & Els & Es').
  apply bind_ok in Es'. destruct Es' as (os & _ & Es'). injection Es' as En. apply mapM_ok in Els.
  destruct (Forall2_in_l _ _ _ _ _ _ Els Io) as (r & Ir & Er').
  destruct (Forall2_in_l _ _ _ _ _ _ Ff Ip) as (f & Hf & Ef). destruct (face_kept _ _ _ _ _ [] x g Ef G Ip L Cl) as (Ne & _).
  assert (Tf : f_texture f = Some (wl_texture lay)) by (rewrite (side_named _ _ _ _ _ Ef); now apply Mv).
  destruct (built_layer p _ lay bs r (B2 _ _ Ib) On Er' bg f Ibg Hf Tf Ne) as (Vi & Co).
  assert (Top : forall n, r = Some n -> In n nodes).
  { intros n ->. rewrite <- En. apply in_or_app. right. apply in_or_app. left. apply filter_map_In. eauto. }
  split; intros M.
  - destruct (Vi M) as (n & s & Er2 & W & Ts & Cs). exists n, (v3_zero O), s. split; [now apply Top|]. split; [exact W|]. split; [exact Ts|].
    destruct (face_kept _ _ _ _ _ (s_vertices s) x g Ef G Ip L Cl) as (_ & Nr). apply Nr; [|exact Cs].
    intros v Hv. eapply listed_finite; [now apply Top; exact Er2|exact W| |exact Hv]. cbn [point_lists map]. now left.
  - destruct (Co M) as (n & shape & l & Er2 & W & Il & Cs). exists n, (v3_zero O), shape, l. split; [now apply Top|]. split; [exact W|]. split; [exact Il|].
    destruct (face_kept _ _ _ _ _ l x g Ef G Ip L Cl) as (_ & Nr). apply Nr; [|exact Cs].
    intros v Hv. eapply listed_finite; [apply Top; exact Er2|exact W|exact Il|exact Hv].
Qed.
End Run.
End Final.
