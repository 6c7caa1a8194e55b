(** The volume of meshes and concave shapes of runs: proofs of C135. *)
From Coq Require Import Reals Lra Lia ZArith Permutation.
From Verif Require Import Prelude F32 Text MapModel GeoModel LayerModel GameDataModel SceneModel RunModel DiffSpec GatherSpec SurfaceSpec LayerSpec InvarianceSpec GeoSpec RealSpec EdgeSpec MapSpec Utf8Spec RunSpec NumberSpec ErrorSpec PointsSpec WoundSpec CoverSpec ShellSpec BrickSpec BulkSpec MassSpec
  BaseProofs GatherProofs LayerProofs GeoProofs GeoFinal SurfaceProofs RunProofs PointsProofs BrickProofs BrickFinal.
From Verif Require ErrorProofs ClosedProofs ShellProofs BulkProofs.
Local Open Scope R_scope.

Lemma drawn_same : forall faces, drawn32 faces = triangles32 faces.
Proof.
  intros faces. unfold drawn32, triangles32. apply flat_map_ext. intros f. unfold drawn_triangles, face32. rewrite ShellProofs.triples_map. apply map_ext. intros [[i j] k].
  assert (A : forall n, spot (map (fun v => point_of (vt_pos v)) (f_vertices f)) n = place32 f n) by (intros n; unfold spot, place32; rewrite nth_error_map; destruct (nth_error (f_vertices f) n); reflexivity).
  now rewrite !A.
Qed.
Lemma triangles_apart : forall bs, triangles32 (flat_map bg_faces bs) = flat_map (fun b => drawn32 (bg_faces b)) bs.
Proof.
  intros bs. induction bs as [|b bs IH]; [reflexivity|]. cbn [flat_map]. unfold triangles32 in *. rewrite flat_map_app, IH. f_equal. symmetry. apply drawn_same.
Qed.
Lemma vectors_perm : forall A (g : A -> vec3 R) l m, Permutation l m -> sum_vectors g l = sum_vectors g m.
Proof. intros A g l m P. now apply ClosedProofs.sum_perm. Qed.

Section Run.
Context (p : platform) (h : R).
Local Notation O := (f32_num p).
Context (order : hmap (list (brush_geo f32)) -> list (str * list (brush_geo f32))) (permutes : forall m, Permutation (order m) m).
Context (fuel : nat) (c : config) (text : str) (d : doc) (nodes : list (node f32)).
Context (Ft : file_text (cf_map c) text) (Td : text_document p text d) (Gd : grid_document p d) (Fd : firm_document p h d) (Er : run p order fuel c = Ok nodes).

(** A brush with the lines of the map it comes from. *)
Definition made (lines : list str) (b : brush_geo f32) : Prop := exists planes e, Forall2 (reads_as p) lines planes /\ build_brush O (cf_textures c) e planes = Ok b.
Definition made_all (bs : list (brush_geo f32)) : Prop := exists e0 chosen, In e0 d /\ subseq chosen (doc_brushes e0) /\ Forall2 made chosen bs.

Lemma made_fan : forall lines b f, made lines b -> In f (bg_faces b) -> fanned32 f.
Proof.
  intros lines b f (planes & e & _ & E) If. unfold build_brush in E. apply bind_ok in E. destruct E as (fs & Ef & E). injection E as <-. cbn [bg_faces] in If. apply mapM_ok in Ef.
  destruct (Forall2_in_r _ _ _ _ _ _ Ef If) as (P & _ & Ep). exact (built_fanned32 _ _ _ _ _ _ Ep).
Qed.
Lemma made_sub : forall bs bs', made_all bs -> subseq bs' bs -> made_all bs'.
Proof.
  intros bs bs' (e0 & ch & I & S & F) S'. destruct (subseq_along _ _ _ _ _ _ F S') as (ch' & S2 & F'). exists e0, ch'. split; [exact I|]. split; [eapply subseq_trans; eauto|exact F'].
Qed.
Lemma made_volume : forall e0 lines b, In e0 d -> In lines (doc_brushes e0) -> made lines b -> exists v, has_volume p lines v
  /\ (forall o m, (forall planes, Forall2 (reads_as p) lines planes -> farthest planes o m) ->
       Rabs (sum_numbers (six_volumes o) (drawn32 (bg_faces b)) - 6 * v) <= INR (length (drawn32 (bg_faces b))) * ((m + allowance h) ^ 3 - m ^ 3))
  /\ (forall s, (forall planes, Forall2 (reads_as p) lines planes -> across planes s) ->
       norm (sum_vectors area_vector (drawn32 (bg_faces b))) <= INR (length (drawn32 (bg_faces b))) * ((s + 2 * allowance h) ^ 2 - s ^ 2)).
Proof.
  intros e0 lines b I0 Il (planes & e & F & E). destruct (Gd e0 lines I0 Il) as (L & G). destruct (Fd e0 lines planes I0 Il F) as (Ne & Go & (o & Dp) & Nr).
  assert (Gr : forall q, In q planes -> grid_plane q) by (intros q Iq; destruct (Forall2_in_r _ _ _ _ _ _ F Iq) as (l & Hl & Rl); now apply (G l q)).
  assert (Ln : (Z.of_nat (length planes) <= 4000)%Z) by (apply Forall2_length in F; now rewrite <- F).
  destruct (BulkProofs.volume p (cf_textures c) e planes b h E Gr Ln Go o Dp Nr Ne) as (v & Pv & Tv & B). exists v. split; [exists planes; auto|]. split.
  - intros x m Far. apply B. now apply Far.
  - intros s Ac. apply (BulkProofs.areas p (cf_textures c) e planes b h E Gr Ln Go o s Dp Nr). now apply Ac.
Qed.
Lemma made_wraps : forall bs T, made_all bs -> bs <> [] -> Permutation (triangles32 (flat_map bg_faces bs)) T -> wraps_solids p h d T.
Proof.
  intros bs T (e0 & ch & I & S & F) N P. rewrite triangles_apart in P.
  assert (Inc : forall l, In l ch -> In l (doc_brushes e0)) by (intros l; now apply subseq_in).
  assert (Ex : exists vs, Forall2 (has_volume p) ch vs
    /\ (forall o m, (forall lines planes, In lines ch -> Forall2 (reads_as p) lines planes -> farthest planes o m) ->
       Rabs (sum_numbers (six_volumes o) (flat_map (fun b => drawn32 (bg_faces b)) bs) - 6 * sum_numbers (fun v => v) vs) <= INR (length (flat_map (fun b => drawn32 (bg_faces b)) bs)) * ((m + allowance h) ^ 3 - m ^ 3))
    /\ (forall s, (forall lines planes, In lines ch -> Forall2 (reads_as p) lines planes -> across planes s) ->
       norm (sum_vectors area_vector (flat_map (fun b => drawn32 (bg_faces b)) bs)) <= INR (length (flat_map (fun b => drawn32 (bg_faces b)) bs)) * ((s + 2 * allowance h) ^ 2 - s ^ 2))).
  { clear S P N. induction F as [|ls b ch bs M F IH].
    - exists []. split; [constructor|]. split; [intros o m _; cbn; rewrite Rmult_0_r, Rminus_0_r, Rabs_R0; lra|]. intros s _. cbn. unfold norm, inner. cbn [vx vy vz].
      replace (0 * 0 + 0 * 0 + 0 * 0) with 0 by ring. rewrite sqrt_0. lra.
    - destruct (IH (fun l Il => Inc l (or_intror Il))) as (vs & Fv & Bv & Ba). destruct (made_volume e0 ls b I (Inc ls (or_introl eq_refl)) M) as (v & Hv & B1 & A1).
      exists (v :: vs). split; [now constructor|]. cbn [flat_map]. rewrite app_length, plus_INR. split.
      + intros o m Far. rewrite ShellProofs.numbers_app, BulkProofs.numbers_cons. specialize (B1 o m (fun pls => Far ls pls (or_introl eq_refl))). specialize (Bv o m (fun l pls Il => Far l pls (or_intror Il))).
        match goal with |- Rabs (?a + ?b' - 6 * (v + ?s)) <= _ => replace (a + b' - 6 * (v + s)) with ((a - 6 * v) + (b' - 6 * s)) by ring end.
        eapply Rle_trans; [apply Rabs_triang|]. rewrite Rmult_plus_distr_r. now apply Rplus_le_compat.
      + intros s Ac. rewrite ClosedProofs.sum_app. specialize (A1 s (fun pls => Ac ls pls (or_introl eq_refl))). specialize (Ba s (fun l pls Il => Ac l pls (or_intror Il))).
        eapply Rle_trans; [apply ErrorProofs.norm_triangle|]. rewrite Rmult_plus_distr_r. now apply Rplus_le_compat. }
  destruct Ex as (vs & Fv & Bv & Ba). exists e0, ch, vs. split; [exact I|]. split; [exact S|]. split; [intros ->; inversion F; subst; now apply N|]. split; [exact Fv|].
  rewrite <- (Permutation_length P). split.
  - intros o m Far. rewrite <- (ShellProofs.numbers_perm _ _ _ _ P). now apply Bv.
  - intros s Ac. rewrite <- (vectors_perm _ _ _ _ P). now apply Ba.
Qed.
Lemma made_fans : forall g, made_all (eg_brushes g) -> fan_faces g.
Proof. intros g (e0 & ch & _ & _ & F) b f Ib If. destruct (Forall2_in_r _ _ _ _ _ _ F Ib) as (ls & _ & M). exact (made_fan ls b f M If). Qed.

Definition textured (e : entity f32) (g : entity_geo f32) : Prop :=
  forall b f t, In b (eg_brushes g) -> In f (bg_faces b) -> f_texture f = Some t -> In t (flat_map (fun b => map bp_texture b) (e_brushes e)).
Lemma run_pieces : exists data layers, build_scene O fuel (cf_game c) (cf_forge c) (cf_blacklist c) data (order layers) = Ok nodes
  /\ (forall e g, In (e, g) data -> made_all (eg_brushes g) /\ textured e g
       /\ forall t, In t (flat_map (fun b => map bp_texture b) (e_brushes e)) -> exists e0 lines ln pl, In e0 d /\ In lines (doc_brushes e0) /\ In ln lines /\ reads_as p ln pl /\ bp_texture pl = t)
  /\ (forall t bs, In (t, bs) layers -> made_all bs /\ forall b, In b bs -> in_layer t b = true).
Proof.
  pose proof Er as E. rewrite run_split in E. pose proof Ft as Ft'. apply read_ok in Ft'. rewrite Ft' in E. cbn [bind] in E.
  apply bind_ok in E. destruct E as ([ps es] & El & E). pose proof (loaded_document p text d ps es Td El) as Ag.
  apply bind_ok in E. destruct E as (gs & Eg & E). apply bind_ok in E. destruct E as ([data layers] & Ef & E). exists data, layers. split; [exact E|]. clear E.
  assert (D : forall e g, In (e, g) (combine es gs) -> made_all (eg_brushes g) /\ textured e g
    /\ forall t, In t (flat_map (fun b => map bp_texture b) (e_brushes e)) -> exists e0 lines ln pl, In e0 d /\ In lines (doc_brushes e0) /\ In ln lines /\ reads_as p ln pl /\ bp_texture pl = t).
  { unfold build_geometry in Eg. apply mapM_ok in Eg. intros e g I.
    pose proof (in_combine_Forall2 _ _ _ _ _ _ _ Eg I) as Ee. cbn beta in Ee.
    apply in_combine_l in I. destruct (Forall2_in_r _ _ _ _ _ _ Ag I) as (e0 & I0 & _ & Fb).
    unfold build_entity_geo in Ee. apply bind_ok in Ee. destruct Ee as (bs & Eb & Ee). injection Ee as <-. cbn [eg_brushes]. apply mapM_ok in Eb.
    split; [|split].
    - exists e0, (doc_brushes e0). split; [exact I0|]. split; [apply subseq_self|].
      assert (Q : forall l, incl l (doc_brushes e0) -> Forall2 (Forall2 (reads_as p)) l (e_brushes e) -> Forall2 made l bs).
      { revert Eb. generalize (e_brushes e). intros pls Eb. clear - Eb. induction Eb as [|pl b pls bs E Eb IH]; intros l Il F; inv F; constructor.
        - exists pl, e. split; assumption.
        - apply IH; [|assumption]. intros z Hz. apply Il. now right. }
      apply Q; [apply incl_refl|exact Fb].
    - intros b f t Ib If Et. destruct (Forall2_in_r _ _ _ _ _ _ Eb Ib) as (planes & Ip & E). apply in_flat_map. exists planes. split; [exact Ip|].
      destruct (Forall2_in_r _ _ _ _ _ _ Fb Ip) as (ls & Hl & Hr). unfold build_brush in E. apply bind_ok in E. destruct E as (fs & Ef' & E). injection E as <-. cbn [bg_faces] in If. apply mapM_ok in Ef'.
      destruct (Forall2_in_r _ _ _ _ _ _ Ef' If) as (P & IP & Ep). unfold build_face in Ep. apply bind_ok in Ep. destruct Ep as (vs & _ & Ep). injection Ep as <-. cbn [f_texture] in Et.
      destruct (hget (cf_textures c) (bp_texture P)); [|discriminate]. injection Et as <-. now apply in_map.
    - intros t It. apply in_flat_map in It. destruct It as (planes & Ip & It). apply in_map_iff in It. destruct It as (pl & <- & Ipl). destruct (Forall2_in_r _ _ _ _ _ _ Fb Ip) as (ls & Hl & Hr).
      destruct (Forall2_in_r _ _ _ _ _ _ Hr Ipl) as (ln & Hn & Hw). exists e0, ls, ln, pl. auto. }
  destruct (layer_filter_single _ _ Ef) as (we & wg & others & S). rewrite (layer_filter_ok _ we wg others S) in Ef. injection Ef as <- <-.
  destruct S as (pre & post & Ed & -> & _ & _). rewrite Ed in D. assert (Dw := D we wg ltac:(apply in_or_app; right; now left)). destruct Dw as (Dw & Tw & Nw). split.
  - intros e g [I|I].
    + injection I as <- <-. cbn [eg_brushes]. split; [|split; [|exact Nw]].
      * eapply made_sub; [exact Dw|]. eapply subseq_trans; apply filter_subseq.
      * intros b f t Ib. cbn [eg_brushes] in Ib. apply filter_In in Ib. destruct Ib as [Ib _]. apply filter_In in Ib. now apply Tw.
    + apply D. apply in_app_or in I. apply in_or_app. simpl. tauto.
  - intros t bs [I|[I|[]]]; injection I as <- <-; (split; [eapply made_sub; [exact Dw|]|]).
    + apply filter_subseq.
    + intros b Ib. apply filter_In in Ib. tauto.
    + eapply subseq_trans; apply filter_subseq.
    + intros b Ib. apply filter_In in Ib. tauto.
Qed.

Lemma shapes_wrap : forall g t k o T, made_all (eg_brushes g) -> collision_of O t g = Ok k -> In T (shells32 (NCollision o k)) -> wraps_solids p h d T.
Proof.
  intros g t k o T M E I. destruct t; cbn [collision_of] in E; [injection E as <-; destruct I|injection E as <-; destruct I|].
  destruct (concave_drawn p g k (made_fans g M) E o T I) as (-> & N). exact (made_wraps _ _ M N (Permutation_refl _)).
Qed.
Theorem mass_shapes : forall n0 o k T, In n0 nodes -> InvarianceSpec.within (NCollision o k) n0 -> In T (shells32 (NCollision o k)) -> wraps_solids p h d T.
Proof.
  intros n0 o k T I W IT. destruct run_pieces as (data & layers & E & D & L). destruct (scene_leaves _ _ _ _ _ _ _ _ E n0 _ I W) as [(e & g & Id & Ek)|(l & t & bs & Il & Ek)].
  - unfold entity_collision in Ek. destruct (get_property e (lit "classname")) as [cl|]; [|discriminate]. destruct (find_def _ cl) as [df|]; [|injection Ek as <-; destruct IT].
    destruct (ed_data df) as [pd|pd bd]; [injection Ek as <-; destruct IT|]. exact (shapes_wrap g _ k o T (proj1 (D e g Id)) Ek IT).
  - refine (shapes_wrap _ _ k o T _ Ek IT). cbn [eg_brushes]. apply (Permutation_in _ (permutes layers)) in Il. exact (proj1 (L t bs Il)).
Qed.
Theorem mass_meshes : (forall e lines ln pl, In e d -> In lines (doc_brushes e) -> In ln lines -> reads_as p ln pl -> ~ In (bp_texture pl) (bl_plane (cf_blacklist c))) ->
  forall n0 o v T, In n0 nodes -> InvarianceSpec.within (NVisual o v) n0 -> In T (shells32 (NVisual o v)) -> wraps_solids p h d T.
Proof.
  intros Bl n0 o v T I W IT. destruct v as [|l]; [destruct IT|]. destruct IT as [<-|[]]. destruct run_pieces as (data & layers & E & D & L).
  destruct (scene_leaves _ _ _ _ _ _ _ _ E n0 _ I W) as [(e & g & Id & Ek)|(lay & t & bs & Il & Ek)].
  - unfold entity_visual in Ek. destruct (get_property e (lit "classname")) as [cl|]; [|discriminate]. destruct (find_def _ cl) as [df|]; [|discriminate].
    destruct (ed_data df) as [pd|pd bd]; [discriminate|]. unfold brush_visual in Ek. destruct (bd_visual bd); [discriminate|]. apply bind_ok in Ek. destruct Ek as (ss & Es & Ek).
    set (names := flat_map (fun b => map bp_texture b) (e_brushes e)) in *. destruct (D e g Id) as (M & Tx & Nm).
    assert (El : filter_map (fun o => o) ss <> [] /\ l = filter_map (fun o => o) ss) by (destruct (filter_map (fun o => o) ss); [discriminate|injection Ek as <-; split; [discriminate|reflexivity]]).
    destruct El as (Ne & ->). destruct (surfaces_drawn32 p g (cf_blacklist c) _ ss (made_fans g M) Es) as (P & N).
    + apply (Permutation_NoDup (l := None :: map Some (unique_textures (cf_blacklist c) names))); [apply Permutation_cons_append|].
      constructor; [intros Hn; apply in_map_iff in Hn; destruct Hn as (? & ? & _); discriminate|].
      apply FinFun.Injective_map_NoDup; [intros x y Exy; now injection Exy|apply unique_textures_NoDup].
    + intros b f Ib If. apply in_or_app. destruct (f_texture f) as [t|] eqn:Et; [left|right; now left]. apply in_map. apply unique_textures_In.
      pose proof (Tx b f t Ib If Et) as It. split; [exact It|]. destruct (Nm t It) as (e0 & ls & ln & pl & I0 & Is & In' & Rd & <-). exact (Bl e0 ls ln pl I0 Is In' Rd).
    + exact Ne.
    + refine (made_wraps _ _ _ N P). eapply made_sub; [exact M|apply filter_subseq].
  - unfold layer_visual in Ek. destruct (wl_visual lay); [discriminate|]. apply bind_ok in Ek. destruct Ek as (os & Es & Ek). destruct os as [s|]; [|discriminate]. injection Ek as <-.
    apply (Permutation_in _ (permutes layers)) in Il. destruct (L t bs Il) as (M & Ly).
    assert (Ms : mapM (texture_surface O (EntityGeo (v3_zero O) bs) blacklist_default) [Some t] = Ok [Some s]) by (cbn [mapM]; rewrite Es; reflexivity).
    destruct (surfaces_drawn32 p (EntityGeo (v3_zero O) bs) blacklist_default [Some t] [Some s] (made_fans (EntityGeo (v3_zero O) bs) M) Ms) as (P & N).
    + repeat constructor. intros [].
    + cbn [eg_brushes]. intros b f Ib If. left. symmetry. pose proof (Ly b Ib) as Lb. unfold in_layer in Lb. rewrite forallb_forall in Lb. specialize (Lb f If).
      destruct (f_texture f) as [t'|]; [|discriminate]. f_equal. now apply str_eqb_eq in Lb.
    + discriminate.
    + refine (made_wraps _ _ _ N P). eapply made_sub; [exact M|apply filter_subseq].
Qed.
End Run.
