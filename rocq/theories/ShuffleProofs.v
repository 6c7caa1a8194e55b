(** The order of brushes: lemmas for C117. *)
From Coq Require Import Permutation.
From Verif Require Import Prelude F32 Text MapModel GeoModel LayerModel GameDataModel SceneModel RunModel
  GatherSpec GeoSpec LayerSpec SurfaceSpec TreeSpec PropertySpec MapSpec Utf8Spec RunSpec InvarianceSpec PointsSpec ReworkSpec IdleSpec HideSpec ShuffleSpec
  BaseProofs TokenProofs MapProofs GatherProofs SurfaceProofs SurfaceFinal GeoProofs LayerProofs NodeProofs RunProofs SoundProofs InvarianceProofs PointsProofs HideProofs SiblingProofs ReworkProofs IdleProofs.

Section Shapes.
Context (p : platform).
Local Notation O := (f32_num p).

Definition restacked (bs bs' : list (brush_geo f32)) : Prop := Permutation bs bs' /\ whole_brushes bs.
Lemma restacked_whole : forall bs bs', restacked bs bs' -> whole_brushes bs'.
Proof. intros bs bs' (P & W) b f Hb. apply W. now apply (Permutation_in _ (Permutation_sym P)). Qed.
Lemma restacked_filter : forall f bs bs', restacked bs bs' -> restacked (filter f bs) (filter f bs').
Proof. intros f bs bs' (P & W). split; [now apply filter_moved|]. intros b h Hb. apply filter_In in Hb. now apply W. Qed.
Lemma restacked_layer : forall t bs bs', restacked bs bs' ->
  restacked (filter (in_layer t) bs) (filter (in_layer t) bs') /\ restacked (filter (fun b => negb (in_layer t b)) bs) (filter (fun b => negb (in_layer t b)) bs').
Proof. intros t bs bs' R. split; now apply restacked_filter. Qed.

Definition option_shuffled (a b : option (surface f32)) : Prop := match a, b with Some s, Some s' => shuffled_surface s s' | None, None => True | _, _ => False end.
Lemma flat_nil_moved : forall A B (f : A -> list B) l l', Permutation l l' -> flat_map f l = [] -> flat_map f l' = [].
Proof. intros A B f l l' P H. pose proof (Permutation_flat_map f P) as Q. rewrite H in Q. now apply Permutation_nil in Q. Qed.
Lemma made_shuffled : forall t parts parts', Permutation parts parts' -> (forall part, In part parts -> (forall i, In i (snd part) -> i < length (fst part)) /\ exists k, length (snd part) = 3 * k) ->
  option_shuffled (surface_made t parts) (surface_made t parts').
Proof.
  intros t parts parts' P B. assert (B' : forall part, In part parts' -> forall i, In i (snd part) -> i < length (fst part)) by (intros part Hp; apply B; now apply (Permutation_in _ (Permutation_sym P))).
  destruct (surface_made t parts) as [s|] eqn:E, (surface_made t parts') as [s'|] eqn:E'; cbn [option_shuffled]; [| | |exact I].
  - destruct (made_corners t parts s (fun part Hp => proj1 (B part Hp)) E) as (T & C). destruct (made_corners t parts' s' B' E') as (T' & C').
    split; [congruence|]. exists (map piece parts), (map piece parts'). split; [exact C|]. split; [exact C'|]. split; [now apply Permutation_map|].
    apply Forall_forall. intros l Hl. apply in_map_iff in Hl. destruct Hl as (part & <- & Hp). destruct (B part Hp) as (B1 & k & B2). exists k.
    rewrite <- B2, <- (map_length (nth_error (fst part))), piece_all, map_length by exact B1. reflexivity.
  - unfold surface_made in *. destruct (flat_map fst parts') eqn:N; [|discriminate E']. rewrite (flat_nil_moved _ _ _ _ _ (Permutation_sym P) N) in E. discriminate E.
  - unfold surface_made in *. destruct (flat_map fst parts) eqn:N; [|discriminate E]. rewrite (flat_nil_moved _ _ _ _ _ P N) in E'. discriminate E'.
Qed.
Lemma surface_shuffled : forall bl t g g', restacked (eg_brushes g) (eg_brushes g') -> paired option_shuffled (texture_surface O g bl t) (texture_surface O g' bl t).
Proof.
  intros bl t g g' R. assert (X : forall g g', restacked (eg_brushes g) (eg_brushes g') -> forall os, texture_surface O g bl t = Ok os -> exists os', texture_surface O g' bl t = Ok os' /\ option_shuffled os os').
  { clear g g' R. intros g g' (P & W) os E. destruct (surface_parts p bl g t os E) as (parts & F & ->). apply (filter_moved _ (brush_not_blacklisted bl)) in P.
    destruct (Permutation_Forall2 P F) as (parts' & Q & F'). exists (surface_made t parts'). split; [now apply (parts_surface p bl g' t)|]. apply made_shuffled; [exact Q|].
    intros part Hp. destruct (Forall2_in_r _ _ _ _ _ _ F Hp) as (b & Hb & Eb). apply filter_In in Hb. apply (part_bounds p (has_texture t) b part); [intros f Hf; apply (W b f); tauto|exact Eb]. }
  assert (Y : forall a b, option_shuffled a b -> option_shuffled b a).
  { intros [s|] [s'|] H; cbn [option_shuffled] in *; try exact H. destruct H as (T & q & q' & C & C' & Q & F). split; [congruence|]. exists q', q. split; [exact C'|]. split; [exact C|]. split; [now symmetry|].
    rewrite Forall_forall in *. intros l Hl. apply F. now apply (Permutation_in _ (Permutation_sym Q)). }
  split; [now apply X|]. intros os' E'. destruct (X g' g) with (os := os') as (os & E & H); [|exact E'|eauto]. destruct R as (P & W). split; [now symmetry|]. now apply (restacked_whole (eg_brushes g)).
Qed.

Lemma surfaces_shuffled : forall l l', Forall2 option_shuffled l l' -> Forall2 shuffled_surface (filter_map (fun o => o) l) (filter_map (fun o => o) l').
Proof. intros l l' F. induction F as [|[v|] [w|] l l' R F IH]; cbn in *; try contradiction; try constructor; auto. Qed.
Lemma visual_shuffled : forall bl e e' g g' bd, dressed_alike e e' -> restacked (eg_brushes g) (eg_brushes g') -> paired shuffled_visual (brush_visual O e g bd bl) (brush_visual O e' g' bd bl).
Proof.
  intros bl e e' g g' bd (_ & Ht) R. unfold brush_visual. destruct (bd_visual bd); [apply paired_ok; constructor|]. cbv zeta.
  set (ts := map Some (unique_textures bl (flat_map (fun b => map bp_texture b) (e_brushes e))) ++ [None]).
  set (ts' := map Some (unique_textures bl (flat_map (fun b => map bp_texture b) (e_brushes e'))) ++ [None]).
  assert (P : Permutation ts ts').
  { apply Permutation_app_tail, Permutation_map, NoDup_Permutation; try apply unique_textures_NoDup. intros t. rewrite !unique_textures_In, (Ht t). reflexivity. }
  apply paired_bind with (R := fun s s' => exists mid, Permutation s mid /\ Forall2 option_shuffled mid s').
  - assert (Q : paired (Forall2 option_shuffled) (mapM (texture_surface O g bl) ts') (mapM (texture_surface O g' bl) ts')).
    { apply (paired_mapM _ _ _ _ eq option_shuffled); [|intros t t' <-; now apply surface_shuffled]. clear. induction ts'; constructor; auto. }
    destruct Q as (Q1 & Q2). split.
    + intros s Es. destruct (mapM_moved _ _ _ _ _ _ P Es) as (m & Em & Pm). destruct (Q1 m Em) as (s' & Es' & F). eauto.
    + intros s' Es'. destruct (Q2 s' Es') as (m & Em & F). destruct (mapM_moved _ _ _ _ _ _ (Permutation_sym P) Em) as (s & Es & Pm). exists s. split; [exact Es|]. exists m. split; [now symmetry|exact F].
  - intros s s' (mid & Pm & F). apply somes_moved in Pm. apply surfaces_shuffled in F.
    destruct (filter_map (fun o => o) s) as [|x xs]; [apply Permutation_nil in Pm; rewrite Pm in F; inversion F; apply paired_ok; constructor|].
    destruct (filter_map (fun o => o) s') as [|y ys]; [inversion F as [E|]; rewrite <- E in Pm; apply Permutation_sym, Permutation_nil in Pm; discriminate Pm|].
    apply paired_ok. econstructor; eauto.
Qed.
Lemma layer_visual_shuffled : forall l t bs bs', restacked bs bs' -> paired shuffled_visual (layer_visual O l t bs) (layer_visual O l t bs').
Proof.
  intros l t bs bs' R. unfold layer_visual. destruct (wl_visual l); [apply paired_ok; constructor|].
  eapply paired_bind; [apply surface_shuffled; exact R|]. intros [s|] [s'|] H; cbn [option_shuffled] in H; try contradiction; apply paired_ok; [|constructor].
  apply ShuffledMesh with (mid := [s]); [reflexivity|]. constructor; [exact H|constructor].
Qed.

Lemma shape_bounds : forall b part, (forall f, In f (bg_faces b) -> whole f) -> gather_brush O (fun _ => true) (Some (unique_position O)) b = Ok part ->
  (forall i, In i (snd part) -> i < length (fst part)) /\ exists k, length (snd part) = 3 * k.
Proof.
  intros b part H E. destruct (gather_brush_spec O (f32_eq_laws p) (same_position O) (vertex_pos_eq O) (eqb_position O) (fun a b h => h) (fun _ => true) b) as (out & ix & E' & _ & F); [intros f Hf _; now apply H|].
  change (first_at (same_position O)) with (unique_position O) in E'. rewrite E' in E. injection E as <-. cbn [fst snd]. split.
  - intros i Hi. destruct (Forall2_in_r _ _ _ _ _ _ F Hi) as (j & _ & v & N & _). apply nth_error_Some. congruence.
  - rewrite <- (Forall2_length _ _ _ _ _ F). assert (Q : Forall whole (filter (fun _ => true) (bg_faces b))) by (apply Forall_forall; intros f Hf; apply filter_In in Hf; now apply H).
    rewrite <- (map_length (nth_error (face_vertices (filter (fun _ => true) (bg_faces b))))), corner_positions_corners by (intros f Hf; rewrite Forall_forall in Q; now apply Q).
    clear - Q. induction Q as [|f l (_ & (k & Hk) & _) Q (k' & IH)]; [exists 0; reflexivity|]. exists (k + k'). cbn [flat_map]. rewrite app_length, IH. unfold face_corners, corners. rewrite map_length, Hk. lia.
Qed.
Definition shape_made (c : vec3 f32) (parts : list (list (vertex f32) * list nat)) : collision f32 :=
  match flat_map fst parts with [] => ColNone | vs => ColConcave [Concave c (map vt_pos vs) (concat_indices 0 parts)] end.
Lemma shape_parts : forall g k, concave_collision O g = Ok k <-> exists parts, Forall2 (fun b part => gather_brush O (fun _ => true) (Some (unique_position O)) b = Ok part) (eg_brushes g) parts
  /\ k = shape_made (eg_center g) parts.
Proof.
  intros g k. unfold concave_collision, gather_entity. assert (X : forall l : list (brush_geo f32), filter (fun _ => true) l = l) by (induction l as [|f l IH]; [reflexivity|cbn; now rewrite IH]). rewrite X. split.
  - intros E. apply bind_ok in E. destruct E as ([vs ix] & E & Ek). apply bind_ok in E. destruct E as (parts & Ep & E). injection E as <- <-. injection Ek as <-. exists parts. split; [now apply mapM_ok|]. unfold shape_made. destruct (flat_map fst parts); reflexivity.
  - intros (parts & F & ->). apply mapM_ok in F. rewrite F. cbn [bind]. unfold shape_made. destruct (flat_map fst parts); reflexivity.
Qed.
Lemma shape_corners_made : forall c v vs parts, flat_map fst parts = v :: vs -> (forall part, In part parts -> forall i, In i (snd part) -> i < length (fst part)) ->
  shape_corners (Concave c (map vt_pos (v :: vs)) (concat_indices 0 parts)) (concat (map (fun part => map vt_pos (piece part)) parts)).
Proof.
  intros c v vs parts E B. pose proof (parts_corners parts B) as C. rewrite E in C. unfold shape_corners. cbn [cc_vertices cc_indices].
  assert (M : forall (ws : list (vertex f32)) ix cs, map (nth_error ws) ix = map Some cs -> map (nth_error (map vt_pos ws)) ix = map Some (map vt_pos cs)).
  { intros ws ix. induction ix as [|i ix IH]; intros [|x cs] H; try discriminate H; [reflexivity|]. rewrite !map_cons in H |- *. injection H as H1 H2. rewrite (IH cs H2). cbn [map]. f_equal. apply map_nth_error. exact H1. }
  rewrite (M _ _ _ C). f_equal. rewrite concat_map, map_map. reflexivity.
Qed.
Lemma shape_shuffled : forall (fixed : Prop) g g', (fixed -> eg_center g = eg_center g') -> restacked (eg_brushes g) (eg_brushes g') -> forall k, concave_collision O g = Ok k ->
  exists k', concave_collision O g' = Ok k' /\ shuffled_shape fixed k k'.
Proof.
  intros fixed g g' Hc (P & W) k E. apply shape_parts in E. destruct E as (parts & F & ->). destruct (Permutation_Forall2 P F) as (parts' & Q & F'). exists (shape_made (eg_center g') parts'). split; [apply shape_parts; eauto|].
  assert (B : forall part, In part parts -> (forall i, In i (snd part) -> i < length (fst part)) /\ exists k, length (snd part) = 3 * k).
  { intros part Hp. destruct (Forall2_in_r _ _ _ _ _ _ F Hp) as (b & Hb & Eb). apply (shape_bounds b part); [intros f Hf; now apply (W b f)|exact Eb]. }
  assert (B' : forall part, In part parts' -> forall i, In i (snd part) -> i < length (fst part)) by (intros part Hp; apply B; now apply (Permutation_in _ (Permutation_sym Q))).
  unfold shape_made. destruct (flat_map fst parts) as [|v vs] eqn:N; [rewrite (flat_nil_moved _ _ _ _ _ Q N); constructor|].
  destruct (flat_map fst parts') as [|v' vs'] eqn:N'; [rewrite (flat_nil_moved _ _ _ _ _ (Permutation_sym Q) N') in N; discriminate N|].
  eapply ShuffledConcave; [exact Hc|exact (shape_corners_made _ _ _ _ N (fun part Hp => proj1 (B part Hp)))|exact (shape_corners_made _ _ _ _ N' B')|now apply Permutation_map|].
  apply Forall_forall. intros l Hl. apply in_map_iff in Hl. destruct Hl as (part & <- & Hp). destruct (B part Hp) as (B1 & n & B2). exists n.
  rewrite map_length, <- B2, <- (map_length (nth_error (fst part))), piece_all, map_length by exact B1. reflexivity.
Qed.
Lemma shuffled_shape_sym : forall (fixed : Prop) k k', shuffled_shape fixed k k' -> shuffled_shape fixed k' k.
Proof.
  intros fixed k k' [|l l' P|x x' q q' Hc C C' P F]; [constructor|constructor; now symmetry|]. eapply ShuffledConcave; [intros Hf; symmetry; now apply Hc|exact C'|exact C|now symmetry|].
  rewrite Forall_forall in *. intros l Hl. apply F. now apply (Permutation_in _ (Permutation_sym P)).
Qed.
Lemma collision_shuffled : forall (fixed : Prop) t g g', (fixed -> eg_center g = eg_center g') -> restacked (eg_brushes g) (eg_brushes g') -> paired (shuffled_shape fixed) (collision_of O t g) (collision_of O t g').
Proof.
  intros fixed t g g' Hc R. destruct t; cbn [collision_of].
  all: try (apply paired_ok; constructor).
  - apply Permutation_map, R.
  - split; [now apply shape_shuffled|]. intros k' E. destruct (shape_shuffled fixed g' g (fun Hf => eq_sym (Hc Hf)) (conj (Permutation_sym (proj1 R)) (restacked_whole _ _ R)) k' E) as (k & Ek & S). exists k. split; [exact Ek|now apply shuffled_shape_sym].
Qed.
End Shapes.

(** ** Runs *)
Section Run.
Context (p : platform).
Local Notation O := (f32_num p).

Definition reshuffled_parsed (e e' : entity f32) : Prop := (forall k, get_property e k = get_property e' k) /\ Permutation (e_brushes e) (e_brushes e').
Lemma reshuffled_dressed : forall e e', reshuffled_parsed e e' -> dressed_alike e e'.
Proof. intros e e' (Hp & P). split; [exact Hp|]. intros t. pose proof (Permutation_flat_map (map bp_texture) P) as Q. split; apply Permutation_in; [exact Q|now symmetry]. Qed.
Lemma geo_shuffled : forall (fixed : Prop) tx e e', reshuffled_parsed e e' -> (fixed -> e_brushes e = e_brushes e' \/ get_property e (lit "origin") <> None) -> forall g, build_entity_geo O tx e = Ok g ->
  exists g', build_entity_geo O tx e' = Ok g' /\ (fixed -> eg_center g = eg_center g') /\ Permutation (eg_brushes g) (eg_brushes g').
Proof.
  intros fixed tx e e' P Hf g E. pose proof (reshuffled_dressed e e' P) as Pd. destruct P as (Hp & P). unfold build_entity_geo in *. apply bind_ok in E. destruct E as (bs & Eb & E). injection E as <-.
  rewrite (mapM_ext _ _ (build_brush O tx e) (build_brush O tx e')) in Eb by (intros b _; now apply brush_values).
  destruct (mapM_moved _ _ _ _ _ _ P Eb) as (bs' & Eb' & Q). rewrite Eb'. eexists. split; [reflexivity|]. cbn [eg_center eg_brushes]. split; [|exact Q].
  intros Hx. specialize (Hp (lit "origin")). unfold get_property in *. rewrite <- Hp. destruct (hget (e_props e) (lit "origin")) as [s|]; [reflexivity|]. destruct (Hf Hx) as [Es|N]; [|now destruct N]. do 2 f_equal. rewrite Es in Eb. congruence.
Qed.
Definition stacks (fixed : Prop) (e e' : entity f32) : Prop := reshuffled_parsed e e' /\ (fixed -> e_brushes e = e_brushes e' \/ get_property e (lit "origin") <> None).
Lemma stacks_sym : forall (fixed : Prop) e e', stacks fixed e e' -> stacks fixed e' e.
Proof. intros fixed e e' ((Hp & P) & H). split; [split; [intros k; now symmetry|now symmetry]|]. intros Hf. rewrite <- Hp. destruct (H Hf); auto. Qed.
Lemma geometry_shuffled_once : forall (fixed : Prop) tx es es', Forall2 (stacks fixed) es es' -> forall gs, build_geometry O tx es = Ok gs -> exists gs', build_geometry O tx es' = Ok gs'
  /\ Forall2 (fun d d' => dressed_alike (fst d) (fst d') /\ (fixed -> eg_center (snd d) = eg_center (snd d')) /\ Permutation (eg_brushes (snd d)) (eg_brushes (snd d'))) (combine es gs) (combine es' gs').
Proof.
  intros fixed tx es es' F. unfold build_geometry. induction F as [|e e' es es' (P & Hf) F IH]; intros gs E; [exists []; split; [reflexivity|constructor]|]. cbn [mapM] in *.
  apply bind_ok in E. destruct E as (g & Eg & E). apply bind_ok in E. destruct E as (gs0 & Es & E). injection E as <-.
  destruct (geo_shuffled fixed tx e e' P Hf g Eg) as (g' & Eg' & C & Q). destruct (IH gs0 Es) as (gs' & Es' & G). exists (g' :: gs'). rewrite Eg'. cbn [bind]. rewrite Es'. split; [reflexivity|]. cbn [combine]. constructor; [|exact G].
  cbn [fst snd]. split; [now apply reshuffled_dressed|]. now split.
Qed.
Lemma geometry_shuffled : forall (fixed : Prop) tx es es', Forall2 (stacks fixed) es es' ->
  paired (fun gs gs' => Forall2 (related fixed dressed_alike restacked) (combine es gs) (combine es' gs')) (build_geometry O tx es) (build_geometry O tx es').
Proof.
  intros fixed tx es es' F. split.
  - intros gs E. destruct (geometry_shuffled_once fixed tx es es' F gs E) as (gs' & E' & G). exists gs'. split; [exact E'|]. pose proof (built_whole p tx es gs E) as W. clear - G W.
    revert W. generalize (combine es gs) (combine es' gs') G. clear. intros l l' G W. induction G as [|[e g] y l l' (A & B & C) G IH]; constructor; [|apply IH; intros x h Hx; apply (W x); now right].
    split; [exact A|]. split; [exact B|]. split; [exact C|]. apply (W e). now left.
  - intros gs' E'. assert (F' : Forall2 (stacks fixed) es' es) by (apply flipped in F; eapply Forall2_impl; [|exact F]; intros a b H; now apply stacks_sym).
    destruct (geometry_shuffled_once fixed tx es' es F' gs' E') as (gs & E & G). exists gs. split; [exact E|]. pose proof (built_whole p tx es gs E) as W. apply flipped in G. clear - G W.
    revert W. generalize (combine es gs) (combine es' gs') G. clear. intros l l' G W. induction G as [|[e g] y l l' ((A1 & A2) & B & C) G IH]; constructor; [|apply IH; intros x h Hx; apply (W x); now right].
    split; [split; [intros k; now symmetry|intros t; symmetry; apply A2]|]. split; [intros Hf; symmetry; now apply B|]. split; [now symmetry|]. apply (W e). now left.
Qed.

Lemma entity_reshuffled : forall d d' e e', reshuffled d d' -> entity_agrees (reads_as p) d e -> entity_agrees (reads_as p) d' e' -> stacks (anchored d d') e e'.
Proof.
  intros d d' e e' (Hv & P) (G1 & B1) (G2 & B2).
  assert (Fu : forall x y z, Forall2 (reads_as p) x y -> Forall2 (reads_as p) x z -> y = z) by (intros; eapply Forall2_functional; eauto; apply read_unique). split.
  - split; [intros k; now rewrite G1, G2, Hv|]. destruct (Permutation_Forall2 P B1) as (m & Q & F). replace (e_brushes e') with m; [exact Q|]. eapply Forall2_functional; [exact Fu|exact F|exact B2].
  - intros [E|N]; [left|right; now rewrite G1]. rewrite <- E in B2. eapply Forall2_functional; [exact Fu|exact B1|exact B2].
Qed.
Lemma documents_reshuffled : forall d d' es es', Forall2 reshuffled d d' -> Forall2 (entity_agrees (reads_as p)) d es -> Forall2 (entity_agrees (reads_as p)) d' es' -> Forall2 (stacks (Forall2 anchored d d')) es es'.
Proof.
  intros d d' es es' F. revert es es'. induction F as [|x y d d' P F IH]; intros es es' G G'; inversion G; inversion G'; subst; constructor.
  - match goal with A : entity_agrees _ x ?e, A' : entity_agrees _ y ?e' |- _ => destruct (entity_reshuffled x y e e' P A A') as (Q1 & Q2) end. split; [exact Q1|]. intros Hx. apply Q2. now inversion Hx.
  - match goal with |- Forall2 _ ?l ?l' => assert (Z : Forall2 (stacks (Forall2 anchored d d')) l l') by (apply IH; assumption) end. eapply Forall2_impl; [|exact Z]. intros a b (Q1 & Q2). split; [exact Q1|]. intros Hx. apply Q2. now inversion Hx.
Qed.
Lemma agreed_readable : forall d es, Forall2 (entity_agrees (reads_as p)) d es ->
  forall e b l, In e d -> In b (doc_brushes e) -> In l b -> exists ws pl, written ws l /\ plane_words (parse_f32 (p_modern_parse p)) (to_lowercase p) ws pl.
Proof.
  intros d es F e b l He Hb Hl. destruct (Forall2_in_l _ _ _ _ _ _ F He) as (x & _ & (_ & Fb)). destruct (Forall2_in_l _ _ _ _ _ _ Fb Hb) as (br & _ & Fp).
  destruct (Forall2_in_l _ _ _ _ _ _ Fp Hl) as (pl & _ & (ws & W)). now exists ws, pl.
Qed.
Lemma reshuffled_sym : forall d d', Forall2 reshuffled d d' -> Forall2 reshuffled d' d.
Proof. intros d d' F. apply flipped in F. eapply Forall2_impl; [|exact F]. intros a b (H & P). split; [intros k; now symmetry|now symmetry]. Qed.
Lemma reshuffled_loads : forall text text' d d' ps es, text_document p text d -> text_document p text' d' -> Forall2 reshuffled d d' -> load p text = Ok (ps, es) -> exists ps' es', load p text' = Ok (ps', es').
Proof.
  intros text text' d d' ps es Td (ls' & ts' & L' & K' & Sg') F El. pose proof (loaded_document p text d ps es Td El) as Ag. pose proof (agreed_readable d es Ag) as R.
  assert (R' : forall e b l, In e d' -> In b (doc_brushes e) -> In l b -> exists ws pl, written ws l /\ plane_words (parse_f32 (p_modern_parse p)) (to_lowercase p) ws pl).
  { intros e b l He Hb. destruct (Forall2_in_r _ _ _ _ _ _ F He) as (e0 & H0 & (_ & P)). apply (R e0 b l H0). now apply (Permutation_in _ (Permutation_sym P)). }
  destruct (load_doc p text' ls' ts' d' L' K' Sg' R') as (ps' & es' & Lo' & _). eauto.
Qed.

Context (order : hmap (list (brush_geo f32)) -> list (str * list (brush_geo f32))) (permutes : forall m, Permutation (order m) m).
Theorem run_reshuffled : forall fuel c c' text text' d d', same_but_map c c' -> file_text (cf_map c) text -> file_text (cf_map c') text' -> text_document p text d -> text_document p text' d' ->
  Forall2 reshuffled d d' -> paired (reworked_run (Forall2 anchored d d') shuffled_visual (shuffled_shape (Forall2 anchored d d'))) (run p order fuel c) (run p order fuel c').
Proof.
  intros fuel c c' text text' d d' (Et & Eb & Ef & Eg) Ft Ft' Td Td' F. rewrite !run_split. apply read_ok in Ft, Ft'. rewrite Ft, Ft'. cbn [bind].
  destruct (load p text) as [[ps es]| | |] eqn:El.
  2-4: (apply paired_fail; [discriminate|]; intros y Ey; apply bind_ok in Ey; destruct Ey as ([ps' es'] & El' & _);
    destruct (reshuffled_loads text' text d' d ps' es' Td' Td (reshuffled_sym _ _ F) El') as (ps & es & E); rewrite E in El; discriminate El).
  destruct (reshuffled_loads text text' d d' ps es Td Td' F El) as (ps' & es' & El'). rewrite El'. cbn [bind].
  pose proof (documents_reshuffled d d' es es' F (loaded_document p text d ps es Td El) (loaded_document p text' d' ps' es' Td' El')) as G.
  apply (built_reworked p order permutes (Forall2 anchored d d') shuffled_visual (shuffled_shape (Forall2 anchored d d')) dressed_alike restacked c c' Eb Ef Eg).
  - intros e e' (H & _). exact H.
  - apply restacked_layer.
  - constructor.
  - constructor.
  - intros v v' [|l mid l' P M]; split; congruence || discriminate.
  - intros k k' [| |]; split; congruence || discriminate.
  - intros e e' g g' bd H B. now apply visual_shuffled.
  - intros l t bs bs' B. now apply layer_visual_shuffled.
  - intros t g g' H B. now apply collision_shuffled.
  - rewrite <- Et. now apply geometry_shuffled.
Qed.
End Run.
