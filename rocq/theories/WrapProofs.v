(** Meshes and concave shapes against the solids of the brushes: proofs of C155. *)
From Coq Require Import Reals Lra Lia Permutation.
From Verif Require Import Prelude F32 Text MapModel GeoModel LayerModel GameDataModel SceneModel LayerSpec GatherSpec InvarianceSpec GeoSpec RealSpec WindSpec SolidSpec RigidSpec EdgeSpec RaySpec ShellSpec CladSpec WrapSpec
  BaseProofs LayerProofs GeoProofs RealProofs WindProofs SolidProofs EdgeProofs RayProofs PierceProofs ShellProofs ShellFinal CladProofs.
Local Open Scope R_scope.

Lemma triples_nth : forall A (l : list A) x y z, In (x, y, z) (triples l) <-> exists i, nth_error l (3 * i) = Some x /\ nth_error l (3 * i + 1) = Some y /\ nth_error l (3 * i + 2) = Some z.
Proof.
  intros A l x y z. assert (G : forall n (l : list A), (length l <= n)%nat -> In (x, y, z) (triples l) <-> exists i, nth_error l (3 * i) = Some x /\ nth_error l (3 * i + 1) = Some y /\ nth_error l (3 * i + 2) = Some z).
  { clear l. induction n as [|n IH]; intros l L.
    - destruct l; [|cbn in L; lia]. cbn [triples]. split; [intros []|intros (i & E & _); destruct (3 * i)%nat; discriminate].
    - destruct l as [|a [|b [|c l]]]; cbn [triples].
      + split; [intros []|intros (i & E & _); destruct (3 * i)%nat; discriminate].
      + split; [intros []|intros (i & _ & E & _)]. replace (3 * i + 1)%nat with (S (3 * i)) in E by lia. cbn [nth_error] in E. destruct (3 * i)%nat; discriminate.
      + split; [intros []|intros (i & _ & _ & E)]. replace (3 * i + 2)%nat with (S (S (3 * i))) in E by lia. cbn [nth_error] in E. destruct (3 * i)%nat; discriminate.
      + cbn [In]. rewrite IH by (cbn in L; lia). split.
        * intros [E|(i & E)]; [injection E as -> -> ->; exists 0%nat; auto|]. exists (S i).
          replace (3 * S i)%nat with (S (S (S (3 * i)))) by lia. exact E.
        * intros ([|i] & E); [left; destruct E as (E1 & E2 & E3); cbn in E1, E2, E3; congruence|right]. exists i.
          replace (3 * S i)%nat with (S (S (S (3 * i)))) in E by lia. exact E. }
  exact (G _ l (Nat.le_refl _)).
Qed.
Lemma covered_flat_map : forall A (g : A -> list corner3) l x, covered (flat_map g l) x <-> exists a, In a l /\ covered (g a) x.
Proof.
  intros A g l x. split.
  - intros (a & b & c & I & T). apply in_flat_map in I. destruct I as (u & Iu & I). exists u. split; [exact Iu|]. exists a, b, c. auto.
  - intros (u & Iu & a & b & c & I & T). exists a, b, c. split; [apply in_flat_map; eauto|exact T].
Qed.
Lemma face_covered : forall (f : face R) x, in_bounds f ->
  covered (map (fun '(i, j, k) => (place f i, place f j, place f k)) (triples (f_indices f))) x <-> exists i p q r, triangle f i p q r /\ in_triangle p q r x.
Proof.
  intros f x B. assert (N : forall n i, nth_error (f_indices f) n = Some i -> exists v, nth_error (f_vertices f) i = Some v).
  { intros n i E. apply nth_error_In in E. specialize (B i E). apply nth_error_Some in B. destruct (nth_error (f_vertices f) i) as [v|]; [now exists v|congruence]. }
  split.
  - intros (a & b & c & I & T). apply in_map_iff in I. destruct I as (((i & j) & k) & E & I). injection E as <- <- <-. apply triples_nth in I. destruct I as (n & E1 & E2 & E3).
    destruct (N _ _ E1) as (u & U), (N _ _ E2) as (v & V), (N _ _ E3) as (w & W). exists n, (place f i), (place f j), (place f k). split; [|exact T].
    exists u, v, w, i, j, k. unfold place. rewrite U, V, W. repeat split; assumption.
  - intros (n & p & q & r & (u & v & w & i & j & k & E1 & E2 & E3 & U & V & W & -> & -> & ->) & T). exists (vt_pos u), (vt_pos v), (vt_pos w). split; [|exact T].
    apply in_map_iff. exists (i, j, k). unfold place. rewrite U, V, W. split; [reflexivity|]. apply triples_nth. exists n. auto.
Qed.

Section Scene.
Context (parse : str -> option R) (cosine radians : R -> R) (atan2 : R -> R -> R)
  (quat : vec3 R -> R -> vec3 R -> vec3 R) (mat2 : R -> vec2 R -> vec2 R).
Local Notation O := (real_num parse cosine radians atan2 quat mat2).
Context (An : polar_angle atan2) (fuel : nat) (gd : game_data R) (fd : forge_data R) (bl : blacklist) (tx : texture_info) (es : list (entity R)) (nodes : list (node R)).
Context (Run : exact_scene O fuel gd fd bl tx es = Ok nodes)
  (Good : forall e planes, In e es -> In planes (e_brushes e) -> good_brush O tx e planes).

Lemma brush_covered : forall e planes b, In e es -> In planes (e_brushes e) -> build_brush O tx e planes = Ok b -> forall x, covered (all_triangles (bg_faces b)) x <-> surface_of planes x.
Proof.
  intros e planes b Ie Ip E x. destruct (Good e planes Ie Ip) as (H & Bd & (o & Dp) & _).
  assert (F : forall f, In f (bg_faces b) -> in_bounds f) by (intros f If; refine (proj1 (from_faces parse cosine radians atan2 quat mat2 tx es b f _ If)); exists e, planes; auto).
  rewrite <- (mesh_surface parse cosine radians atan2 quat mat2 tx e planes b o E An (fun plane f I _ Ef => H plane f I Ef) Bd Dp x).
  unfold all_triangles. rewrite covered_flat_map. split.
  - intros (f & If & C). apply (face_covered f x (F f If)) in C. destruct C as (i & p & q & r & T & X). exists f, i, p, q, r. auto.
  - intros (f & i & p & q & r & If & T & X). exists f. split; [exact If|]. apply (face_covered f x (F f If)). exists i, p, q, r. auto.
Qed.
Lemma chosen_planes : forall e (bs : list (brush_geo R)), (forall b, In b bs -> exists planes, In planes (e_brushes e) /\ build_brush O tx e planes = Ok b) ->
  exists chosen, Forall2 (fun planes b => In planes (e_brushes e) /\ build_brush O tx e planes = Ok b) chosen bs.
Proof.
  intros e bs. induction bs as [|b bs IH]; intros H; [exists []; constructor|]. destruct (H b (or_introl eq_refl)) as (planes & Hp). destruct IH as (chosen & F); [intros; apply H; now right|].
  exists (planes :: chosen). now constructor.
Qed.
Lemma chosen_covered : forall e chosen bs T, In e es -> Forall2 (fun planes b => In planes (e_brushes e) /\ build_brush O tx e planes = Ok b) chosen bs ->
  Permutation (flat_map (fun b => all_triangles (bg_faces b)) bs) T -> forall x, covered T x <-> exists planes, In planes chosen /\ surface_of planes x.
Proof.
  intros e chosen bs T Ie F P x.
  transitivity (covered (flat_map (fun b => all_triangles (bg_faces b)) bs) x); [split; apply covered_perm; [now symmetry|exact P]|]. rewrite covered_flat_map. split.
  - intros (b & Ib & C). destruct (Forall2_in_r _ _ _ _ _ _ F Ib) as (planes & Ip & Ie' & Eb). exists planes. split; [exact Ip|]. now apply (brush_covered e planes b).
  - intros (planes & Ip & S). destruct (Forall2_in_l _ _ _ _ _ _ F Ip) as (b & Ib & Ie' & Eb). exists b. split; [exact Ib|]. now apply (brush_covered e planes b).
Qed.
Lemma laid_wraps : forall T, laid_out parse cosine radians atan2 quat mat2 tx es T -> wraps es T.
Proof.
  intros T (e & bs & Ie & N & B & P). destruct (chosen_planes e bs B) as (chosen & F). exists e, chosen. split; [exact Ie|]. split; [intros ->; inversion F; subst; now apply N|].
  split; [intros planes I; destruct (Forall2_in_l _ _ _ _ _ _ F I) as (b & _ & X); tauto|]. exact (chosen_covered e chosen bs T Ie F P).
Qed.

(** Which brushes the leaves of the tree are made of. *)
Lemma run_whole : exists data layers, build_scene O fuel gd fd bl data layers = Ok nodes
  /\ (forall e g, In (e, g) data -> In e es /\ exists chosen, whole e chosen /\ Forall2 (fun planes b => In planes (e_brushes e) /\ build_brush O tx e planes = Ok b) chosen (eg_brushes g))
  /\ exists w, In w es /\ worldspawn w /\ forall t bs b, In (t, bs) layers -> In b bs -> exists planes, In planes (e_brushes w) /\ build_brush O tx w planes = Ok b.
Proof.
  clear Good. unfold exact_scene in Run. apply bind_ok in Run. destruct Run as (geo & Eg & E). clear Run. apply bind_ok in E. destruct E as ([data layers] & El & E).
  exists data, layers. split; [exact E|]. clear E.
  assert (D : forall e g, In (e, g) (combine es geo) -> In e es /\ Forall2 (fun planes b => In planes (e_brushes e) /\ build_brush O tx e planes = Ok b) (e_brushes e) (eg_brushes g)).
  { unfold build_geometry in Eg. apply mapM_ok in Eg. intros e g I. split; [exact (in_combine_l _ _ _ _ I)|].
    assert (Ee : build_entity_geo O tx e = Ok g) by (clear - Eg I; induction Eg as [|e' g' es geo E Eg IH]; [destruct I|destruct I as [I|I]; [injection I as -> ->; exact E|exact (IH I)]]).
    unfold build_entity_geo in Ee. apply bind_ok in Ee. destruct Ee as (bs & Eb & Ee). injection Ee as <-. cbn [eg_brushes]. apply mapM_ok in Eb.
    assert (G : forall l bs', (forall planes, In planes l -> In planes (e_brushes e)) -> Forall2 (fun planes b => build_brush O tx e planes = Ok b) l bs' ->
      Forall2 (fun planes b => In planes (e_brushes e) /\ build_brush O tx e planes = Ok b) l bs').
    { intros l bs' Sub F. induction F as [|planes b l bs' X F IH]; constructor; [split; [apply Sub; now left|exact X]|apply IH; intros; apply Sub; now right]. }
    apply G; [auto|exact Eb]. }
  destruct (layer_filter_single _ _ El) as (we & wg & others & S). rewrite (layer_filter_ok _ we wg others S) in El. injection El as <- <-.
  destruct S as (pre & post & Ed & -> & Wd & _). rewrite Ed in D. destruct (D we wg ltac:(apply in_or_app; right; now left)) as (Iw & Fw).
  assert (Dw : forall b, In b (eg_brushes wg) -> exists planes, In planes (e_brushes we) /\ build_brush O tx we planes = Ok b) by (intros b Ib; destruct (Forall2_in_r _ _ _ _ _ _ Fw Ib) as (planes & _ & X); eauto).
  split.
  - intros e g [I|I].
    + injection I as <- <-. split; [exact Iw|]. cbn [eg_brushes].
      destruct (chosen_planes we (filter (fun b => negb (in_layer slime b)) (filter (fun b => negb (in_layer water b)) (eg_brushes wg)))) as (chosen & F).
      { intros b Ib. apply filter_In in Ib. destruct Ib as [Ib _]. apply filter_In in Ib. apply Dw. tauto. }
      exists chosen. split; [|exact F]. right. split; [exact Wd|]. intros planes I. destruct (Forall2_in_l _ _ _ _ _ _ F I) as (b & _ & X). tauto.
    + destruct (D e g) as (Ie & F); [apply in_app_or in I; apply in_or_app; simpl; tauto|]. split; [exact Ie|]. exists (e_brushes e). split; [now left|exact F].
  - exists we. split; [exact Iw|]. split; [exact Wd|]. intros t bs b [I|[I|[]]] Ib; injection I as <- <-; apply filter_In in Ib; destruct Ib as [Ib _].
    + now apply Dw.
    + apply filter_In in Ib. apply Dw. tauto.
Qed.
Lemma collision_whole : forall e g t k c T chosen, In e es -> whole e chosen -> Forall2 (fun planes b => In planes (e_brushes e) /\ build_brush O tx e planes = Ok b) chosen (eg_brushes g) ->
  collision_of O t g = Ok k -> In T (shells (NCollision c k)) -> wraps_whole es T.
Proof.
  intros e g t k c T chosen Ie Wh F E I. destruct t; cbn [collision_of] in E; [injection E as <-; destruct I|injection E as <-; destruct I|].
  destruct (concave_laid parse cosine radians atan2 quat mat2 tx es g k) with (c := c) (T := T) as (N & ->); [|exact E|exact I|].
  - intros b Ib. destruct (Forall2_in_r _ _ _ _ _ _ F Ib) as (planes & _ & Ip & Eb). exists e, planes. auto.
  - exists e, chosen. split; [exact Ie|]. split; [intros ->; inversion F as [Z|]; now apply N|]. split; [exact Wh|]. exact (chosen_covered e chosen _ _ Ie F (Permutation_refl _)).
Qed.
Theorem shapes_wrap : forall n0 c k T, In n0 nodes -> InvarianceSpec.within (NCollision c k) n0 -> In T (shells (NCollision c k)) -> wraps_whole es T.
Proof.
  intros n0 c k T I W IT. destruct run_whole as (data & layers & E & D & w & Iw & Ww & L). destruct (scene_leaves parse cosine radians atan2 quat mat2 gd fd bl data layers fuel nodes E n0 _ I W) as [(e & g & Id & Ek)|(l & t & bs & Il & Ek)].
  - unfold entity_collision in Ek. destruct (get_property e (lit "classname")) as [cl|]; [|discriminate]. destruct (find_def gd cl) as [d|]; [|injection Ek as <-; destruct IT].
    destruct (ed_data d) as [pd|pd bd]; [injection Ek as <-; destruct IT|]. destruct (D e g Id) as (Ie & chosen & Wh & F). exact (collision_whole e g _ k c T chosen Ie Wh F Ek IT).
  - destruct (chosen_planes w bs (fun b Ib => L t bs b Il Ib)) as (chosen & F).
    refine (collision_whole w (EntityGeo (v3_zero O) bs) _ k c T chosen Iw _ F Ek IT). right. split; [exact Ww|]. intros planes Ip. destruct (Forall2_in_l _ _ _ _ _ _ F Ip) as (b & _ & X). tauto.
Qed.
Theorem shapes_hold : forall n0 c k T, In n0 nodes -> InvarianceSpec.within (NCollision c k) n0 -> In T (shells (NCollision c k)) -> holds_in es T.
Proof.
  intros n0 c k T I0 W IT. destruct (shapes_wrap n0 c k T I0 W IT) as (e & chosen & Ie & N & Wh & C). exists e, chosen. split; [exact Ie|]. split; [exact N|]. split; [exact Wh|].
  assert (Sub : forall planes, In planes chosen -> In planes (e_brushes e)) by (intros planes I; destruct Wh as [->|(_ & Sub)]; auto). split.
  - intros planes x y I D Ny. destruct (Good e planes Ie (Sub planes I)) as (_ & Bd & _). destruct (surface_way planes Bd x y D Ny) as (s & Ss & M).
    exists s. split; [exact Ss|]. apply C. exists planes. split; [exact I|]. apply M; [lra|reflexivity].
  - intros x X. apply C in X. destruct X as (planes & I & So & q & Iq & On). exists planes. split; [exact I|]. split; [exact So|].
    intros D. apply slack_on in On. pose proof (deep_slack _ _ D q Iq). lra.
Qed.
Theorem meshes_wrap : (forall e planes pl, In e es -> In planes (e_brushes e) -> In pl planes -> ~ In (bp_texture pl) (bl_plane bl)) ->
  forall n0 c v T, In n0 nodes -> InvarianceSpec.within (NVisual c v) n0 -> In T (shells (NVisual c v)) -> wraps es T.
Proof. intros Bl n0 c v T I W IT. apply laid_wraps. exact (mesh_out parse cosine radians atan2 quat mat2 fuel gd fd bl tx es nodes Run Bl n0 c v T I W IT). Qed.
End Scene.
