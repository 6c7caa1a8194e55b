(** The sides of a brush in another order: lemmas for C121. *)
From Coq Require Import Reals Lra Psatz Permutation.
From Flocq Require Import Core.
From Verif Require Import Prelude F32 Text MapModel GeoModel SceneModel GatherSpec GeoSpec RealSpec WindSpec RestateSpec SidesSpec
  BaseProofs GeoProofs RealProofs WindProofs OrderProofs ShiftProofs RigidProofs RestateProofs SiblingProofs.
Local Open Scope R_scope.

(** Lists told apart by a key. *)
Lemma same_by_key : forall A B (k : A -> B) l l', (forall a b, In a l -> In b l' -> k a = k b -> a = b) -> map k l = map k l' -> l = l'.
Proof.
  intros A B k. induction l as [|a l IH]; intros [|b l'] H E; try discriminate; [reflexivity|]. cbn [map] in E. injection E as E1 E2.
  f_equal; [apply H; [now left|now left|exact E1]|]. apply IH; [|exact E2]. intros x y Ix Iy. apply H; now right.
Qed.
Lemma moved_by_key : forall A B (k : A -> B) l l', (forall a b, In a l -> In b l' -> k a = k b -> a = b) -> Permutation (map k l) (map k l') -> Permutation l l'.
Proof.
  intros A B k. induction l as [|a l IH]; intros l' H P.
  - apply Permutation_nil in P. destruct l'; [constructor|discriminate].
  - cbn [map] in P. assert (I : In (k a) (map k l')) by (apply (Permutation_in _ P); now left).
    apply in_map_iff in I. destruct I as (b & Eb & Ib). assert (a = b) by (apply H; [now left|exact Ib|now symmetry]). subst b.
    apply in_split in Ib. destruct Ib as (m & n & ->). rewrite map_app in P. cbn [map] in P. apply Permutation_cons_app_inv in P. rewrite <- map_app in P.
    apply Permutation_cons_app. apply IH; [|exact P]. intros x y Ix Iy. apply H; [now right|]. apply in_app_iff in Iy. apply in_app_iff. cbn [In]. tauto.
Qed.

Section Sides.
Context (parse : str -> option R) (cosine radians : R -> R) (atan2 : R -> R -> R)
  (quat : vec3 R -> R -> vec3 R -> vec3 R) (mat2 : R -> vec2 R -> vec2 R).
Local Notation O := (real_num parse cosine radians atan2 quat mat2).

Lemma spans_once : forall p q, proper p -> proper q -> ~ spans p p q /\ ~ spans p q p.
Proof.
  intros p q P Q. unfold spans, proper in *. pose proof (sqrt_pos (inner (facing p) (facing p))) as Np. pose proof (sqrt_pos (inner (facing q) (facing q))) as Nq.
  fold (norm (facing p)) in Np. fold (norm (facing q)) in Nq.
  assert (0 < norm (facing p) * norm (facing p) * norm (facing q)) by (apply Rmult_lt_0_compat; [apply Rmult_lt_0_compat|]; lra).
  assert (0 < norm (facing p) * norm (facing q) * norm (facing p)) by (apply Rmult_lt_0_compat; [apply Rmult_lt_0_compat|]; lra).
  assert (E1 : inner (outer (facing p) (facing p)) (facing q) = 0) by (generalize (facing p) (facing q); intros a b; vectors; ring).
  assert (E2 : inner (outer (facing p) (facing q)) (facing p) = 0) by (generalize (facing p) (facing q); intros a b; vectors; ring).
  rewrite E1, E2. lra.
Qed.
Lemma spans_both : forall p q, proper p -> proper q -> ~ spans p q q.
Proof.
  intros p q P Q. unfold spans, proper in *. pose proof (sqrt_pos (inner (facing p) (facing p))) as Np. pose proof (sqrt_pos (inner (facing q) (facing q))) as Nq.
  fold (norm (facing p)) in Np. fold (norm (facing q)) in Nq.
  assert (0 < norm (facing p) * norm (facing q) * norm (facing q)) by (apply Rmult_lt_0_compat; [apply Rmult_lt_0_compat|]; lra).
  assert (E1 : inner (outer (facing p) (facing q)) (facing q) = 0) by (generalize (facing p) (facing q); intros a b; vectors; ring).
  rewrite E1. lra.
Qed.
Lemma spans_swapped : forall p q r, proper p -> proper q -> proper r -> spans p q r -> ~ spans p r q.
Proof.
  intros p q r P Q S. unfold spans, proper in *. pose proof (sqrt_pos (inner (facing p) (facing p))) as Np. pose proof (sqrt_pos (inner (facing q) (facing q))) as Nq.
  pose proof (sqrt_pos (inner (facing r) (facing r))) as Nr. fold (norm (facing p)) in Np. fold (norm (facing q)) in Nq. fold (norm (facing r)) in Nr.
  assert (0 < norm (facing p) * norm (facing q) * norm (facing r)) by (apply Rmult_lt_0_compat; [apply Rmult_lt_0_compat|]; lra).
  assert (E : inner (outer (facing p) (facing r)) (facing q) = - inner (outer (facing p) (facing q)) (facing r)) by (generalize (facing p) (facing q) (facing r); intros a b c; vectors; ring).
  rewrite E. intros H1 H2. replace (norm (facing p) * norm (facing r) * norm (facing q)) with (norm (facing p) * norm (facing q) * norm (facing r)) in H2 by ring. lra.
Qed.

(** The two other planes at a corner are the same ones in the same order. *)
Lemma one_pair : forall planes p0 p1 p2 q1 q2 x, trihedral planes -> In p0 planes -> In p1 planes -> In p2 planes -> In q1 planes -> In q2 planes ->
  intersect_planes O p0 p1 p2 = Some x -> intersect_planes O p0 q1 q2 = Some x -> inside O planes x -> q1 = p1 /\ q2 = p2.
Proof.
  intros planes p0 p1 p2 q1 q2 x T I0 I1 I2 J1 J2 H K W. apply intersect_iff in H, K. rewrite inside_iff in W.
  destruct H as (P0 & P1 & P2 & S & A0 & A1 & A2). destruct K as (_ & Q1 & Q2 & S' & _ & B1 & B2).
  pose proof (T p0 p1 p2 q1 x I0 I1 I2 J1 S A0 A1 A2 B1 W) as T1. pose proof (T p0 p1 p2 q2 x I0 I1 I2 J2 S A0 A1 A2 B2 W) as T2.
  destruct T1 as [->|[->| ->]]; [exfalso; exact (proj1 (spans_once p0 q2 P0 Q2) S')| |]; (destruct T2 as [->|[->| ->]]; [exfalso; exact (proj2 (spans_once _ _ P0 Q1) S')| |]).
  - exfalso. exact (spans_both _ _ P0 Q1 S').
  - split; reflexivity.
  - exfalso. exact (spans_swapped _ _ _ P0 P1 P2 S S').
  - exfalso. exact (spans_both _ _ P0 Q1 S').
Qed.

Section Two.
Context (tx : texture_info) (e : entity R) (planes planes' : list (brush_plane R)) (plane : brush_plane R).
Context (Same : forall q, In q planes <-> In q planes') (Here : In plane planes) (Settled : settled e planes).

Lemma generated_same : forall v v', generated O (hget tx (bp_texture plane)) e planes plane v -> generated O (hget tx (bp_texture plane)) e planes' plane v' ->
  vt_pos v = vt_pos v' -> v = v'.
Proof.
  intros v v' (p1 & p2 & I1 & I2 & E) (q1 & q2 & J1 & J2 & E') P. apply Same in J1, J2.
  apply vertex_inv in E, E'. destruct E as (t & uv & X & W & Et & Eu & Ev). destruct E' as (t' & uv' & X' & _ & Et' & Eu' & Ev'). rewrite <- P in X', Eu', Ev'.
  assert (N : vertex_normal O e plane p1 p2 = vertex_normal O e plane q1 q2).
  { destruct Settled as [Np|T].
    - unfold vertex_normal. replace (is_phong e) with false; [reflexivity|]. symmetry. apply Bool.not_true_iff_false. intros Ph. apply Np. now apply is_phong_iff.
    - destruct (one_pair planes plane p1 p2 q1 q2 (vt_pos v) T Here I1 I2 J1 J2 X X' W) as (-> & ->). reflexivity. }
  assert (t = t') by congruence. subst t'. assert (uv = uv').
  { destruct (hget tx (bp_texture plane)) as [s|]; [|congruence]. destruct Eu as (r & Er & ->), Eu' as (r' & Er' & ->). congruence. }
  subst uv'. rewrite Ev, Ev', N. reflexivity.
Qed.

Lemma face_raw : forall l f, build_face O tx e l plane = Ok f -> exists vs, plane_vertices O (hget tx (bp_texture plane)) e l plane = Ok vs
  /\ Permutation (map (finish O (is_phong e)) (lasts O vs)) (f_vertices f).
Proof.
  intros l f E. destruct (face_inv O _ _ _ _ _ E) as (vs & raw & Ev & -> & _ & -> & _). exists vs. split; [exact Ev|].
  rewrite <- sort_permutes. rewrite map_map. rewrite <- (map_id (map (finish O (is_phong e)) (lasts O vs))) at 1.
  apply Permutation_refl'. apply map_ext. intros [p n t u c]. unfold move. cbn [vt_pos vt_normal vt_tangent vt_uv vt_color]. f_equal. destruct p as [x y z]. unfold v3_add, v3_sub. cbn. f_equal; ring.
Qed.
Lemma face_same : forall f f' v v', build_face O tx e planes plane = Ok f -> build_face O tx e planes' plane = Ok f' ->
  In v (f_vertices f) -> In v' (f_vertices f') -> vt_pos v = vt_pos v' -> v = v'.
Proof.
  intros f f' v v' E E' I I' P. destruct (face_raw _ _ E) as (vs & Ev & R). destruct (face_raw _ _ E') as (vs' & Ev' & R').
  apply (Permutation_in _ (Permutation_sym R)) in I. apply (Permutation_in _ (Permutation_sym R')) in I'.
  apply in_map_iff in I, I'. destruct I as (w & <- & I), I' as (w' & <- & I'). apply lasts_in in I, I'.
  rewrite !finish_pos in P. f_equal. apply generated_same; [|now apply (plane_vertices_inv O _ _ _ _ _ Ev')|exact P]. now apply (plane_vertices_inv O _ _ _ _ _ Ev).
Qed.
Theorem face_resided : forall f f', build_face O tx e planes plane = Ok f -> build_face O tx e planes' plane = Ok f' ->
  restated_face f f' /\ (crisp planes f -> polar_angle atan2 -> f' = f).
Proof.
  intros f f' E E'. destruct (same_set _ _ _ _ _ _ _ _ _ _ _ _ _ _ _ Same E E') as (C & P).
  assert (V : Permutation (f_vertices f) (f_vertices f')) by (apply (moved_by_key _ _ vt_pos); [|exact P]; intros a b Ia Ib; exact (face_same f f' a b E E' Ia Ib)).
  destruct (face_inv O _ _ _ _ _ E) as (_ & _ & _ & _ & _ & _ & Ei & Et). destruct (face_inv O _ _ _ _ _ E') as (_ & _ & _ & _ & _ & _ & Ei' & Et').
  split; [split; [now symmetry|split; [exact V|split; [|congruence]]]; rewrite Ei, Ei'; now rewrite (Permutation_length V)|].
  intros K An. pose proof (same_positions_only _ _ _ _ _ _ _ _ _ _ _ _ _ _ _ Same E E' K An) as L.
  assert (Lv : f_vertices f' = f_vertices f) by (symmetry; apply (same_by_key _ _ vt_pos); [intros a b Ia Ib; exact (face_same f f' a b E E' Ia Ib)|exact L]).
  destruct f as [c v i t], f' as [c' v' i' t']. cbn [f_center f_vertices f_indices f_texture] in *. congruence.
Qed.
End Two.

Lemma built_faces : forall tx e e' b b', e_props e' = e_props e -> (forall q, In q b <-> In q b') -> settled e b ->
  forall l fs, incl l b -> Forall2 (fun x f => build_face O tx e b x = Ok f) l fs ->
  exists gs, mapM (build_face O tx e' b') l = Ok gs /\ Forall2 restated_face fs gs /\ ((forall f, In f fs -> crisp b f) -> polar_angle atan2 -> gs = fs).
Proof.
  intros tx e e' b b' P Same S l fs Inc F. induction F as [|p f l fs H F IH].
  - exists []. split; [reflexivity|]. split; [constructor|reflexivity].
  - destruct IH as (gs & Eg & Fg & Cg); [intros q I; apply Inc; now right|]. destruct (real_total parse cosine radians atan2 quat mat2 tx e b' p) as (f' & H').
    destruct (face_resided tx e b b' p Same (Inc p (or_introl eq_refl)) S f f' H H') as (R & C).
    exists (f' :: gs). cbn [mapM]. rewrite (face_other parse cosine radians atan2 quat mat2 tx e e' b' p P), H', Eg. split; [reflexivity|]. split; [now constructor|].
    intros K An. rewrite (C (K f (or_introl eq_refl)) An), Cg; [reflexivity| |exact An]. intros h I. apply K. now right.
Qed.
Theorem brush_resided : forall tx e e' b b' g, e_props e' = e_props e -> Permutation b b' -> settled e b -> build_brush O tx e b = Ok g ->
  exists g', build_brush O tx e' b' = Ok g' /\ resided_brush g g' /\
    ((forall f, In f (bg_faces g) -> crisp b f) -> polar_angle atan2 -> Permutation (bg_faces g) (bg_faces g')).
Proof.
  intros tx e e' b b' g P Pm S. unfold build_brush. intros H. apply bind_ok in H. destruct H as (fs & Ef & H). apply ok_inj in H. subst g.
  destruct (mapM_moved _ _ _ _ _ _ Pm Ef) as (hs & Eh & Ph). apply mapM_ok in Eh.
  assert (Same : forall q, In q b <-> In q b') by (intros q; split; apply Permutation_in; [exact Pm|now symmetry]).
  assert (Inc : incl b' b) by (intros q; apply Same). destruct (built_faces tx e e' b b' P Same S b' hs Inc Eh) as (gs & -> & Fg & Cg). cbn [bind].
  eexists. split; [reflexivity|]. unfold resided_brush. cbn [bg_center bg_faces]. split; [split|].
  - assert (M : map f_center gs = map f_center hs) by (clear -Fg; induction Fg as [|x y l l' (C & _) F IH]; [reflexivity|]; cbn [map]; now rewrite C, IH).
    rewrite M. apply (mean_unique parse cosine radians atan2 quat mat2 (map f_center hs) (map f_center fs)); [apply Permutation_map; now symmetry|apply mean_is|apply mean_is].
  - exists hs. split; [exact Ph|exact Fg].
  - intros K An. rewrite Cg; [exact Ph| |exact An]. intros f I. apply K. exact (Permutation_in _ (Permutation_sym Ph) I).
Qed.
Theorem entity_resided : forall tx e e' g, resided_entity e e' -> build_entity_geo O tx e = Ok g ->
  exists g', build_entity_geo O tx e' = Ok g' /\ eg_center g' = eg_center g /\ Forall2 resided_brush (eg_brushes g) (eg_brushes g') /\
    exists shapes shapes', convex_collision O g = ColConvex shapes /\ convex_collision O g' = ColConvex shapes' /\ Forall2 restated_convex shapes shapes'.
Proof.
  intros tx e e' g (P & F & S). unfold build_entity_geo. intros H. apply bind_ok in H. destruct H as (bs & Eb & H). apply ok_inj in H.
  assert (G : exists cs, mapM (build_brush O tx e') (e_brushes e') = Ok cs /\ Forall2 resided_brush bs cs).
  { apply mapM_ok in Eb. clear H. revert bs Eb S. induction F as [|b b' l l' Hb F IH]; intros bs Eb S; inversion_clear Eb as [|? h ? bs' Hh Eb'].
    - exists []. split; [reflexivity|constructor].
    - destruct (IH _ Eb') as (cs & Ec & Fc); [intros c I; apply S; now right|].
      destruct (brush_resided tx e e' b b' h P Hb (S b (or_introl eq_refl)) Hh) as (h' & Hh' & R & _). exists (h' :: cs). cbn [mapM]. rewrite Hh', Ec. split; [reflexivity|now constructor]. }
  destruct G as (cs & -> & Fc). cbn [bind]. eexists. split; [reflexivity|]. rewrite P. subst g. cbn [eg_center eg_brushes].
  assert (Mc : map bg_center cs = map bg_center bs) by (clear -Fc; induction Fc as [|x y l l' (C & _) F IH]; [reflexivity|]; cbn [map]; now rewrite C, IH).
  rewrite Mc. split; [reflexivity|]. split; [exact Fc|]. do 2 eexists. split; [reflexivity|]. split; [reflexivity|]. cbn [eg_brushes]. clear -Fc.
  induction Fc as [|x y l l' (C & fs & Pf & Ff) F IH]; cbn [map]; constructor; [|exact IH]. split; cbn [cx_center cx_points]; [exact C|].
  apply NoDup_Permutation; [apply points_once|apply points_once|]. intros z. rewrite !points_in.
  assert (Q : Permutation (flat_map (fun f => map vt_pos (f_vertices f)) (bg_faces x)) (flat_map (fun f => map vt_pos (f_vertices f)) (bg_faces y))).
  { rewrite (Permutation_flat_map _ Pf). clear -Ff. induction Ff as [|f f' l l' (_ & Pm & _) Ff IH]; [constructor|]. cbn [flat_map]. apply Permutation_app; [now apply Permutation_map|exact IH]. }
  split; apply Permutation_in; [exact Q|now symmetry].
Qed.
End Sides.
