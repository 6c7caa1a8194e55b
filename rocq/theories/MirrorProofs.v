(** Mirror images: lemmas for C144. *)
From Coq Require Import Reals Lra Psatz Permutation Sorted.
From Flocq Require Import Core.
From Verif Require Import Prelude F32 Text MapModel GeoModel SceneModel GatherSpec GeoSpec RealSpec WindSpec RigidSpec RestateSpec MirrorSpec
  BaseProofs GeoProofs RealProofs WindProofs OrderProofs ShiftProofs RigidProofs RestateProofs.
Local Open Scope R_scope.

(** ** Lists that turn the other way *)
Lemma turning_map : forall A B (f : A -> B) (turn : B -> B -> B -> Prop) l, turning (fun a b c => turn (f a) (f b) (f c)) l -> turning turn (map f l).
Proof.
  intros A B f turn l T l1 a l2 b l3 c l4 E.
  apply map_eq_app in E. destruct E as (m1 & r1 & -> & <- & E). apply map_eq_cons in E. destruct E as (x & r2 & -> & <- & E).
  apply map_eq_app in E. destruct E as (m2 & r3 & -> & <- & E). apply map_eq_cons in E. destruct E as (y & r4 & -> & <- & E).
  apply map_eq_app in E. destruct E as (m3 & r5 & -> & <- & E). apply map_eq_cons in E. destruct E as (z & r6 & -> & <- & E).
  exact (T m1 x m2 y m3 z r6 eq_refl).
Qed.
Lemma turning_rev : forall A (turn : A -> A -> A -> Prop) l, turning (fun a b c => turn c b a) l -> turning turn (rev l).
Proof.
  intros A turn l T l1 a l2 b l3 c l4 E. apply (T (rev l4) c (rev l3) b (rev l2) a (rev l1)).
  rewrite <- (rev_involutive l), E. rewrite rev_app_distr. cbn [rev]. rewrite rev_app_distr. cbn [rev]. rewrite rev_app_distr. cbn [rev]. now rewrite <- !app_assoc.
Qed.
Lemma turning_weaken : forall A (t t' : A -> A -> A -> Prop) l, (forall a b c, t a b c -> t' a b c) -> turning t l -> turning t' l.
Proof. intros A t t' l H T l1 a l2 b l3 c l4 E. apply H. exact (T l1 a l2 b l3 c l4 E). Qed.

Section Mirror.
Context (parse : str -> option R) (cosine radians : R -> R) (atan2 : R -> R -> R)
  (quat : vec3 R -> R -> vec3 R -> vec3 R) (mat2 : R -> vec2 R -> vec2 R).
Local Notation O := (real_num parse cosine radians atan2 quat mat2).
Context (M : vec3 R -> vec3 R) (t : vec3 R) (Refl : reflection M).
Local Notation go := (carry M t).

(** The opposite of a reflection is a rotation. *)
Definition turned (a : vec3 R) : vec3 R := opposite (M a).
Lemma turned_rotation : rotation turned.
Proof.
  destruct Refl as (A & S & I & X). unfold turned. split; [|split; [|split]].
  - intros a b. rewrite A. generalize (M a) (M b); intros x y. unfold along, opposite. apply v3_ext; vectors; ring.
  - intros k a. rewrite S. generalize (M a); intros x. unfold opposite. apply v3_ext; vectors; ring.
  - intros a b. rewrite <- (I a b). generalize (M a) (M b); intros x y. unfold opposite. vectors. ring.
  - intros a b. rewrite <- X. generalize (M a) (M b); intros x y. unfold opposite. apply v3_ext; vectors; ring.
Qed.
Lemma back : forall a, M a = opposite (turned a).
Proof. intros a. unfold turned, opposite. generalize (M a); intros x. apply v3_ext; vectors; ring. Qed.
Lemma mirror_inner : forall a b, inner (M a) (M b) = inner a b. Proof. apply Refl. Qed.
Lemma mirror_outer : forall a b, outer (M a) (M b) = opposite (M (outer a b)). Proof. apply Refl. Qed.
Lemma mirror_norm : forall a, norm (M a) = norm a.
Proof. intros a. unfold norm. now rewrite mirror_inner. Qed.
Lemma mirror_scale : forall k a, M (scaled k a) = scaled k (M a). Proof. intros k a. apply Refl. Qed.
Lemma mirror_minus : forall a b, minus (go a) (go b) = M (minus a b).
Proof.
  intros a b. rewrite (minus_as a b). destruct Refl as (A & S & _). rewrite A. change (scaled (-1) b) with (V3 (-1 * vx b) (-1 * vy b) (-1 * vz b)). rewrite S. unfold carry, along. generalize (M a) (M b); intros x y.
  apply v3_ext; vectors; ring.
Qed.
Lemma mirror_inj : forall a b, go a = go b -> a = b.
Proof.
  intros a b H. apply (turn_inj turned turned_rotation). unfold turned. f_equal. unfold carry, along in H. destruct (M a) as [a1 a2 a3], (M b) as [b1 b2 b3]. cbn [vx vy vz] in H. inversion H. f_equal; lra.
Qed.
Lemma mirror_onto : forall y, exists x, M x = y.
Proof.
  intros y. destruct (turn_onto turned turned_rotation (opposite y)) as (x & H). exists x. rewrite back, H. unfold opposite. apply v3_ext; vectors; ring.
Qed.
Lemma go_reaches : forall y, exists x, go x = y.
Proof. intros y. destruct (mirror_onto (minus y t)) as (x & H). exists x. unfold carry. rewrite H. unfold along. apply v3_ext; vectors; ring. Qed.

Lemma facing_mirrored : forall pl pl', mirrored M t pl pl' -> facing pl' = M (facing pl).
Proof.
  intros pl pl' (A & B & C & _). unfold facing. rewrite A, B, C, !mirror_minus, mirror_outer.
  assert (E : outer (minus (bp_v1 pl) (bp_v0 pl)) (minus (bp_v2 pl) (bp_v0 pl)) = scaled (-1) (outer (minus (bp_v2 pl) (bp_v0 pl)) (minus (bp_v1 pl) (bp_v0 pl)))) by (apply v3_ext; vectors; ring).
  rewrite E, mirror_scale. generalize (M (outer (minus (bp_v2 pl) (bp_v0 pl)) (minus (bp_v1 pl) (bp_v0 pl)))); intros x. unfold opposite. apply v3_ext; vectors; ring.
Qed.
Lemma normal_mirrored : forall pl pl', mirrored M t pl pl' -> plane_normal O pl' = M (plane_normal O pl).
Proof.
  intros pl pl' H. rewrite !normal_real, (facing_mirrored pl pl' H), mirror_norm.
  assert (E : forall (k : R) a, V3 (vx a / k) (vy a / k) (vz a / k) = scaled (/ k) a) by (intros k a; apply v3_ext; vectors; unfold Rdiv; ring).
  now rewrite !E, mirror_scale.
Qed.
Lemma on_mirrored : forall pl pl' x, mirrored M t pl pl' -> (on_plane pl' (go x) <-> on_plane pl x).
Proof. intros pl pl' x H. unfold on_plane. rewrite (facing_mirrored _ _ H). destruct H as (-> & _). rewrite mirror_minus, mirror_inner. reflexivity. Qed.
Lemma within_mirrored : forall d pl pl' x, mirrored M t pl pl' -> (within d pl' (go x) <-> within d pl x).
Proof. intros d pl pl' x H. unfold within. rewrite (facing_mirrored _ _ H). destruct H as (-> & _). rewrite mirror_minus, mirror_inner, mirror_norm. reflexivity. Qed.
Lemma proper_mirrored : forall pl pl', mirrored M t pl pl' -> (proper pl' <-> proper pl).
Proof. intros pl pl' H. unfold proper. rewrite (facing_mirrored _ _ H), mirror_norm. reflexivity. Qed.
Lemma spans_mirrored : forall p0 p1 p2 q0 q1 q2, mirrored M t p0 q0 -> mirrored M t p1 q1 -> mirrored M t p2 q2 -> (spans q0 q2 q1 <-> spans p0 p1 p2).
Proof.
  intros p0 p1 p2 q0 q1 q2 H0 H1 H2. unfold spans. rewrite (facing_mirrored _ _ H0), (facing_mirrored _ _ H1), (facing_mirrored _ _ H2), !mirror_norm, mirror_outer.
  assert (E : forall a b, inner (opposite (M a)) (M b) = - inner a b) by (intros a b; rewrite <- (mirror_inner a b); generalize (M a) (M b); intros x y; unfold opposite; vectors; ring).
  rewrite E. assert (T : - inner (outer (facing p0) (facing p2)) (facing p1) = inner (outer (facing p0) (facing p1)) (facing p2)) by (generalize (facing p0) (facing p1) (facing p2); intros x y z; vectors; ring).
  rewrite T. replace (norm (facing p0) * norm (facing p2) * norm (facing p1)) with (norm (facing p0) * norm (facing p1) * norm (facing p2)) by ring. reflexivity.
Qed.

(** ** Faces *)
Lemma corners_mirrored : forall tx e l l' p q f f', Forall2 (mirrored M t) l l' -> mirrored M t p q -> build_face O tx e l p = Ok f -> build_face O tx e l' q = Ok f' ->
  Permutation (map go (map vt_pos (f_vertices f))) (map vt_pos (f_vertices f')).
Proof.
  intros tx e l l' p q f f' F H E E'. destruct (real_corners _ _ _ _ _ _ tx e l p f E) as (N & C). destruct (real_corners _ _ _ _ _ _ tx e l' q f' E') as (N' & C').
  apply NoDup_Permutation; [apply FinFun.Injective_map_NoDup; [exact mirror_inj|exact N]|exact N'|].
  assert (G : forall x, In (go x) (map vt_pos (f_vertices f')) <-> In x (map vt_pos (f_vertices f))).
  { intros x. rewrite C, C'. split.
    - intros (q1 & q2 & I1 & I2 & P0 & P1 & P2 & S & O0 & O1 & O2 & W).
      destruct (Forall2_in_r _ _ _ _ _ _ F I1) as (p1 & J1 & H1). destruct (Forall2_in_r _ _ _ _ _ _ F I2) as (p2 & J2 & H2). exists p2, p1.
      rewrite (proper_mirrored _ _ H) in P0. rewrite (proper_mirrored _ _ H1) in P1. rewrite (proper_mirrored _ _ H2) in P2. rewrite (on_mirrored _ _ x H) in O0. rewrite (on_mirrored _ _ x H1) in O1. rewrite (on_mirrored _ _ x H2) in O2.
      rewrite (spans_mirrored _ _ _ _ _ _ H H2 H1) in S. repeat (split; [assumption|]). intros y Iy. destruct (Forall2_in_l _ _ _ _ _ _ F Iy) as (z & Iz & Hz). apply (within_mirrored _ _ _ x Hz). now apply W.
    - intros (p1 & p2 & I1 & I2 & P0 & P1 & P2 & S & O0 & O1 & O2 & W).
      destruct (Forall2_in_l _ _ _ _ _ _ F I1) as (q1 & J1 & H1). destruct (Forall2_in_l _ _ _ _ _ _ F I2) as (q2 & J2 & H2). exists q2, q1.
      rewrite (proper_mirrored _ _ H), (proper_mirrored _ _ H1), (proper_mirrored _ _ H2), (on_mirrored _ _ x H), (on_mirrored _ _ x H1), (on_mirrored _ _ x H2), (spans_mirrored _ _ _ _ _ _ H H1 H2).
      repeat (split; [assumption|]). intros z Iz. destruct (Forall2_in_r _ _ _ _ _ _ F Iz) as (y & Iy & Hz). apply (within_mirrored _ _ _ x Hz). now apply W. }
  intros y. destruct (go_reaches y) as (x & <-). rewrite G, in_map_iff. split.
  - intros (z & Ez & I). apply mirror_inj in Ez. now subst.
  - intros I. eauto.
Qed.

Lemma mean_mirrored : forall l l' c c', l <> [] -> is_mean O l c -> is_mean O l' c' -> Permutation (map go l) l' -> c' = go c.
Proof.
  intros l l' c c' N H H' P.
  assert (N' : l' <> []) by (intros ->; apply Permutation_sym, Permutation_nil in P; destruct l; [auto|discriminate P]).
  assert (L : length l' = length l) by (rewrite <- (Permutation_length P); apply map_length).
  assert (Ln : INR (length l) <> 0) by (apply not_0_INR; destruct l; [congruence|cbn; lia]).
  assert (G : forall F, inner (M F) c' = inner (M F) (go c)).
  { intros F. pose proof (mean_total _ _ _ _ _ _ F l c N H) as A. pose proof (mean_total _ _ _ _ _ _ (M F) l' c' N' H') as B. rewrite <- (total_perm _ _ _ P) in B.
    assert (T : forall m, total (inner (M F)) (map go m) = total (inner F) m + INR (length m) * inner (M F) t).
    { induction m as [|x m IH]; [cbn; ring|]. cbn [map total length]. rewrite IH, S_INR. rewrite <- (mirror_inner F x). unfold carry. generalize (M F) (M x); intros u v. unfold along. vectors. ring. }
    rewrite T, <- A, L in B. assert (E : inner (M F) (go c) = inner F c + inner (M F) t).
    { rewrite <- (mirror_inner F c). unfold carry. generalize (M F) (M c); intros u v. unfold along. vectors. ring. }
    rewrite E. apply (Rmult_eq_reg_l (INR (length l))); [|exact Ln]. lra. }
  destruct (mirror_onto (minus c' (go c))) as (F & EF). specialize (G F). rewrite EF in G. apply minus_null. apply inner_zero. revert G. generalize (go c); intros x. generalize c'. intros y G. vectors. lra.
Qed.

Theorem face_mirrored : forall tx e l l' p q f f', Forall2 (mirrored M t) l l' -> mirrored M t p q -> build_face O tx e l p = Ok f -> build_face O tx e l' q = Ok f' -> mirrored_face M t f f'.
Proof.
  intros tx e l l' p q f f' F H E E'. pose proof (corners_mirrored tx e l l' p q f f' F H E E') as P. split; [exact P|]. split; [|split].
  - intros N. destruct (positions _ _ _ _ _ _ tx e l p f E) as (raw & s & Q & Mn & _). destruct (positions _ _ _ _ _ _ tx e l' q f' E') as (raw' & s' & Q' & Mn' & _).
    apply (mean_mirrored (map vt_pos raw) (map vt_pos raw')); [|exact Mn|exact Mn'|].
    + intros Z. rewrite Z in Q. apply Permutation_nil in Q. destruct (f_vertices f); [auto|discriminate Q].
    + rewrite Q', <- P. now apply Permutation_map.
  - apply Permutation_length in P. rewrite !map_length in P. revert P. unfold build_face in E, E'. apply bind_ok in E, E'. destruct E as (vs & _ & E), E' as (vs' & _ & E'). apply ok_inj in E, E'. subst f f'.
    cbn [f_vertices f_indices]. intros P. now rewrite P.
  - destruct H as (_ & _ & _ & Et). unfold build_face in E, E'. rewrite Et in E'. apply bind_ok in E, E'. destruct E as (vs & _ & E), E' as (vs' & _ & E'). apply ok_inj in E, E'. now subst f f'.
Qed.
Lemma clockwise_mirrored : forall n a b c, clockwise n a b c -> clockwise (M n) (go c) (go b) (go a).
Proof.
  intros n a b c. unfold clockwise. rewrite !mirror_minus, mirror_outer.
  assert (E : forall x y, inner (M x) (opposite (M y)) = - inner x y) by (intros x y; rewrite <- (mirror_inner x y); generalize (M x) (M y); intros u v; unfold opposite; vectors; ring).
  rewrite E. vectors. lra.
Qed.
Theorem face_reversed : forall tx e l l' p q f f', Forall2 (mirrored M t) l l' -> mirrored M t p q -> build_face O tx e l p = Ok f -> build_face O tx e l' q = Ok f' ->
  crisp l f -> polar_angle atan2 -> begun_elsewhere (rev (map go (map vt_pos (f_vertices f)))) (map vt_pos (f_vertices f')).
Proof.
  intros tx e l l' p q f f' F H E E' K P. pose proof (corners_mirrored tx e l l' p q f f' F H E E') as Q.
  apply (turning_unique (fun a b c => clockwise (facing q) a b c)).
  - intros a b c. apply clockwise_cyclic.
  - intros a b c. apply clockwise_one_way.
  - apply turning_rev. apply turning_map. apply turning_map.
    eapply turning_weaken; [|exact (face_turning _ _ _ _ _ _ tx e l p f E K P)]. intros a b c T. cbv beta in *. rewrite (facing_mirrored p q H). now apply clockwise_mirrored.
  - assert (K' : crisp l' f').
    { intros v y Iv Iy. destruct (Forall2_in_r _ _ _ _ _ _ F Iy) as (x & Ix & Hx). pose proof (in_map vt_pos _ _ Iv) as J. apply (Permutation_in _ (Permutation_sym Q)) in J.
      apply in_map_iff in J. destruct J as (u & Eu & J). apply in_map_iff in J. destruct J as (w & <- & J). rewrite <- Eu. apply (within_mirrored 0 x y (vt_pos w) Hx). now apply K. }
    apply turning_map. exact (face_turning _ _ _ _ _ _ tx e l' q f' E' K' P).
  - rewrite <- Permutation_rev. exact Q.
Qed.
Lemma normals_mirrored : forall tx e l l' p q f f' v v', mirrored M t p q -> build_face O tx e l p = Ok f -> build_face O tx e l' q = Ok f' -> ~ phong e ->
  In v (f_vertices f) -> In v' (f_vertices f') -> vt_normal v' = M (vt_normal v).
Proof. intros tx e l l' p q f f' v v' H E E' N I I'. rewrite (flat_normals O tx e l p f v E I N), (flat_normals O tx e l' q f' v' E' I' N). now apply normal_mirrored. Qed.

(** ** Brushes and entities *)
Theorem brush_mirrored : forall tx e e' b b' g, e_props e' = e_props e -> Forall2 (mirrored M t) b b' -> build_brush O tx e b = Ok g ->
  exists g', build_brush O tx e' b' = Ok g' /\ mirrored_brush M t g g'.
Proof.
  intros tx e e' b b' g P F. unfold build_brush. intros H. apply bind_ok in H. destruct H as (fs & Ef & H). apply ok_inj in H. subst g. apply mapM_ok in Ef.
  assert (G : forall l l' fs, Forall2 (mirrored M t) l l' -> Forall2 (fun x f => build_face O tx e b x = Ok f) l fs ->
    exists gs, mapM (build_face O tx e' b') l' = Ok gs /\ Forall2 (mirrored_face M t) fs gs).
  { clear Ef fs. intros l l' fs Fl. revert fs. induction Fl as [|p q l l' H Fl IH]; intros fs Ef; inversion_clear Ef as [|? f ? fs' Hf Ef'].
    - exists []. split; [reflexivity|constructor].
    - destruct (IH _ Ef') as (gs & Eg & Fg). destruct (real_total parse cosine radians atan2 quat mat2 tx e b' q) as (f' & H').
      exists (f' :: gs). cbn [mapM]. rewrite (face_other parse cosine radians atan2 quat mat2 tx e e' b' q P), H', Eg. split; [reflexivity|]. constructor; [|exact Fg].
      exact (face_mirrored _ _ _ _ _ _ _ _ F H Hf H'). }
  destruct (G _ _ _ F Ef) as (gs & -> & Fg). cbn [bind]. eexists. split; [reflexivity|]. split; cbn [bg_center bg_faces]; [|exact Fg].
  intros (Nf & Fu). cbn [bg_faces] in Nf, Fu.
  apply (mean_mirrored (map f_center fs) (map f_center gs)); [destruct fs; [auto|discriminate]|apply mean_is|apply mean_is|].
  assert (Q : map go (map f_center fs) = map f_center gs); [|now rewrite Q].
  clear -Fg Fu. induction Fg as [|x y l l' (_ & C & _) Fg IH]; [reflexivity|]. cbn [map]. rewrite C by (apply Fu; now left). f_equal. apply IH. intros f I. apply Fu. now right.
Qed.
Theorem entity_mirrored : forall tx e e' g, mirrored_entity M t e e' -> build_entity_geo O tx e = Ok g ->
  exists g', build_entity_geo O tx e' = Ok g' /\ Forall2 (mirrored_brush M t) (eg_brushes g) (eg_brushes g') /\
    (hget (e_props e) (lit "origin") = None -> e_brushes e <> [] -> (forall b, In b (eg_brushes g) -> full b) -> eg_center g' = go (eg_center g)) /\
    exists shapes shapes', convex_collision O g = ColConvex shapes /\ convex_collision O g' = ColConvex shapes' /\ Forall2 (mirrored_convex M t) shapes shapes'.
Proof.
  intros tx e e' g (P & F). unfold build_entity_geo. intros H. apply bind_ok in H. destruct H as (bs & Eb & H). apply ok_inj in H. apply mapM_ok in Eb.
  assert (G : exists cs, mapM (build_brush O tx e') (e_brushes e') = Ok cs /\ Forall2 (mirrored_brush M t) bs cs).
  { clear H. revert bs Eb. induction F as [|b b' l l' Hb F IH]; intros bs Eb; inversion_clear Eb as [|? h ? bs' Hh Eb'].
    - exists []. split; [reflexivity|constructor].
    - destruct (IH _ Eb') as (cs & Ec & Fc). destruct (brush_mirrored tx e e' b b' h P Hb Hh) as (h' & Hh' & Rm). exists (h' :: cs). cbn [mapM]. rewrite Hh', Ec. split; [reflexivity|now constructor]. }
  destruct G as (cs & -> & Fc). cbn [bind]. eexists. split; [reflexivity|]. rewrite P. subst g. cbn [eg_center eg_brushes]. split; [exact Fc|]. split.
  - intros -> N Fu. apply (mean_mirrored (map bg_center bs) (map bg_center cs)); [intros Z; apply map_eq_nil in Z; subst bs; inversion Eb; congruence|apply mean_is|apply mean_is|].
    assert (Q : map go (map bg_center bs) = map bg_center cs); [|now rewrite Q].
    clear -Fc Fu. induction Fc as [|x y l l' (C & _) Fc IH]; [reflexivity|]. cbn [map]. rewrite C by (apply Fu; now left). f_equal. apply IH. intros f I. apply Fu. now right.
  - do 2 eexists. split; [reflexivity|]. split; [reflexivity|]. cbn [eg_brushes]. clear -Fc Refl.
    induction Fc as [|x y l l' (_ & Ff) F IH]; cbn [map]; constructor; [|exact IH]. unfold mirrored_convex. cbn [cx_points].
    apply NoDup_Permutation; [apply FinFun.Injective_map_NoDup; [exact mirror_inj|apply points_once]|apply points_once|].
    assert (Q : Permutation (map go (flat_map (fun f => map vt_pos (f_vertices f)) (bg_faces x))) (flat_map (fun f => map vt_pos (f_vertices f)) (bg_faces y))).
    { clear -Ff. induction Ff as [|f f' l l' (Pm & _) Ff IH]; [constructor|]. cbn [flat_map]. rewrite map_app. now apply Permutation_app. }
    intros z. rewrite points_in, in_map_iff. split.
    + intros (w & <- & I). apply points_in in I. apply (Permutation_in _ Q). now apply in_map.
    + intros I. apply (Permutation_in _ (Permutation_sym Q)) in I. apply in_map_iff in I. destruct I as (w & <- & I). exists w. split; [reflexivity|]. now apply points_in.
Qed.
End Mirror.

Theorem face_seen : forall parse cosine radians atan2 quat mat2 M t tx e l l' p q f, reflection M -> Forall2 (mirrored M t) l l' -> mirrored M t p q ->
  build_face (real_num parse cosine radians atan2 quat mat2) tx e l p = Ok f ->
  exists f', build_face (real_num parse cosine radians atan2 quat mat2) tx e l' q = Ok f' /\ mirrored_face M t f f'
    /\ (~ phong e -> forall v v', In v (f_vertices f) -> In v' (f_vertices f') -> vt_normal v' = M (vt_normal v))
    /\ (crisp l f -> polar_angle atan2 -> begun_elsewhere (rev (map (carry M t) (map vt_pos (f_vertices f)))) (map vt_pos (f_vertices f'))).
Proof.
  intros parse cosine radians atan2 quat mat2 M t tx e l l' p q f Rf F H E. destruct (real_total parse cosine radians atan2 quat mat2 tx e l' q) as (f' & E').
  exists f'. split; [exact E'|]. split; [exact (face_mirrored parse cosine radians atan2 quat mat2 M t Rf tx e l l' p q f f' F H E E')|].
  split; [intros N v v' I I'; exact (normals_mirrored parse cosine radians atan2 quat mat2 M t Rf tx e l l' p q f f' v v' H E E' N I I')|].
  intros K P. exact (face_reversed parse cosine radians atan2 quat mat2 M t Rf tx e l l' p q f f' F H E E' K P).
Qed.
