(** Convex collision shapes of boxes: lemmas for C148. *)
From Coq Require Import Reals Lra Lia ZArith Permutation.
From Flocq Require Import Core.
From Verif Require Import Prelude F32 Text MapModel GeoModel LayerModel GameDataModel SceneModel RunModel
  GatherSpec SurfaceSpec GeoSpec NumberSpec LayerSpec TreeSpec PropertySpec MapSpec Utf8Spec RunSpec InvarianceSpec RealSpec WindSpec ErrorSpec PointsSpec MeshSpec
  CornerSpec SolidSpec WoundSpec KeptSpec CoverSpec FillSpec BoxSpec BoxEdgeSpec ShellSpec BrickSpec CartonSpec
  FloatProofs ExactProofs BoxProofs BaseProofs GatherProofs GeoProofs GeoFinal SurfaceProofs SurfaceFinal LayerProofs NodeProofs RunProofs SoundProofs PointsProofs PointsFinal KeptProofs KeptFinal TriangleProofs
  ErrorProofs RealProofs WindProofs SolidProofs FillProofs CoverFinal FillFinal BoxEdgeProofs BrickProofs BoxFinal.
Local Open Scope R_scope.

(** ** The hull of the corners *)
Definition put (i : nat) (x : vec3 R) (t : R) : vec3 R := match i with 0%nat => V3 t (vy x) (vz x) | 1%nat => V3 (vx x) t (vz x) | _ => V3 (vx x) (vy x) t end.
Definition nth3 (i : nat) (x : vec3 R) : R := match i with 0%nat => vx x | 1%nat => vy x | _ => vz x end.
Lemma hull_along : forall l i x a b, a <= nth3 i x <= b -> in_hull l (put i x a) -> in_hull l (put i x b) -> in_hull l x.
Proof.
  intros l i x a b H A B.
  apply (hull_between l x (put i (V3 0 0 0) 1) (b - nth3 i x) (nth3 i x - a)); [lra|lra| |].
  - eapply weighted_eq; [exact B|reflexivity|]. destruct i as [|[|i]]; apply v3_ext; cbn; ring.
  - eapply weighted_eq; [exact A|reflexivity|]. destruct i as [|[|i]]; apply v3_ext; cbn; ring.
Qed.
Lemma hull_range : forall (c : vec3 R -> R) a b l w y,
  (forall k x y, c (V3 (k * vx x + vx y) (k * vy x + vy y) (k * vz x + vz y)) = k * c x + c y) -> c (V3 0 0 0) = 0 ->
  weighted l w y -> (forall x, In x l -> a <= c x <= b) -> w * a <= c y <= w * b.
Proof.
  intros c a b l w y L Z H. induction H as [|x l w s y W H IH]; intros I; [rewrite Z; lra|].
  rewrite L. pose proof (I x (or_introl eq_refl)). specialize (IH (fun x Hx => I x (or_intror Hx))). nra.
Qed.
Lemma corners_hull : forall lo hi l, (forall q, In q l -> in_box lo hi q) -> (forall k, box_corner lo hi k -> In (reals k) l) -> forall x, in_hull l x <-> in_box lo hi x.
Proof.
  intros lo hi l A B x. split.
  - intros H. unfold in_hull in H. split; [|split].
    + pose proof (hull_range (@vx R) (IZR (vx lo)) (IZR (vx hi)) l 1 x ltac:(reflexivity) ltac:(reflexivity) H (fun q Hq => proj1 (A q Hq))). lra.
    + pose proof (hull_range (@vy R) (IZR (vy lo)) (IZR (vy hi)) l 1 x ltac:(reflexivity) ltac:(reflexivity) H (fun q Hq => proj1 (proj2 (A q Hq)))). lra.
    + pose proof (hull_range (@vz R) (IZR (vz lo)) (IZR (vz hi)) l 1 x ltac:(reflexivity) ltac:(reflexivity) H (fun q Hq => proj2 (proj2 (A q Hq)))). lra.
  - destruct x as [x y z]. intros (X & Y & Z). cbn [vx vy vz] in X, Y, Z.
    assert (K : forall a b c, (a = vx lo \/ a = vx hi) -> (b = vy lo \/ b = vy hi) -> (c = vz lo \/ c = vz hi) -> in_hull l (V3 (IZR a) (IZR b) (IZR c))).
    { intros a b c Ha Hb Hc. apply hull_corner. apply (B (V3 a b c)). split; [exact Ha|split; [exact Hb|exact Hc]]. }
    apply (hull_along l 0 _ (IZR (vx lo)) (IZR (vx hi))); [exact X|..]; (apply (hull_along l 1 _ (IZR (vy lo)) (IZR (vy hi))); [exact Y|..]); (apply (hull_along l 2 _ (IZR (vz lo)) (IZR (vz hi))); [exact Z|..]);
      cbn [put vx vy vz]; apply K; auto.
Qed.

Lemma side_box : forall lo hi s k, In k (side_corners lo hi s) -> box_corner lo hi k.
Proof. intros lo hi s k H. destruct s; cbn [side_corners In] in H; decompose [or] H; try contradiction; subst k; unfold box_corner; cbn [vx vy vz]; auto. Qed.
Lemma box_side_of : forall lo hi k, box_corner lo hi k -> exists s, In k (side_corners lo hi s).
Proof.
  intros lo hi [x y z] ([H|H] & Hy & Hz); cbn [vx vy vz] in *; subst x; [exists XDown|exists XUp]; destruct Hy as [->| ->], Hz as [->| ->]; cbn; auto.
Qed.
Lemma corner_in : forall lo hi k, box lo hi -> box_corner lo hi k -> in_box lo hi (reals k).
Proof.
  intros lo hi k (X & Y & Z & _) (Kx & Ky & Kz). apply IZR_lt in X, Y, Z. unfold in_box, reals. cbn [vx vy vz].
  split; [destruct Kx as [->| ->]; lra|]. split; [destruct Ky as [->| ->]; lra|destruct Kz as [->| ->]; lra].
Qed.

Section Shapes.
Context (p : platform).
Local Notation O := (f32_num p).

Lemma same_ints : forall a b k, pos_eq O a b -> at_ints b k -> fins a -> at_ints a k.
Proof.
  intros a b k E B F. pose proof (same_point p a b E) as S. destruct F as (F1 & F2 & F3). destruct B as ((_ & B1) & (_ & B2) & (_ & B3)). unfold point_of in S.
  injection S as S1 S2 S3.
  split; [split; [exact F1|now rewrite S1]|]. split; [split; [exact F2|now rewrite S2]|split; [exact F3|now rewrite S3]].
Qed.

Theorem box_packed : forall tx e lo hi planes faces l, box lo hi -> box_brush p lo hi planes ->
  Forall2 (fun pl f => build_face O tx e planes pl = Ok f) planes faces -> made_of p faces l -> packs lo hi l.
Proof.
  intros tx e lo hi planes faces l Bx Bb F (M1 & M2).
  assert (A : forall q, In q l -> exists k, box_corner lo hi k /\ at_ints q k).
  { intros q Hq. destruct (M2 q Hq) as (f & v & Hf & Hv & ->). destruct (Forall2_in_r _ _ _ _ _ _ F Hf) as (pl & Hp & Ep).
    destruct (proj1 Bb pl Hp) as (s & k & Bp & Ex). destruct (box_face_c18 p lo hi planes s k pl tx e Bx Bb Bp Ex) as (f' & Ef & (cs & Pc & Fc) & _).
    rewrite Ep in Ef. injection Ef as <-. destruct (Forall2_in_l _ _ _ _ _ _ Fc Hv) as (X & HX & AX). exists X. split; [|exact AX]. apply (side_box lo hi s), (Permutation_in _ Pc), HX. }
  assert (B : forall k, box_corner lo hi k -> exists q, In q l /\ at_ints q k).
  { intros k Hk. destruct (box_side_of lo hi k Hk) as (s & Hs). destruct (proj2 Bb s) as (pl & ar & Hp & Bp & Ex).
    destruct (box_face_c18 p lo hi planes s ar pl tx e Bx Bb Bp Ex) as (f & Ef & (cs & Pc & Fc) & _).
    destruct (Forall2_in_l _ _ _ _ _ _ F Hp) as (f' & Hf & Ep). rewrite Ep in Ef. injection Ef as <-.
    destruct (Forall2_in_r _ _ _ _ _ _ Fc (Permutation_in _ (Permutation_sym Pc) Hs)) as (v & Hv & Av).
    destruct (M1 f' v Hf Hv) as (q & Hq & [->|E]); [eauto|]. exists q. split; [exact Hq|]. destruct (A q Hq) as (k' & _ & (Q1 & _) & (Q2 & _) & (Q3 & _)).
    apply (same_ints q _ k E Av). split; [exact Q1|split; [exact Q2|exact Q3]]. }
  split; [exact A|]. split; [exact B|]. apply corners_hull.
  - intros q Hq. apply in_map_iff in Hq. destruct Hq as (v & <- & Hv). destruct (A v Hv) as (k & Hk & Ak). rewrite (ints_point _ _ Ak). exact (corner_in lo hi k Bx Hk).
  - intros k Hk. destruct (B k Hk) as (q & Hq & Aq). rewrite <- (ints_point _ _ Aq). now apply in_map.
Qed.

(** One brush of an entity: moreover no corner is given twice. *)
Lemma ints_equal : forall a b k, at_ints a k -> at_ints b k -> pos_eq O a b.
Proof.
  intros a b k (A1 & A2 & A3) (B1 & B2 & B3). unfold pos_eq, num_eq. cbn [n_cmp f32_num].
  rewrite (cmp_ints _ _ _ _ A1 B1), (cmp_ints _ _ _ _ A2 B2), (cmp_ints _ _ _ _ A3 B3), !Z.compare_refl. auto.
Qed.
Definition eight (lo hi : vec3 Z) : list (vec3 Z) := side_corners lo hi ZDown ++ side_corners lo hi ZUp.
Lemma eight_all : forall lo hi k, In k (eight lo hi) <-> box_corner lo hi k.
Proof.
  intros lo hi k. split.
  - intros H. apply in_app_or in H. destruct H as [H|H]; exact (side_box _ _ _ _ H).
  - destruct k as [x y z]. intros (X & Y & Z). cbn [vx vy vz] in *. apply in_or_app. destruct Z as [->| ->]; [left|right]; destruct X as [->| ->], Y as [->| ->]; cbn; auto.
Qed.
Lemma eight_nodup : forall lo hi, box lo hi -> NoDup (eight lo hi).
Proof.
  intros [lx ly lz] [hx hy hz] (X & Y & Z & _). cbn [vx vy vz] in *. unfold eight. cbn [side_corners app vx vy vz].
  repeat constructor; cbn [In]; intros H; decompose [or] H; try contradiction; match goal with E : V3 _ _ _ = V3 _ _ _ |- _ => injection E; lia end.
Qed.
Lemma packs_eight : forall lo hi l, box lo hi -> packs lo hi l -> pairwise_not (pos_eq O) l -> length l = 8%nat.
Proof.
  intros lo hi l Bx (A & B & _) N.
  assert (K : exists ks, Forall2 at_ints l ks /\ forall k, In k ks -> box_corner lo hi k).
  { clear B N. induction l as [|q l IH]; [exists []; split; [constructor|contradiction]|]. destruct IH as (ks & F & I); [intros; apply A; now right|].
    destruct (A q (or_introl eq_refl)) as (k & Hk & Ak). exists (k :: ks). split; [now constructor|]. intros k' [<-|H]; auto. }
  destruct K as (ks & F & I). rewrite (Forall2_length _ _ _ _ _ F).
  assert (ND : NoDup ks).
  { apply NoDup_nth_error. intros i j Li E. destruct (nth_error ks i) as [k|] eqn:Ei; [|apply nth_error_None in Ei; lia]. symmetry in E.
    assert (W : forall i k, nth_error ks i = Some k -> exists q, nth_error l i = Some q /\ at_ints q k).
    { clear - F. intros i. revert l ks F. induction i as [|i IH]; intros l ks F k E; destruct F; try discriminate; cbn in *; [injection E as <-; eauto|eauto]. }
    destruct (W i k Ei) as (q & Hq & Aq). destruct (W j k E) as (q' & Hq' & Aq'). destruct (Nat.lt_trichotomy i j) as [L|[L|L]]; [exfalso|exact L|exfalso].
    - exact (N i j q q' L Hq Hq' (ints_equal q q' k Aq Aq')).
    - exact (N j i q' q L Hq' Hq (ints_equal q' q k Aq' Aq)). }
  assert (P : Permutation ks (eight lo hi)).
  { apply NoDup_Permutation; [exact ND|apply eight_nodup; exact Bx|]. intros k. rewrite eight_all. split; [apply I|]. intros Hk. destruct (B k Hk) as (q & Hq & Aq).
    destruct (Forall2_in_l _ _ _ _ _ _ F Hq) as (k' & Hk' & Ak'). now rewrite (at_ints_same _ _ _ Aq Ak'). }
  exact (Permutation_length P).
Qed.

Theorem convex_packed : forall tx e lo hi planes g o bs k i, box lo hi -> box_brush p lo hi planes -> build_brush O tx e planes = Ok g -> nth_error bs i = Some g ->
  collision_of O CConvex (EntityGeo o bs) = Ok k ->
  exists shapes shape, k = ColConvex shapes /\ nth_error shapes i = Some shape /\ packs lo hi (cx_points shape) /\ length (cx_points shape) = 8%nat.
Proof.
  intros tx e lo hi planes g o bs k i Bx Bb E Hi Ek. destruct (convex_full O (f32_eq_laws p) (EntityGeo o bs)) as (shapes & E' & F). rewrite Ek in E'. injection E' as ->.
  cbn [eg_brushes] in F. destruct (Forall2_nth _ _ _ _ _ _ _ F Hi) as (shape & Hs & _ & _ & N & M1 & M2). exists shapes, shape. split; [reflexivity|]. split; [exact Hs|].
  unfold build_brush in E. apply bind_ok in E. destruct E as (fs & Ef & E). injection E as <-. cbn [bg_faces] in *. apply mapM_ok in Ef.
  assert (PK : packs lo hi (cx_points shape)) by (exact (box_packed tx e lo hi planes fs _ Bx Bb Ef (conj M1 M2))).
  split; [exact PK|]. exact (packs_eight lo hi _ Bx PK N).
Qed.

(** ** Whole runs *)
Section Run.
Context (order : hmap (list (brush_geo f32)) -> list (str * list (brush_geo f32))) (permutes : forall m, Permutation (order m) m).
Context (fuel : nat) (c : config) (text : str) (d : doc) (nodes : list (node f32)).
Context (Ft : file_text (cf_map c) text) (Td : text_document p text d) (Er : run p order fuel c = Ok nodes).

Theorem tree_packed : forall e b planes bd lo hi, in_tree d e -> In b (doc_brushes e) -> Forall2 (reads_as p) b planes ->
  brush_class (cf_game c) e bd -> bd_collision bd = CConvex -> stays (cf_textures c) e planes -> box lo hi -> box_brush p lo hi planes ->
  exists n0 o shapes shape, In n0 nodes /\ InvarianceSpec.within (NCollision o (ColConvex shapes)) n0 /\ In shape shapes /\ packs lo hi (cx_points shape).
Proof.
  intros e b planes bd lo hi T Hb Hp (cl & k & q & Hc & Hk & Hd) Hm St Bx Bb. pose proof (tree_member d e T) as He.
  destruct (brush_found p order fuel c text d nodes Ft Td Er e b planes He Hb Hp) as (data & layers & y & g' & bg & Es & Lk & K & Iy & _ & _ & Id & Ff & Sy & _).
  specialize (Sy St). specialize (Lk T).
  destruct (linked_built p _ _ _ _ _ _ _ Es _ Lk) as (n0 & n & I0 & W & (fuel' & origin & En)). destruct g' as [ce bs]. cbn [eg_center eg_brushes] in *.
  destruct fuel' as [|fuel']; [discriminate|]. cbn [build_entity] in En. apply bind_ok in En. destruct En as (v & _ & En). apply bind_ok in En. destruct En as (kk & Ek & En).
  apply bind_ok in En. destruct En as (ch & _ & En). apply bind_ok in En. destruct En as (nm & _ & En). apply bind_ok in En. destruct En as (pr & _ & En). injection En as <-.
  destruct (find_def_defined (cf_game c) y k) as (c' & Hc' & Fd); [exists cl; split; [rewrite <- Hc; apply K|exact Hk]|]. unfold entity_collision in Ek. rewrite Hc', Fd, Hd, Hm in Ek.
  destruct (convex_made _ _ _ Ek) as (shapes & -> & M). cbn [eg_brushes eg_center] in *. destruct (Forall2_in_l _ _ _ _ _ _ M Sy) as (shape & Hs & Ms).
  exists n0, ce, shapes, shape. split; [exact I0|]. split.
  { eapply within_trans; [|exact W]. eapply WithinChild; [|constructor]. apply in_or_app. right. apply in_or_app. left. now left. }
  split; [exact Hs|]. exact (box_packed _ _ lo hi planes _ _ Bx Bb Ff Ms).
Qed.

Theorem shapes_packed : boxes_document p d -> forall n0 o shapes shape, In n0 nodes -> InvarianceSpec.within (NCollision o (ColConvex shapes)) n0 -> In shape shapes ->
  exists e planes lo hi, brush_of p d e planes /\ box lo hi /\ box_brush p lo hi planes /\ packs lo hi (cx_points shape).
Proof.
  intros Bd n0 o shapes shape I0 W Is.
  pose proof Er as Er'. rewrite run_split in Er'. pose proof Ft as Ft'. apply read_ok in Ft'. rewrite Ft' in Er'. cbn [bind] in Er'.
  apply bind_ok in Er'. destruct Er' as ([ps es] & El & _). pose proof (loaded_document p text d ps es Td El) as Ag.
  set (B := fun bg : brush_geo f32 => exists e b planes x, In e d /\ In b (doc_brushes e) /\ Forall2 (reads_as p) b planes
    /\ Forall2 (fun pl f => build_face O (cf_textures c) x planes pl = Ok f) planes (bg_faces bg)).
  assert (Made : forall gs, build_geometry O (cf_textures c) es = Ok gs -> forall e g, In (e, g) (combine es gs) -> Forall B (eg_brushes g)).
  { intros gs Eg e g Ie. apply geometry_shape in Eg. pose proof Ie as Ie'. apply in_combine_l in Ie'. apply (in_combine_Forall2 _ _ _ _ _ _ _ Eg) in Ie. destruct Ie as (Ie & _).
    destruct (Forall2_in_r _ _ _ _ _ _ Ag Ie') as (x & Hx & Px & Fx). apply Forall_forall. intros bg Hb.
    destruct (Forall2_in_r _ _ _ _ _ _ Ie Hb) as (br & Hbr & F & _). destruct (Forall2_in_r _ _ _ _ _ _ Fx Hbr) as (lb & Hlb & Fb).
    exists x, lb, br, e. auto. }
  pose proof (run_shaped p B order permutes fuel c nodes text ps es Ft El Made Er n0 _ I0 W) as Sh. cbn [all_shaped] in Sh. rewrite Forall_forall in Sh.
  destruct (Sh shape Is) as (bg & (e & b & planes & x & He & Hb & Hp & Ff) & M). destruct (Bd e b planes He Hb Hp) as (lo & hi & Bx & Bb).
  exists e, planes, lo, hi. split; [exists b; auto|]. split; [exact Bx|]. split; [exact Bb|]. exact (box_packed _ _ lo hi planes _ _ Bx Bb Ff M).
Qed.
End Run.
End Shapes.
