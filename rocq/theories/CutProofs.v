(** Cutting a brush in two: lemmas for C145. *)
From Coq Require Import Reals Lra Psatz Permutation Sorted.
From Flocq Require Import Core.
From Verif Require Import Prelude F32 Text MapModel GeoModel SceneModel GatherSpec GeoSpec RealSpec WindSpec SolidSpec RigidSpec RestateSpec CutSpec
  BaseProofs GeoProofs RealProofs WindProofs OrderProofs ShiftProofs RigidProofs RestateProofs SidesProofs SolidProofs MirrorProofs.
Local Open Scope R_scope.

Lemma backs_sym : forall c c', backs c c' -> backs c' c.
Proof.
  intros c c' (On & k & K & E). split.
  - unfold on_plane in *. rewrite E. revert On. generalize (facing c) (bp_v0 c) (bp_v0 c'). intros n a b On. vectors. nra.
  - exists (/ k). split; [now apply Rinv_0_lt_compat|]. rewrite E. generalize (facing c). intros [x y z]. cbn [vx vy vz]. apply v3_ext; cbn [vx vy vz]; field; lra.
Qed.
Lemma on_backs : forall c c' x, backs c c' -> on_plane c x -> on_plane c' x.
Proof. intros c c' x (On & k & K & E). unfold on_plane in *. rewrite E. revert On. generalize (facing c) (bp_v0 c) (bp_v0 c'). intros n a b On H. vectors. nra. Qed.
Lemma on_within : forall d c x, 0 <= d -> on_plane c x -> within d c x.
Proof. intros d c x D H. unfold on_plane in H. unfold within. rewrite H. apply Rmult_le_pos; [exact D|apply sqrt_pos]. Qed.
Lemma norm_scaled : forall k n, norm (V3 (k * vx n) (k * vy n) (k * vz n)) = Rabs k * norm n.
Proof.
  intros k n. unfold norm, inner. cbn [vx vy vz]. replace (k * vx n * (k * vx n) + k * vy n * (k * vy n) + k * vz n * (k * vz n)) with ((k * k) * (vx n * vx n + vy n * vy n + vz n * vz n)) by ring.
  rewrite sqrt_mult_alt by nra. f_equal. apply (sqrt_Rsqr_abs k).
Qed.
Lemma proper_backs : forall c c', backs c c' -> proper c -> proper c'.
Proof. intros c c' (_ & k & K & E) H. unfold proper in *. rewrite E, norm_scaled, Rabs_Ropp, Rabs_pos_eq by lra. intros Z. apply Rmult_integral in Z. destruct Z; [lra|auto]. Qed.
Lemma spans_backs : forall c c' p q, backs c c' -> spans c p q -> spans c' q p.
Proof.
  intros c c' p q (_ & k & K & E) H. unfold spans in *. rewrite E, norm_scaled, Rabs_Ropp, Rabs_pos_eq by lra.
  assert (I : inner (outer (V3 (- k * vx (facing c)) (- k * vy (facing c)) (- k * vz (facing c))) (facing q)) (facing p) = k * inner (outer (facing c) (facing p)) (facing q)).
  { generalize (facing c) (facing p) (facing q); intros x y z. vectors. ring. }
  rewrite I. replace (/ 1000 * (k * norm (facing c) * norm (facing q) * norm (facing p))) with (k * (/ 1000 * (norm (facing c) * norm (facing p) * norm (facing q)))) by ring. nra.
Qed.
Lemma side_of_cut : forall c c' x, backs c c' -> within 0 c x \/ within 0 c' x.
Proof.
  intros c c' x (On & k & K & E). unfold within, on_plane in *. rewrite E. rewrite !Rmult_0_l. revert On. generalize (facing c) (bp_v0 c) (bp_v0 c'). intros n a b On.
  destruct (Rle_dec (inner n (minus x a)) 0) as [H|H]; [now left|]. right. apply Rnot_le_lt in H. vectors. nra.
Qed.
Lemma both_of_cut : forall c c' x, backs c c' -> within 0 c x -> within 0 c' x -> on_plane c x.
Proof.
  intros c c' x (On & k & K & E). unfold within, on_plane in *. rewrite E. rewrite !Rmult_0_l. revert On. generalize (facing c) (bp_v0 c) (bp_v0 c'). intros n a b On H1 H2.
  apply Rle_antisym; [exact H1|]. vectors. nra.
Qed.

Lemma solid_cut : forall planes one two c c' x, backs c c' -> adds c planes one -> adds c' planes two -> (solid planes x <-> solid one x \/ solid two x).
Proof.
  intros planes one two c c' x B A1 A2. split.
  - intros S. destruct (side_of_cut c c' x B) as [W|W]; [left|right]; intros q I; [apply A1 in I|apply A2 in I]; destruct I as [->|I]; auto.
  - intros [S|S] q I; apply S; [apply A1|apply A2]; now right.
Qed.

Section Cut.
Context (parse : str -> option R) (cosine radians : R -> R) (atan2 : R -> R -> R)
  (quat : vec3 R -> R -> vec3 R -> vec3 R) (mat2 : R -> vec2 R -> vec2 R).
Local Notation O := (real_num parse cosine radians atan2 quat mat2).

Lemma corner_cut : forall planes one two c c' tx tx' e e' f f' x, backs c c' -> adds c planes one -> adds c' planes two ->
  build_face O tx e one c = Ok f -> build_face O tx' e' two c' = Ok f' -> In x (map vt_pos (f_vertices f)) -> In x (map vt_pos (f_vertices f')).
Proof.
  intros planes one two c c' tx tx' e e' f f' x B A1 A2 E E' I. apply (proj2 (real_corners _ _ _ _ _ _ tx e one c f E)) in I. apply (proj2 (real_corners _ _ _ _ _ _ tx' e' two c' f' E')).
  destruct I as (p1 & p2 & I1 & I2 & P0 & P1 & P2 & S & O0 & O1 & O2 & W).
  assert (J1 : In p1 planes) by (apply A1 in I1; destruct I1 as [->|I1]; [exfalso; apply (proj1 (spans_once c p2 P0 P2)); exact S|exact I1]).
  assert (J2 : In p2 planes) by (apply A1 in I2; destruct I2 as [->|I2]; [exfalso; apply (proj2 (spans_once c p1 P0 P1)); exact S|exact I2]).
  exists p2, p1. repeat split; try assumption; try (apply A2; now right).
  - now apply (proper_backs c c').
  - now apply spans_backs with (c := c).
  - now apply (on_backs c c').
  - intros q Iq. apply A2 in Iq. destruct Iq as [->|Iq]; [apply on_within; [lra|now apply (on_backs c c')]|]. apply W, A1. now right.
Qed.
Theorem faces_touch : forall planes one two c c' tx tx' e e' f, backs c c' -> adds c planes one -> adds c' planes two -> build_face O tx e one c = Ok f ->
  exists f', build_face O tx' e' two c' = Ok f' /\ touching f f'
    /\ (crisp one f -> polar_angle atan2 -> begun_elsewhere (rev (map vt_pos (f_vertices f))) (map vt_pos (f_vertices f'))).
Proof.
  intros planes one two c c' tx tx' e e' f B A1 A2 E. destruct (real_total parse cosine radians atan2 quat mat2 tx' e' two c') as (f' & E'). exists f'. split; [exact E'|].
  assert (Q : Permutation (map vt_pos (f_vertices f)) (map vt_pos (f_vertices f'))).
  { apply NoDup_Permutation; [exact (proj1 (real_corners _ _ _ _ _ _ tx e one c f E))|exact (proj1 (real_corners _ _ _ _ _ _ tx' e' two c' f' E'))|]. intros x. split.
    - exact (corner_cut planes one two c c' tx tx' e e' f f' x B A1 A2 E E').
    - exact (corner_cut planes two one c' c tx' tx e' e f' f x (backs_sym _ _ B) A2 A1 E' E). }
  split; [split; [exact Q|split]|].
  - destruct (positions _ _ _ _ _ _ tx e one c f E) as (raw & s & P1 & Mn & _). destruct (positions _ _ _ _ _ _ tx' e' two c' f' E') as (raw' & s' & P1' & Mn' & _).
    symmetry. apply (mean_unique parse cosine radians atan2 quat mat2 (map vt_pos raw) (map vt_pos raw')); [|exact Mn|exact Mn']. now rewrite P1, P1'.
  - apply Permutation_length in Q. rewrite !map_length in Q. revert Q. unfold build_face in E, E'. apply bind_ok in E, E'. destruct E as (vs & _ & E), E' as (vs' & _ & E'). apply ok_inj in E, E'. subst f f'.
    cbn [f_vertices f_indices]. intros Q. now rewrite Q.
  - intros K P. apply (turning_unique (fun a b d => clockwise (facing c') a b d)).
    + intros a b d. apply clockwise_cyclic.
    + intros a b d. apply clockwise_one_way.
    + apply turning_rev. apply turning_map. eapply turning_weaken; [|exact (face_turning parse cosine radians atan2 quat mat2 tx e one c f E K P)].
      intros u v w. cbv beta. generalize (vt_pos u) (vt_pos v) (vt_pos w). intros a b d. destruct B as (_ & k & Kp & Ef). unfold clockwise. rewrite Ef. generalize (facing c). intros n H. vectors. nra.
    + apply turning_map. refine (face_turning parse cosine radians atan2 quat mat2 tx' e' two c' f' E' _ P).
      intros v q Iv Iq. pose proof (in_map vt_pos _ _ Iv) as J. pose proof (corner_cut planes two one c' c tx' tx e' e f' f _ (backs_sym _ _ B) A2 A1 E' E J) as J0.
      apply A2 in Iq. destruct Iq as [->|Iq].
      * apply on_within; [lra|]. apply (proj2 (real_corners _ _ _ _ _ _ tx' e' two c' f' E')) in J. destruct J as (p1 & p2 & _ & _ & _ & _ & _ & _ & On & _). exact On.
      * apply in_map_iff in J0. destruct J0 as (w & Ew & Iw). rewrite <- Ew. apply (K w q Iw). apply A1. now right.
    + rewrite <- Permutation_rev. exact Q.
Qed.

(** The two parts of another side. *)
Theorem side_cut : forall planes one two c c' tx e plane f f1 f2, backs c c' -> adds c planes one -> adds c' planes two ->
  build_face O tx e planes plane = Ok f -> build_face O tx e one plane = Ok f1 -> build_face O tx e two plane = Ok f2 ->
  proper plane -> crisp planes f -> sharp planes plane -> crisp one f1 -> sharp one plane -> crisp two f2 -> sharp two plane -> bounded (side planes plane) ->
  (forall x, in_hull (map vt_pos (f_vertices f)) x <-> in_hull (map vt_pos (f_vertices f1)) x \/ in_hull (map vt_pos (f_vertices f2)) x)
  /\ (forall x, in_hull (map vt_pos (f_vertices f1)) x -> in_hull (map vt_pos (f_vertices f2)) x -> on_plane c x).
Proof.
  intros planes one two c c' tx e plane f f1 f2 B A1 A2 E E1 E2 P K S K1 S1 K2 S2 Bd.
  assert (B1 : bounded (side one plane)) by (destruct Bd as (m & Bd); exists m; intros x (On & Sx); apply Bd; split; [exact On|]; apply (solid_cut planes one two c c' x B A1 A2); now left).
  assert (B2 : bounded (side two plane)) by (destruct Bd as (m & Bd); exists m; intros x (On & Sx); apply Bd; split; [exact On|]; apply (solid_cut planes one two c c' x B A1 A2); now right).
  pose proof (face_side parse cosine radians atan2 quat mat2 tx e planes plane f E P K S Bd) as H.
  pose proof (face_side parse cosine radians atan2 quat mat2 tx e one plane f1 E1 P K1 S1 B1) as H1. pose proof (face_side parse cosine radians atan2 quat mat2 tx e two plane f2 E2 P K2 S2 B2) as H2. split.
  - intros x. rewrite H, H1, H2. unfold side. rewrite (solid_cut planes one two c c' x B A1 A2). tauto.
  - intros x I1 I2. apply H1 in I1. apply H2 in I2. apply (both_of_cut c c' x B); [apply I1|apply I2]; [apply A1|apply A2]; now left.
Qed.
End Cut.
