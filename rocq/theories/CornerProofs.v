(** One corner per true corner, and gaps between faces (C92, C93). *)
From Coq Require Import Reals Lra Lia ZArith Permutation.
From Flocq Require Import Core BinarySingleNaN.
From Verif Require Import Prelude F32 Text MapModel GeoModel GatherSpec GeoSpec GeoFinal NumberSpec BaseProofs FloatProofs NumberProofs RealSpec ArithProofs ErrorSpec ErrorProofs ErrorFinal CornerSpec.
Local Open Scope R_scope.

Section WithPlatform.
Variable p : platform.
Notation O := (f32_num p).
Notation normal_of pl := (unit_along (facing (plane_of pl))).

Lemma minus_sym : forall a b, norm (minus a b) = norm (minus b a).
Proof. intros a b. unfold norm, minus, inner. cbn [vx vy vz]. f_equal. ring. Qed.

Lemma crossing_unique : forall p0 p1 p2 x y, grid_plane p0 -> grid_plane p1 -> grid_plane p2 -> crossing p0 p1 p2 x -> crossing p0 p1 p2 y -> x = y.
Proof.
  intros p0 p1 p2 x y G0 G1 G2 (X0 & X1 & X2 & D) (Y0 & Y1 & Y2 & _). rewrite openness_det in D by assumption.
  apply level_on in X0, X1, X2, Y0, Y1, Y2; try assumption. unfold level_with, det_of in *.
  set (A := normal_of p0) in *. set (B := normal_of p1) in *. set (C := normal_of p2) in *.
  pose proof (combined_point A B C x) as Ex. pose proof (combined_point A B C y) as Ey. rewrite X0, X1, X2 in Ex. rewrite Y0, Y1, Y2 in Ey. rewrite Ex in Ey.
  set (d := inner (outer A B) C) in *. destruct x as [x1 x2 x3], y as [y1 y2 y3]. unfold vscale in Ey. cbn [vx vy vz] in Ey. injection Ey as E1 E2 E3.
  f_equal; apply Rmult_eq_reg_l with d; lra.
Qed.

(** The rounding error of one meeting point. *)
Lemma meeting_near : forall p0 p1 p2 r x, grid_plane p0 -> grid_plane p1 -> grid_plane p2 -> intersect_planes O p0 p1 p2 = Some r -> crossing p0 p1 p2 x ->
  fins r /\ 99 / 100000 <= openness (plane_of p0) (plane_of p1) (plane_of p2)
  /\ norm (minus (point_of r) x) <= 23 * u * (distances (plane_of p0) (plane_of p1) (plane_of p2) x / openness (plane_of p0) (plane_of p1) (plane_of p2)) + 200000 * eta
  /\ norm x <= distances (plane_of p0) (plane_of p1) (plane_of p2) x / openness (plane_of p0) (plane_of p1) (plane_of p2).
Proof.
  intros p0 p1 p2 r x G0 G1 G2 E (X0 & X1 & X2 & D). rewrite openness_det in * by assumption. rewrite distances_reach.
  apply level_on in X0, X1, X2; try assumption. destruct (meet_size p _ _ _ _ G0 G1 G2 E) as (D1 & _ & _).
  destruct (meet_err p _ _ _ _ _ G0 G1 G2 E X0 X1 X2) as [Fr H].
  destruct (quotient_bounds _ _ _ _ _ G0 G1 G2 D1 H) as [Q1 Q2]. split; [exact Fr|]. split; [exact D1|]. split; assumption.
Qed.

Lemma meeting_crossing : forall p0 p1 p2 r, grid_plane p0 -> grid_plane p1 -> grid_plane p2 -> intersect_planes O p0 p1 p2 = Some r -> exists x, crossing p0 p1 p2 x.
Proof.
  intros p0 p1 p2 r G0 G1 G2 E. destruct (meet_size p _ _ _ _ G0 G1 G2 E) as (D & _ & _). destruct (meeting_exists p0 p1 p2) as (x & L0 & L1 & L2); [lra|].
  exists x. unfold crossing. rewrite openness_det by assumption. split; [apply level_on; assumption|]. split; [apply level_on; assumption|]. split; [apply level_on; assumption|lra].
Qed.

Lemma g_pos : forall p0 p1 p2 x, crossing p0 p1 p2 x -> 0 <= distances (plane_of p0) (plane_of p1) (plane_of p2) x / openness (plane_of p0) (plane_of p1) (plane_of p2).
Proof.
  intros p0 p1 p2 x (_ & _ & _ & D). apply Rmult_le_pos; [|apply Rlt_le, Rinv_0_lt_compat; exact D].
  unfold distances. pose proof (norm_pos (bp_v0 (plane_of p0))). pose proof (norm_pos (bp_v0 (plane_of p1))). pose proof (norm_pos (bp_v0 (plane_of p2))). pose proof (norm_pos x). lra.
Qed.

(** A meeting point the code keeps is a true corner if there are no close calls. *)
Lemma kept_true : forall planes plane p1 p2 r x, (forall q, In q (plane :: planes) -> grid_plane q) -> clear planes plane ->
  In p1 planes -> In p2 planes -> intersect_planes O plane p1 p2 = Some r -> inside O planes r -> crossing plane p1 p2 x -> in_solid planes x.
Proof.
  intros planes plane p1 p2 r x G CL I1 I2 E IN X. destruct (CL p1 p2 x I1 I2 X) as [(T & _)|(q & Hq & _ & H)]; [exact T|exfalso].
  assert (G0 : grid_plane plane) by (apply G; now left). assert (G1 : grid_plane p1) by (apply G; now right). assert (G2 : grid_plane p2) by (apply G; now right).
  assert (Gq : grid_plane q) by (apply G; now right).
  destruct (meeting_near _ _ _ _ _ G0 G1 G2 E X) as (Fr & D & N & Nx). destruct H as [H|H]; [lra|]. apply H. apply within_on; [exact Gq|].
  destruct (meet_size p _ _ _ _ G0 G1 G2 E) as (_ & _ & Nr).
  destruct (hull_test p q r Gq Fr) as [T _]; [destruct (coord_norm (point_of r)) as (? & ? & ?); unfold corner_bound, B50, below in *; lra|]. cbn zeta in T. specialize (T (IN q Hq)).
  unfold blur, slack. cbn [plane_of bp_v0]. pose proof (g_pos _ _ _ _ X) as GP. set (g := distances _ _ _ _ / openness _ _ _) in *. clearbody g.
  set (n := normal_of q) in *. set (q0 := point_of (bp_v0 q)) in *. set (R := point_of r) in *.
  replace (inner n (minus x q0)) with (inner n (minus R q0) - inner n (minus R x)) by (rewrite !inner_minus_r; ring).
  pose proof (abs_inner n (minus R x)) as I. rewrite (grid_unit q Gq : norm n = 1), Rmult_1_l in I. apply Rabs_le_inv in I.
  pose proof (minus_norm R x). pose proof (norm_pos q0). pose proof eta_small.
  replace (2 ^ 19) with 524288 by ring. replace (2 ^ 20) with 1048576 by ring. lra.
Qed.

(** A true corner is found if rounding is within the tolerance. *)
Lemma corner_kept : forall planes plane p1 p2 x, (forall q, In q (plane :: planes) -> grid_plane q) ->
  In p1 planes -> In p2 planes -> crossing plane p1 p2 x -> in_solid planes x -> 101 / 100000 <= openness (plane_of plane) (plane_of p1) (plane_of p2) ->
  (forall q, In q planes -> blur plane p1 p2 x + slack q <= 999 / 1000000) ->
  exists r, intersect_planes O plane p1 p2 = Some r /\ inside O planes r.
Proof.
  intros planes plane p1 p2 x G I1 I2 X IN D S.
  assert (G0 : grid_plane plane) by (apply G; now left). assert (G1 : grid_plane p1) by (apply G; now right). assert (G2 : grid_plane p2) by (apply G; now right).
  destruct (intersect_planes O plane p1 p2) as [r|] eqn:Er.
  2:{ exfalso. unfold intersect_planes in Er. destruct (denominator p plane p1 p2 G0 G1 G2) as (_ & Ed & Cd). destruct (eps_near p) as [_ Ve].
      rewrite openness_det in D by assumption. destruct (n_ltb O _ _); [|discriminate]. assert (Y : true = false) by (apply Cd; apply Rabs_le_inv in Ed; lra). discriminate. }
  exists r. split; [reflexivity|]. intros q Hq. assert (Gq : grid_plane q) by (apply G; now right).
  destruct (meeting_near _ _ _ _ _ G0 G1 G2 Er X) as (Fr & _ & N & Nx). destruct (meet_size p _ _ _ _ G0 G1 G2 Er) as (_ & _ & Nr).
  destruct (hull_test p q r Gq Fr) as [_ T]; [destruct (coord_norm (point_of r)) as (? & ? & ?); unfold corner_bound, B50, below in *; lra|]. cbn zeta in T. apply T.
  specialize (S q Hq). unfold blur, slack in S. cbn [plane_of bp_v0] in S. specialize (IN q Hq). apply within_on in IN; [|exact Gq].
  pose proof (g_pos _ _ _ _ X) as GP. set (g := distances _ _ _ _ / openness _ _ _) in *. clearbody g.
  set (n := normal_of q) in *. set (q0 := point_of (bp_v0 q)) in *. set (R := point_of r) in *.
  replace (inner n (minus R q0)) with (inner n (minus x q0) + inner n (minus R x)) by (rewrite !inner_minus_r; ring).
  pose proof (abs_inner n (minus R x)) as I. rewrite (grid_unit q Gq : norm n = 1), Rmult_1_l in I. apply Rabs_le_inv in I.
  pose proof (minus_norm R x). pose proof (norm_pos q0). pose proof eta_small.
  replace (2 ^ 19) with 524288 in * by ring. replace (2 ^ 20) with 1048576 in * by ring. lra.
Qed.

(** A true corner is found if there are no close calls. *)
Lemma true_kept : forall planes plane p1 p2 x, (forall q, In q (plane :: planes) -> grid_plane q) -> clear planes plane ->
  In p1 planes -> In p2 planes -> crossing plane p1 p2 x -> in_solid planes x ->
  exists r, intersect_planes O plane p1 p2 = Some r /\ inside O planes r.
Proof.
  intros planes plane p1 p2 x G CL I1 I2 X IN. destruct (CL p1 p2 x I1 I2 X) as [(_ & D & S)|(q & Hq & F & _)]; [|exfalso; apply F, IN; exact Hq].
  apply (corner_kept planes plane p1 p2 x); assumption.
Qed.

Definition of_corner (planes : list (brush_plane f32)) (plane : brush_plane f32) (r : vec3 f32) (x : vec3 R) : Prop :=
  exists p1 p2, In p1 planes /\ In p2 planes /\ crossing plane p1 p2 x /\ intersect_planes O plane p1 p2 = Some r /\ in_solid planes x.

Lemma back_near : forall (f : face f32) plane p1 p2 r s x, grid_plane plane -> grid_plane p1 -> grid_plane p2 -> fins (f_center f) -> below corner_bound (point_of (f_center f)) ->
  intersect_planes O plane p1 p2 = Some r -> fins s -> point_of s = point_of r -> crossing plane p1 p2 x ->
  norm (minus (point_of (back p f s)) x) <= blur plane p1 p2 x + / 2 ^ 23 * norm (point_of (f_center f)) + / 10 ^ 30.
Proof.
  intros f plane p1 p2 r s x G0 G1 G2 Fc Bc Er Fs Ps X.
  destruct (meet_size p _ _ _ _ G0 G1 G2 Er) as (_ & _ & Nr). destruct (meeting_near plane p1 p2 r x G0 G1 G2 Er X) as (Fr & _ & N1 & M1).
  destruct (there_and_back p s (f_center f) Fs Fc) as [_ Ev]; [rewrite Ps; destruct (coord_norm (point_of r)) as (? & ? & ?); unfold below; lra|exact Bc|]. fold (back p f s) in Ev. rewrite Ps in Ev.
  unfold blur. set (g := distances _ _ _ _ / _) in *. clearbody g. set (V := point_of (back p f s)) in *. set (R := point_of r) in *. set (C := point_of (f_center f)) in *.
  assert (T1 : norm (minus V x) <= norm (minus V R) + norm (minus R x)) by apply minus_triangle.
  assert (T2 : norm V <= norm x + norm (minus V x)) by apply minus_norm.
  pose proof eta_small. pose proof (norm_pos C). pose proof (norm_pos x).
  replace (2 ^ 19) with 524288 by ring. replace (2 ^ 23) with 8388608 by ring. replace (10 ^ 30) with 1000000000000000000000000000000 by ring. lra.
Qed.

Lemma turned : forall p0 p1 p2 x, crossing p0 p1 p2 x -> crossing p1 p2 p0 x /\ blur p1 p2 p0 x = blur p0 p1 p2 x
  /\ openness (plane_of p1) (plane_of p2) (plane_of p0) = openness (plane_of p0) (plane_of p1) (plane_of p2).
Proof.
  intros p0 p1 p2 x (A & B & C & D).
  assert (Q : openness (plane_of p1) (plane_of p2) (plane_of p0) = openness (plane_of p0) (plane_of p1) (plane_of p2)).
  { unfold openness. f_equal; [|ring]. unfold inner, outer. cbn [vx vy vz]. ring. }
  split; [|split; [|exact Q]].
  - split; [exact B|]. split; [exact C|]. split; [exact A|]. rewrite Q. exact D.
  - unfold blur. rewrite Q. do 2 f_equal. unfold distances. ring.
Qed.

Lemma forall_exists : forall {A B} (R : A -> B -> Prop) l, (forall a, In a l -> exists b, R a b) -> exists m, Forall2 R l m.
Proof.
  intros A B R l. induction l as [|a l IH]; intros H; [exists []; constructor|]. destruct (H a (or_introl eq_refl)) as (b & Hb).
  destruct IH as (m & Hm); [intros a' Ha; apply H; now right|]. exists (b :: m). constructor; assumption.
Qed.

Lemma Forall2_flip : forall {A B} (R : A -> B -> Prop) l m, Forall2 R l m -> Forall2 (fun b a => R a b) m l.
Proof. intros A B R l m H. induction H; constructor; assumption. Qed.
Lemma Forall2_chain : forall {A B C} (R : A -> B -> Prop) (S : B -> C -> Prop) (T : A -> C -> Prop) l m n, Forall2 R l m -> Forall2 S m n ->
  (forall a b c, R a b -> S b c -> T a c) -> Forall2 T l n.
Proof.
  intros A B C R S T l m n H. revert n. induction H as [|a b l m Hab H IH]; intros n H' F; inversion H'; subst; constructor; [eapply F; eassumption|apply IH; assumption].
Qed.

Lemma Forall2_pairwise : forall {A B} (R : A -> B -> Prop) (D : A -> A -> Prop) l m, Forall2 R l m ->
  (forall a a' b, In a l -> In a' l -> R a b -> R a' b -> D a a') -> pairwise_not D l -> NoDup m.
Proof.
  intros A B R D l m H C. induction H as [|a b l m Hab H IH]; intros P; [constructor|].
  assert (P' : pairwise_not D l) by (intros i j x y I X Y; apply (P (S i) (S j) x y); [lia|exact X|exact Y]).
  constructor; [|apply IH; [intros a1 a2 b' H1 H2; apply C; now right|exact P']].
  intros Hb. destruct (Forall2_right _ _ _ _ H Hb) as (a' & Ha' & Ra'). apply In_nth_error in Ha'. destruct Ha' as [k Hk].
  apply (P 0%nat (S k) a a'); [lia|reflexivity|exact Hk|]. apply C with b; [now left|right; apply nth_error_In with k; exact Hk|exact Hab|exact Ra'].
Qed.

(** The corners before the sort stand for the true ones. *)
Theorem corner_list : forall planes plane raw, corner_set O planes plane raw -> (forall q, In q (plane :: planes) -> grid_plane q) ->
  clear planes plane -> simple planes plane ->
  exists xs, Forall2 (fun v x => of_corner planes plane (vt_pos v) x) raw xs /\ NoDup xs /\ forall x, In x xs <-> true_corner planes plane x.
Proof.
  intros planes plane raw (A & B & N) G CL SI.
  assert (G0 : grid_plane plane) by (apply G; now left).
  assert (OC : forall q, In q planes -> grid_plane q) by (intros q Hq; apply G; now right).
  destruct (forall_exists (fun v x => of_corner planes plane (vt_pos v) x) raw) as (xs & H).
  { intros v Hv. destruct (A v Hv) as (p1 & p2 & I1 & I2 & Er & IN). destruct (meeting_crossing plane p1 p2 (vt_pos v) G0 (OC _ I1) (OC _ I2) Er) as (x & X).
    exists x, p1, p2. split; [exact I1|]. split; [exact I2|]. split; [exact X|]. split; [exact Er|]. exact (kept_true planes plane p1 p2 (vt_pos v) x G CL I1 I2 Er IN X). }
  assert (ND : NoDup xs).
  { eapply Forall2_pairwise; [exact H| |exact N]. intros v v' x Hv Hv' (p1 & p2 & I1 & I2 & X & Er & T) (p1' & p2' & I1' & I2' & X' & Er' & _). cbn beta.
    destruct (SI p1 p2 x p1' p2' x I1 I2 I1' I2' X X' T T) as [[-> ->]|F].
    - assert (vt_pos v = vt_pos v') by congruence. destruct (meeting_fins p planes plane _ G (A v Hv)) as [Fv _]. destruct (meeting_fins p planes plane _ G (A v' Hv')) as [Fv' _].
      apply pos_eq_point; [exact Fv|exact Fv'|]. congruence.
    - exfalso. assert (Z0 : norm (minus x x) = 0).
      { unfold norm, minus, inner. cbn [vx vy vz]. rewrite !Rminus_diag_eq, Rmult_0_l, !Rplus_0_r by reflexivity. apply sqrt_0. }
      pose proof (g_pos _ _ _ _ X). pose proof (g_pos _ _ _ _ X'). unfold blur in F. replace (2 ^ 19) with 524288 in F by ring. replace (10 ^ 30) with 1000000000000000000000000000000 in F by ring. lra. }
  assert (IFF : forall x, In x xs <-> true_corner planes plane x).
  { intros x. split.
    - intros Hx. destruct (Forall2_right _ _ _ _ H Hx) as (v & Hv & (p1 & p2 & I1 & I2 & X & Er & T)). split; [exists p1, p2; auto|exact T].
    - intros ((p1 & p2 & I1 & I2 & X) & T). destruct (true_kept planes plane p1 p2 x G CL I1 I2 X T) as (r & Er & IN).
      assert (MP : meeting_point O planes plane r) by (exists p1, p2; unfold meets; auto).
      destruct (B r MP) as (v & Hv & EQ). destruct (Forall2_left _ _ _ _ H Hv) as (x' & Hx' & (p1' & p2' & I1' & I2' & X' & Er' & T')).
      assert (PE : point_of r = point_of (vt_pos v)).
      { destruct EQ as [->|EQ]; [reflexivity|]. destruct (meeting_fins p planes plane _ G (A v Hv)) as [Fv _]. destruct (meeting_fins p planes plane _ G MP) as [Fr _]. apply pos_eq_point in EQ; assumption. }
      destruct (SI p1 p2 x p1' p2' x' I1 I2 I1' I2' X X' T T') as [[-> ->]|F].
      + rewrite (crossing_unique plane p1' p2' x x'); auto.
      + exfalso. destruct (meeting_near plane p1 p2 r x) as (_ & _ & N1 & M1); auto. destruct (meeting_near plane p1' p2' (vt_pos v) x') as (_ & _ & N2 & M2); auto.
        rewrite <- PE in N2. pose proof (minus_triangle x (point_of r) x') as TR. rewrite (minus_sym x (point_of r)) in TR. unfold blur in F.
        pose proof (g_pos _ _ _ _ X). pose proof (g_pos _ _ _ _ X').
        set (g := distances _ _ _ x / _) in *. set (g' := distances _ _ _ x' / _) in *. replace (2 ^ 19) with 524288 in F by ring. pose proof eta_small. replace (10 ^ 30) with 1000000000000000000000000000000 in F by ring. lra. }
  exists xs. split; [exact H|]. split; [exact ND|exact IFF].
Qed.

Theorem one_corner_each : forall tx e planes plane f, build_face O tx e planes plane = Ok f -> (forall q, In q (plane :: planes) -> grid_plane q) ->
  (Z.of_nat (length planes) <= 4000)%Z -> clear planes plane -> simple planes plane ->
  exists xs, NoDup xs /\ (forall x, In x xs <-> true_corner planes plane x) /\ Forall2 (shows planes plane (f_center f)) (f_vertices f) xs.
Proof.
  intros tx e planes plane f E G L CL SI. destruct (face_points p tx e planes plane f E G L) as (Fc & Bc & _).
  destruct (corners_c15 p tx e planes plane f E) as (raw & centred & sorted & CS & _ & F1 & P & F2).
  assert (G0 : grid_plane plane) by (apply G; now left).
  assert (OC : forall q, In q planes -> grid_plane q) by (intros q Hq; apply G; now right).
  destruct (corner_list planes plane raw CS G CL SI) as (xs & H & ND & IFF).
  assert (H1 : Forall2 (fun s x => exists r, vt_pos s = v3_sub O r (f_center f) /\ of_corner planes plane r x) centred xs).
  { eapply Forall2_chain; [apply Forall2_flip; exact F1|exact H|]. intros s v x (D & _) OCx. exists (vt_pos v). split; [exact D|exact OCx]. }
  destruct (Permutation_Forall2 P H1) as (ys & PY & H2).
  exists ys. split; [apply (Permutation_NoDup PY); exact ND|]. split.
  - intros x. rewrite <- IFF. split; intros I; [apply (Permutation_in _ (Permutation_sym PY)); exact I|apply (Permutation_in _ PY); exact I].
  - eapply Forall2_chain; [apply Forall2_flip; exact F2|exact H2|]. intros v s x (D & _) (r & Es & OCx). destruct OCx as (p1 & p2 & I1 & I2 & X & Er & T).
    exists p1, p2. split; [exact I1|]. split; [exact I2|]. split; [exact X|]. rewrite D, Es. destruct (meeting_near plane p1 p2 r x G0 (OC _ I1) (OC _ I2) Er X) as (Fr & _). apply back_near with r; auto.
Qed.

Theorem narrow_gaps : forall tx e planes plane f v, build_face O tx e planes plane = Ok f -> (forall q, In q planes -> grid_plane q) ->
  (Z.of_nat (length planes) <= 4000)%Z -> In plane planes -> clear planes plane -> In v (f_vertices f) ->
  exists p1 p2 x, In p1 planes /\ In p2 planes /\ crossing plane p1 p2 x /\ in_solid planes x /\
    forall q f', q = p1 \/ q = p2 -> build_face O tx e planes q = Ok f' ->
      exists w, In w (f_vertices f') /\ norm (minus (point_of (vt_pos v)) (point_of (vt_pos w)))
        <= 2 * blur plane p1 p2 x + / 2 ^ 23 * (norm (point_of (f_center f)) + norm (point_of (f_center f'))) + 2 / 10 ^ 30.
Proof.
  intros tx e planes plane f v E G L IP CL Hv.
  assert (G' : forall q, In q planes -> forall r, In r (q :: planes) -> grid_plane r) by (intros q Hq r [<-|Hr]; auto).
  destruct (face_points p tx e planes plane f E (G' _ IP) L) as (Fc & Bc & A & _).
  destruct (A v Hv) as (r & (p1 & p2 & I1 & I2 & Er & IN) & ->).
  destruct (meeting_crossing plane p1 p2 r (G _ IP) (G _ I1) (G _ I2) Er) as (x & X).
  pose proof (kept_true planes plane p1 p2 r x (G' _ IP) CL I1 I2 Er IN X) as T.
  exists p1, p2, x. split; [exact I1|]. split; [exact I2|]. split; [exact X|]. split; [exact T|].
  pose proof (back_near f plane p1 p2 r r x (G _ IP) (G _ I1) (G _ I2) Fc Bc Er (proj1 (meeting_near _ _ _ _ _ (G _ IP) (G _ I1) (G _ I2) Er X)) eq_refl X) as Nv.
  destruct (CL p1 p2 x I1 I2 X) as [(_ & D & S)|(q & Hq & F & _)]; [|exfalso; apply F, T; exact Hq].
  destruct (turned _ _ _ _ X) as (X1 & B1 & D1). destruct (turned _ _ _ _ X1) as (X2 & B2 & D2).
  assert (H : forall q a b f', In q planes -> In a planes -> In b planes -> crossing q a b x -> blur q a b x = blur plane p1 p2 x ->
    openness (plane_of q) (plane_of a) (plane_of b) = openness (plane_of plane) (plane_of p1) (plane_of p2) -> build_face O tx e planes q = Ok f' ->
    exists w, In w (f_vertices f') /\ norm (minus (point_of (back p f r)) (point_of (vt_pos w)))
        <= 2 * blur plane p1 p2 x + / 2 ^ 23 * (norm (point_of (f_center f)) + norm (point_of (f_center f'))) + 2 / 10 ^ 30).
  { intros q a b f' Iq Ia Ib Y B0 D0 E'. destruct (corner_kept planes q a b x (G' _ Iq) Ia Ib Y T) as (r' & Er' & IN'); [rewrite D0; exact D|intros s Hs; rewrite B0; auto|].
    destruct (face_points p tx e planes q f' E' (G' _ Iq) L) as (Fc' & Bc' & _ & A').
    destruct (A' r') as (w & s & Hw & Fs & Ps & Ew); [exists a, b; unfold meets; auto|]. exists w. split; [exact Hw|].
    pose proof (back_near f' q a b r' s x (G _ Iq) (G _ Ia) (G _ Ib) Fc' Bc' Er' Fs Ps Y) as Nw.
    rewrite Ew. fold (back p f' s). rewrite B0 in Nw. pose proof (minus_triangle (point_of (back p f r)) x (point_of (back p f' s))) as TR. rewrite (minus_sym x) in TR.
    unfold Rdiv. lra. }
  intros q f' [->| ->] E'.
  - exact (H p1 p2 plane f' I1 I2 IP X1 B1 D1 E').
  - apply (H p2 plane p1 f' I2 IP I1 X2); [congruence|congruence|exact E'].
Qed.
End WithPlatform.
