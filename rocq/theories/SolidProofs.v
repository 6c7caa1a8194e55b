(** Faces are the sides of the solid: lemmas for C80 and C81. *)
From Coq Require Import Reals Lra Psatz.
From Verif Require Import Prelude F32 Text MapModel GeoModel GeoSpec RealSpec WindSpec SolidSpec BaseProofs RealProofs WindProofs.
Local Open Scope R_scope.

Definition moved (x w : vec3 R) (t : R) : vec3 R := V3 (vx x + t * vx w) (vy x + t * vy w) (vz x + t * vz w).
(** Distance behind a plane, not normalised. *)
Definition slack (q : brush_plane R) (x : vec3 R) : R := - inner (facing q) (minus x (bp_v0 q)).
Definition rate (q : brush_plane R) (w : vec3 R) : R := inner (facing q) w.

Lemma slack_moved : forall q x w t, slack q (moved x w t) = slack q x - t * rate q w.
Proof. intros. unfold slack, rate, moved. vectors. ring. Qed.
Lemma slack_on : forall q x, on_plane q x <-> slack q x = 0.
Proof. intros. unfold on_plane, slack. split; lra. Qed.
Lemma slack_within : forall q x, within 0 q x <-> 0 <= slack q x.
Proof. intros. unfold within, slack. rewrite Rmult_0_l. split; lra. Qed.
Lemma solid_slack : forall planes x, solid planes x <-> forall q, In q planes -> 0 <= slack q x.
Proof. intros. unfold solid. split; intros H q I; apply slack_within, H, I. Qed.

(** How far one can go. *)
Lemma travel : forall planes x w, solid planes x ->
  (forall q, In q planes -> rate q w <= 0)
  \/ exists t q, 0 <= t /\ In q planes /\ 0 < rate q w /\ slack q x = t * rate q w /\ forall q', In q' planes -> t * rate q' w <= slack q' x.
Proof.
  intros planes x w S. rewrite solid_slack in S. induction planes as [|q planes IH]; [left; intros q []|].
  destruct IH as [A|(t & r & T & I & P & E & M)]; [intros q' I; apply S; now right| |].
  - destruct (Rlt_le_dec 0 (rate q w)) as [P|P]; [right|left; intros q' [<-|I]; auto].
    pose proof (S q (or_introl eq_refl)) as Sq. exists (slack q x / rate q w), q.
    assert (D : slack q x / rate q w * rate q w = slack q x) by (field; lra).
    assert (T : 0 <= slack q x / rate q w) by (apply Rmult_le_pos; [exact Sq|left; now apply Rinv_0_lt_compat]).
    split; [exact T|]. split; [now left|]. split; [exact P|]. split; [now symmetry|].
    intros q' [<-|I]; [lra|]. pose proof (A q' I). pose proof (S q' (or_intror I)). nra.
  - right. destruct (Rle_lt_dec (t * rate q w) (slack q x)) as [L|L].
    + exists t, r. repeat (split; [assumption || now right|]). intros q' [<-|I']; auto.
    + pose proof (S q (or_introl eq_refl)) as Sq. assert (P' : 0 < rate q w) by nra.
      assert (D : slack q x / rate q w * rate q w = slack q x) by (field; lra).
      assert (T' : 0 <= slack q x / rate q w) by (apply Rmult_le_pos; [exact Sq|left; now apply Rinv_0_lt_compat]).
      assert (Lt : slack q x / rate q w < t) by (apply (Rmult_lt_reg_r (rate q w)); [exact P'|lra]).
      exists (slack q x / rate q w), q. split; [exact T'|]. split; [now left|]. split; [exact P'|]. split; [now symmetry|].
      intros q' [<-|I']; [lra|]. pose proof (M q' I'). pose proof (S q' (or_intror I')).
      destruct (Rle_lt_dec (rate q' w) 0); nra.
Qed.

Lemma no_ray : forall P x w, bounded P -> w <> V3 0 0 0 -> (forall t, 0 <= t -> P (moved x w t)) -> False.
Proof.
  intros P x w (m & B) N Ry.
  assert (C : forall (a b : R), b <> 0 -> (forall t, 0 <= t -> Rabs (a + t * b) <= m) -> False).
  { intros a b Nb H. pose proof (H 0 (Rle_refl 0)) as H0. rewrite Rmult_0_l, Rplus_0_r in H0. pose proof (Rabs_pos a) as Pa.
    assert (Pb : 0 < Rabs b) by now apply Rabs_pos_lt.
    assert (T : 0 <= (2 * m + 1) / Rabs b) by (apply Rmult_le_pos; [lra|left; now apply Rinv_0_lt_compat]).
    pose proof (H _ T) as H1. assert (E : Rabs ((2 * m + 1) / Rabs b * b) = 2 * m + 1).
    { rewrite Rabs_mult, Rabs_pos_eq by exact T. field. lra. }
    pose proof (Rabs_triang (a + (2 * m + 1) / Rabs b * b) (- a)) as Tr. rewrite Rabs_Ropp in Tr.
    replace (a + (2 * m + 1) / Rabs b * b + - a) with ((2 * m + 1) / Rabs b * b) in Tr by ring. lra. }
  destruct (Req_dec (vx w) 0) as [X|X]; [destruct (Req_dec (vy w) 0) as [Y|Y]; [destruct (Req_dec (vz w) 0) as [Z|Z]|]|].
  - apply N. now apply v3_ext.
  - apply (C (vz x) (vz w) Z). intros t T. apply (B _ (Ry t T)).
  - apply (C (vy x) (vy w) Y). intros t T. apply (B _ (Ry t T)).
  - apply (C (vx x) (vx w) X). intros t T. apply (B _ (Ry t T)).
Qed.

Section Side.
Context (planes : list (brush_plane R)) (plane : brush_plane R) (Bd : bounded (side planes plane)).

(** From a point of the side in a direction along its plane one meets another plane. *)
Lemma hit : forall x w, side planes plane x -> rate plane w = 0 -> w <> V3 0 0 0 ->
  exists t q, 0 <= t /\ In q planes /\ 0 < rate q w /\ on_plane q (moved x w t) /\ side planes plane (moved x w t).
Proof.
  intros x w (On & So) F N. destruct (travel planes x w So) as [A|(t & q & T & I & P & E & M)].
  - exfalso. apply (no_ray _ x w Bd N). intros t T. split.
    + apply slack_on. apply slack_on in On. rewrite slack_moved, On, F. ring.
    + apply solid_slack. intros q I. rewrite slack_moved. rewrite solid_slack in So. pose proof (So q I). pose proof (A q I). nra.
  - exists t, q. split; [exact T|]. split; [exact I|]. split; [exact P|]. split; [|split].
    + apply slack_on. rewrite slack_moved. lra.
    + apply slack_on. apply slack_on in On. rewrite slack_moved, On, F. ring.
    + apply solid_slack. intros q' I'. rewrite slack_moved. pose proof (M q' I'). lra.
Qed.

Definition opposite (w : vec3 R) : vec3 R := V3 (- vx w) (- vy w) (- vz w).
Lemma rate_opposite : forall q w, rate q (opposite w) = - rate q w.
Proof. intros. unfold rate, opposite. vectors. ring. Qed.
Lemma moved_opposite : forall x w t, moved x (opposite w) t = moved x w (- t).
Proof. intros. apply v3_ext; cbn; ring. Qed.

Context (l : list (vec3 R)).
Lemma weighted_scale : forall w y, weighted l w y -> forall k, 0 <= k -> weighted l (k * w) (scaled k y).
Proof.
  intros w y H. induction H as [|x l' w s y W H IH]; intros k K.
  - eapply weighted_eq; [constructor|ring|apply v3_ext; cbn; ring].
  - eapply weighted_eq; [apply (WeightedCons x l' (k * w)); [now apply Rmult_le_pos|apply IH, K]|ring|apply v3_ext; cbn; ring].
Qed.
Lemma hull_between : forall x w s t, 0 <= s -> 0 <= t -> in_hull l (moved x w s) -> in_hull l (moved x w (- t)) -> in_hull l x.
Proof.
  intros x w s t S T A B. destruct (Req_dec (s + t) 0) as [Z|Z].
  - assert (s = 0) by lra. subst s. eapply weighted_eq; [exact A|reflexivity|apply v3_ext; cbn; ring].
  - assert (D : 0 < / (s + t)) by (apply Rinv_0_lt_compat; lra).
    eapply weighted_eq; [exact (weighted_plus _ _ _ (weighted_scale _ _ A (t / (s + t)) ltac:(unfold Rdiv; nra)) _ _ (weighted_scale _ _ B (s / (s + t)) ltac:(unfold Rdiv; nra)))|field; exact Z|].
    apply v3_ext; cbn; field; exact Z.
Qed.

Lemma outer_along : forall F G w, F <> V3 0 0 0 -> inner F w = 0 -> inner G w <> 0 -> outer F G <> V3 0 0 0.
Proof.
  intros F G w N E H Z. apply H. assert (P : inner F F <> 0).
  { intros Q. apply N. apply norm_zero. unfold norm. now rewrite Q, sqrt_0. }
  assert (Id : inner F F * inner G w = inner F G * inner F w - inner w (outer F (outer F G))) by (vectors; ring).
  rewrite E, Z, outer_null in Id. replace (inner w (V3 0 0 0)) with 0 in Id by (vectors; ring).
  rewrite Rmult_0_r, Rminus_0_r in Id. apply Rmult_integral in Id. tauto.
Qed.

(** Two planes meeting the side's give a corner. *)
Context (Corner : forall p1 p2 x, In p1 planes -> In p2 planes -> 0 < inner (outer (facing plane) (facing p1)) (facing p2) ->
  on_plane p1 x -> on_plane p2 x -> side planes plane x -> In x l).
Lemma hull_corner : forall x, In x l -> in_hull l x.
Proof. intros x I. eapply weighted_eq; [apply (weighted_one l x 1); [lra|exact I]|reflexivity|apply v3_ext; cbn; ring]. Qed.

Lemma edge_hull : forall q x, In q planes -> side planes plane x -> on_plane q x -> outer (facing plane) (facing q) <> V3 0 0 0 -> in_hull l x.
Proof.
  intros q x I Sd On N. set (w := outer (facing plane) (facing q)) in *.
  assert (Fw : rate plane w = 0) by (unfold rate, w; generalize (facing plane) (facing q); intros; vectors; ring).
  assert (Gw : rate q w = 0) by (unfold rate, w; generalize (facing plane) (facing q); intros; vectors; ring).
  assert (Nw : opposite w <> V3 0 0 0) by (intros Z; apply N; unfold opposite in Z; injection Z; intros; apply v3_ext; cbn; lra).
  destruct (hit x w Sd Fw N) as (s & r & S & Ir & P & Or & Sr).
  destruct (hit x (opposite w) Sd) as (t & r' & T & Ir' & P' & Or' & Sr'); [rewrite rate_opposite, Fw; ring|exact Nw|].
  rewrite moved_opposite in Or', Sr'. rewrite rate_opposite in P'.
  apply slack_on in On. apply (hull_between x w s t S T); apply hull_corner.
  - apply (Corner q r); auto.
    + unfold rate in P. rewrite inner_comm. exact P.
    + apply slack_on. rewrite slack_moved, On, Gw. ring.
  - apply (Corner r' q); auto.
    + unfold rate in P'. replace (inner (outer (facing plane) (facing r')) (facing q)) with (- inner (facing r') w); [exact P'|].
      unfold w. generalize (facing plane) (facing q) (facing r'). intros; vectors; ring.
    + apply slack_on. rewrite slack_moved, On, Gw. ring.
Qed.

Lemma side_hull : proper plane -> forall x, side planes plane x -> in_hull l x.
Proof.
  intros Pr x Sd. set (w := minus (bp_v1 plane) (bp_v0 plane)).
  assert (Nf : facing plane <> V3 0 0 0) by (intros Z; apply Pr; rewrite Z; unfold norm; vectors; replace (0 * 0 + 0 * 0 + 0 * 0) with 0 by ring; apply sqrt_0).
  assert (Nw : w <> V3 0 0 0) by (intros Z; apply Nf; unfold facing; fold w; rewrite Z; apply outer_null).
  assert (Fw : rate plane w = 0) by (unfold rate, w, facing; vectors; ring).
  assert (Nw' : opposite w <> V3 0 0 0) by (intros Z; apply Nw; unfold opposite in Z; injection Z; intros; apply v3_ext; cbn; lra).
  destruct (hit x w Sd Fw Nw) as (s & r & S & Ir & P & Or & Sr).
  destruct (hit x (opposite w) Sd) as (t & r' & T & Ir' & P' & Or' & Sr'); [rewrite rate_opposite, Fw; ring|exact Nw'|].
  rewrite moved_opposite in Or', Sr'. rewrite rate_opposite in P'. unfold rate in *.
  apply (hull_between x w s t S T).
  - apply (edge_hull r); auto. apply (outer_along _ _ w Nf Fw). lra.
  - apply (edge_hull r'); auto. apply (outer_along _ _ w Nf Fw). lra.
Qed.
End Side.

(** Convexity of the side. *)
Lemma weighted_slack : forall q l w y, weighted l w y -> (forall x, In x l -> 0 <= slack q x) ->
  inner (facing q) y <= w * inner (facing q) (bp_v0 q).
Proof.
  intros q l w y H. induction H as [|x l w s y W H IH]; intros A; [vectors; lra|].
  assert (B := IH (fun z I => A z (or_intror I))). pose proof (A x (or_introl eq_refl)) as Sx. unfold slack in Sx. rewrite inner_minus in Sx.
  replace (inner (facing q) _) with (w * inner (facing q) x + inner (facing q) y) by (generalize (facing q); intros; vectors; ring). nra.
Qed.
Lemma hull_slack : forall q l y, in_hull l y -> (forall x, In x l -> 0 <= slack q x) -> 0 <= slack q y.
Proof. intros q l y H A. apply (weighted_slack q) in H; [|exact A]. unfold slack. rewrite inner_minus. lra. Qed.
Lemma hull_on : forall q l y, in_hull l y -> (forall x, In x l -> on_plane q x) -> on_plane q y.
Proof.
  intros q l y H A. assert (G : forall l w y, weighted l w y -> (forall x, In x l -> on_plane q x) -> inner (facing q) y = w * inner (facing q) (bp_v0 q)).
  { clear. intros l w y H. induction H as [|x l w s y W H IH]; intros A; [vectors; lra|].
    assert (B := IH (fun z I => A z (or_intror I))). pose proof (A x (or_introl eq_refl)) as Sx. unfold on_plane in Sx. rewrite inner_minus in Sx.
    replace (inner (facing q) _) with (w * inner (facing q) x + inner (facing q) y) by (generalize (facing q); intros; vectors; ring).
    assert (X : inner (facing q) x = inner (facing q) (bp_v0 q)) by lra. rewrite X, B. ring. }
  apply G in H; [|exact A]. unfold on_plane. rewrite inner_minus. lra.
Qed.

Section Faces.
Context (parse : str -> option R) (cosine radians : R -> R) (atan2 : R -> R -> R)
  (quat : vec3 R -> R -> vec3 R -> vec3 R) (mat2 : R -> vec2 R -> vec2 R).
Local Notation O := (real_num parse cosine radians atan2 quat mat2).

Lemma det_facing : forall p0 p1 p2, 0 < inner (outer (facing p0) (facing p1)) (facing p2) -> proper p0 /\ proper p1 /\ proper p2.
Proof.
  intros p0 p1 p2 D. unfold proper. repeat split; intros Z; apply norm_zero in Z; rewrite Z in D; revert D; vectors; lra.
Qed.

Theorem face_side : forall tx e planes plane f, build_face O tx e planes plane = Ok f -> proper plane -> crisp planes f ->
  sharp planes plane -> bounded (side planes plane) ->
  forall x, in_hull (map vt_pos (f_vertices f)) x <-> side planes plane x.
Proof.
  intros tx e planes plane f E Pr K Sh Bd x. destruct (real_corners _ _ _ _ _ _ _ _ _ _ _ E) as (_ & C). split.
  - intros H. split.
    + apply (hull_on _ _ _ H). intros y I. apply C in I. destruct I as (p1 & p2 & _ & _ & _ & _ & _ & _ & On & _). exact On.
    + apply solid_slack. intros q Iq. apply (hull_slack _ _ _ H). intros y I. apply in_map_iff in I. destruct I as (v & <- & Iv).
      apply slack_within. exact (K v q Iv Iq).
  - intros Sd. apply (side_hull planes plane Bd); auto. intros p1 p2 y I1 I2 D O1 O2 Sy. apply C. exists p1, p2.
    destruct (det_facing _ _ _ D) as (_ & P1 & P2). repeat (split; [assumption|]). split; [now apply (Sh p1 p2 y)|].
    split; [apply Sy|]. split; [exact O1|]. split; [exact O2|]. intros q Iq. destruct Sy as (_ & Sy). pose proof (Sy q Iq) as W.
    unfold within in *. pose proof (sqrt_pos (inner (facing q) (facing q))). unfold norm. nra.
Qed.

Theorem brush_surface : forall tx e planes b, build_brush O tx e planes = Ok b -> polar_angle atan2 ->
  (forall plane f, In plane planes -> In f (bg_faces b) -> build_face O tx e planes plane = Ok f ->
     proper plane /\ crisp planes f /\ sharp planes plane /\ (3 <= length (f_vertices f))%nat) ->
  bounded (solid planes) ->
  forall x, surface_of planes x <-> exists f i p q r, In f (bg_faces b) /\ triangle f i p q r /\ in_triangle p q r x.
Proof.
  intros tx e planes b E An H Bd x. unfold build_brush in E. apply bind_ok in E. destruct E as (fs & Ef & E). injection E as <-. cbn [bg_faces] in *.
  apply mapM_ok in Ef. 
  assert (Sd : forall plane f, In plane planes -> In f fs -> build_face O tx e planes plane = Ok f ->
     forall x, (exists i p q r, triangle f i p q r /\ in_triangle p q r x) <-> side planes plane x).
  { intros plane f Ip If Eb y. destruct (H plane f Ip If Eb) as (Pr & K & Sh & L).
    rewrite <- (triangles_cover _ _ _ _ _ _ _ _ _ _ _ Eb K An) by (now rewrite map_length).
    apply (face_side _ _ _ _ _ Eb Pr K Sh). destruct Bd as (m & Bd). exists m. intros z (_ & Z). now apply Bd. }
  split.
  - intros (So & q & Iq & On). destruct (Forall2_in_l _ _ _ _ _ _ Ef Iq) as (f & If & Eb).
    destruct (proj2 (Sd q f Iq If Eb x)) as (i & a & b & c & T); [split; assumption|]. exists f, i, a, b, c. tauto.
  - intros (f & i & a & b & c & If & T & In'). destruct (Forall2_in_r _ _ _ _ _ _ Ef If) as (q & Iq & Eb).
    destruct (proj1 (Sd q f Iq If Eb x)) as (On & So); [eauto 10|]. split; [exact So|]. eauto.
Qed.
End Faces.
