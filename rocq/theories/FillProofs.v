(** Convex collision shapes are the solids of brushes up to rounding: lemmas for C108. *)
From Coq Require Import Reals Lra Lia ZArith Permutation Psatz Classical.
From Flocq Require Import Core.
From Verif Require Import Prelude F32 Text MapModel GeoModel SceneModel NumberSpec GeoSpec GatherSpec SurfaceSpec RealSpec WindSpec ErrorSpec CornerSpec MeanSpec SolidSpec WoundSpec CoverSpec FillSpec
  BaseProofs FloatProofs NumberProofs ColorProofs ArithProofs ExactProofs GeoProofs GeoFinal ErrorProofs ErrorFinal NormalProofs CornerProofs MeanProofs WindProofs SolidProofs WoundProofs CoverProofs.
Local Open Scope R_scope.

(** ** Hulls *)
Lemma weighted_within : forall l m w y, weighted m w y -> (forall x, In x m -> In x l) -> weighted l w y.
Proof.
  intros l m w y H. induction H as [|x m w s y W H IH]; intros S; [apply weighted_none|].
  eapply weighted_eq; [exact (weighted_plus _ _ _ (weighted_one l x w W (S x (or_introl eq_refl))) _ _ (IH (fun z I => S z (or_intror I))))|reflexivity|].
  unfold WindProofs.plus, scaled. reflexivity.
Qed.

Lemma weighted_moved : forall h l m, Forall2 (fun a b => norm (minus a b) <= h) l m -> forall w y, weighted l w y -> exists y', weighted m w y' /\ norm (minus y y') <= w * h.
Proof.
  intros h l m F. induction F as [|a b l m N F IH]; intros w y H; inversion H; subst; clear H.
  - exists (V3 0 0 0). split; [constructor|]. replace (minus (V3 0 0 0) (V3 0 0 0)) with (vscale 0 (V3 0 0 0)) by (unfold vscale, minus; cbn [vx vy vz]; f_equal; ring).
    rewrite norm_scale, Rabs_R0. lra.
  - match goal with H : weighted l _ _ |- _ => destruct (IH _ _ H) as (y' & Wy & Ny) end.
    match goal with H : 0 <= ?w0 |- _ => exists (V3 (w0 * vx b + vx y') (w0 * vy b + vy y') (w0 * vz b + vz y')); split; [now constructor|];
      match goal with |- norm (minus (V3 (_ * _ + vx ?z) _ _) _) <= _ =>
        replace (minus (V3 (w0 * vx a + vx z) (w0 * vy a + vy z) (w0 * vz a + vz z)) (V3 (w0 * vx b + vx y') (w0 * vy b + vy y') (w0 * vz b + vz y')))
          with (vplus (vscale w0 (minus a b)) (minus z y')) by (unfold vplus, vscale, minus; cbn [vx vy vz]; f_equal; ring) end;
      eapply Rle_trans; [apply norm_triangle|]; rewrite norm_scale, Rabs_pos_eq by exact H;
      pose proof (Rmult_le_compat_l w0 _ _ H N); lra end.
Qed.

(** Moving the points moves the hull no further. *)
Lemma hull_moved : forall h l m, (forall a, In a l -> exists b, In b m /\ norm (minus a b) <= h) -> forall y, in_hull l y -> exists y', in_hull m y' /\ norm (minus y y') <= h.
Proof.
  intros h l m H y Hy. destruct (forall_exists (fun a b => In b m /\ norm (minus a b) <= h) l H) as (k & F).
  assert (F1 : Forall2 (fun a b => norm (minus a b) <= h) l k) by (clear -F; induction F as [|a b l k (A & B) F IH]; constructor; assumption).
  assert (F2 : forall x, In x k -> In x m).
  { clear -F. induction F as [|a b l k (A & B) F IH]; intros x I; [destruct I|]. destruct I as [<-|I]; auto. }
  destruct (weighted_moved h l k F1 1 y Hy) as (y' & Wy & Ny). exists y'. split; [exact (weighted_within m k 1 y' Wy F2)|lra].
Qed.

Lemma hull_of_hull : forall l m w y, weighted l w y -> (forall x, In x l -> in_hull m x) -> weighted m w y.
Proof.
  intros l m w y H. induction H as [|x l w s y W H IH]; intros S; [apply weighted_none|].
  eapply weighted_eq; [exact (weighted_plus _ _ _ (weighted_scale m _ _ (S x (or_introl eq_refl)) w W) _ _ (IH (fun z I => S z (or_intror I))))|ring|].
  unfold WindProofs.plus, scaled. reflexivity.
Qed.

(** ** The solid is the hull of its sides *)
Lemma hit_side : forall planes x w, bounded (solid planes) -> solid planes x -> w <> V3 0 0 0 ->
  exists t q, 0 <= t /\ In q planes /\ side planes q (moved x w t).
Proof.
  intros planes x w Bd So N. destruct (travel planes x w So) as [A|(t & q & T & I & P & E & M)].
  - exfalso. apply (no_ray _ x w Bd N). intros t T. apply solid_slack. intros q I. rewrite slack_moved. rewrite solid_slack in So. pose proof (So q I). pose proof (A q I). nra.
  - exists t, q. split; [exact T|]. split; [exact I|]. split.
    + apply slack_on. rewrite slack_moved. lra.
    + apply solid_slack. intros q' I'. rewrite slack_moved. pose proof (M q' I'). lra.
Qed.

Lemma solid_hull : forall planes l, bounded (solid planes) -> (forall q x, In q planes -> side planes q x -> in_hull l x) -> forall x, solid planes x -> in_hull l x.
Proof.
  intros planes l Bd H x So. set (w := V3 1 0 0 : vec3 R).
  assert (N : w <> V3 0 0 0) by (intros Z; apply (f_equal vx) in Z; cbn in Z; lra).
  assert (N' : opposite w <> V3 0 0 0) by (intros Z; apply (f_equal vx) in Z; cbn in Z; lra).
  destruct (hit_side planes x w Bd So N) as (s & q & S & I & Sd). destruct (hit_side planes x (opposite w) Bd So N') as (t & q' & T & I' & Sd').
  rewrite moved_opposite in Sd'. apply (hull_between l x w s t S T); [exact (H q _ I Sd)|exact (H q' _ I' Sd')].
Qed.

(** ** All corners of a brush *)
Section Brush.
Context (p : platform).
Local Notation O := (f32_num p).

Lemma corners_listed : forall planes, (forall q, In q planes -> grid_plane q) -> exists ys, forall x, In x ys <-> exists pl, In pl planes /\ true_corner planes pl x.
Proof.
  intros planes G.
  assert (K : forall l, (forall t, In t l -> In (fst t) planes /\ In (fst (snd t)) planes /\ In (snd (snd t)) planes) ->
    exists ys, forall x, In x ys <-> exists t, In t l /\ crossing (fst t) (fst (snd t)) (snd (snd t)) x /\ in_solid planes x).
  { induction l as [|t l IH]; intros H; [exists []; intros x; split; [intros []|intros (t & [] & _)]|].
    destruct IH as (ys & Y); [intros t' I; apply H; now right|]. destruct (H t (or_introl eq_refl)) as (I0 & I1 & I2).
    destruct (classic (exists x, crossing (fst t) (fst (snd t)) (snd (snd t)) x /\ in_solid planes x)) as [(z & Cz & Sz)|No].
    - exists (z :: ys). intros x. split.
      + intros [<-|I]; [exists t; split; [now left|auto]|]. apply Y in I. destruct I as (t' & I & Q). exists t'. split; [now right|exact Q].
      + intros (t' & [<-|I] & Q); [left; eapply crossing_unique; [apply G; exact I0|apply G; exact I1|apply G; exact I2|exact Cz|apply Q]|right; apply Y; eauto].
    - exists ys. intros x. rewrite Y. split; [intros (t' & I & Q); exists t'; split; [now right|exact Q]|]. intros (t' & [<-|I] & Q); [exfalso; eauto|eauto]. }
  destruct (K (list_prod planes (list_prod planes planes))) as (ys & Y).
  { intros (a & b & c) I. apply in_prod_iff in I. destruct I as (A & I). apply in_prod_iff in I. cbn [fst snd]. tauto. }
  exists ys. intros x. rewrite Y. split.
  - intros ((a & b & c) & I & X & S). apply in_prod_iff in I. destruct I as (A & I). apply in_prod_iff in I. destruct I as (B & C). exists a. split; [exact A|]. split; [exists b, c; auto|exact S].
  - intros (a & A & (b & c & B & C & X) & S). exists (a, (b, c)). split; [apply in_prod_iff; split; [exact A|apply in_prod_iff; auto]|auto].
Qed.

Lemma solid_corners : forall planes ys, (forall q, In q planes -> grid_plane q) -> bounded (solid (map plane_of planes)) ->
  (forall x, In x ys <-> exists pl, In pl planes /\ true_corner planes pl x) -> forall x, solid (map plane_of planes) x <-> in_hull ys x.
Proof.
  intros planes ys G Bd Y x. split.
  - apply (solid_hull _ _ Bd). intros q z Iq Sd. apply in_map_iff in Iq. destruct Iq as (pl & <- & Ip).
    assert (Bs : bounded (side (map plane_of planes) (plane_of pl))) by (destruct Bd as (m & Bd); exists m; intros y (_ & S); now apply Bd).
    apply (side_hull _ _ Bs); [|apply G; exact Ip|exact Sd]. intros p1 p2 y I1 I2 D O1 O2 (On & So).
    apply in_map_iff in I1, I2. destruct I1 as (q1 & <- & I1). destruct I2 as (q2 & <- & I2). apply Y. exists pl. split; [exact Ip|]. split.
    + exists q1, q2. split; [exact I1|]. split; [exact I2|]. split; [exact On|]. split; [exact O1|]. split; [exact O2|].
      destruct (det_facing _ _ _ D) as (P0 & P1 & P2). unfold proper in *. unfold openness. apply Rdiv_lt_0_compat; [exact D|].
      pose proof (norm_pos (facing (plane_of pl))). pose proof (norm_pos (facing (plane_of q1))). pose proof (norm_pos (facing (plane_of q2))).
      apply Rmult_lt_0_compat; [apply Rmult_lt_0_compat|]; lra.
    + intros q Hq. apply So. now apply in_map.
  - intros H. apply solid_slack. intros q Iq. apply (hull_slack _ _ _ H). intros y I. apply Y in I. destruct I as (pl & _ & _ & S).
    apply in_map_iff in Iq. destruct Iq as (q' & <- & Hq). apply slack_within. now apply S.
Qed.

(** ** Corners in single precision *)
Lemma face_matches : forall tx e planes plane f b, build_face O tx e planes plane = Ok f -> (forall q, In q (plane :: planes) -> grid_plane q) ->
  (Z.of_nat (length planes) <= 4000)%Z -> clear planes plane -> blurred b planes plane ->
  (forall v, In v (f_vertices f) -> exists x, true_corner planes plane x /\ norm (minus (point_of (vt_pos v)) x) <= allowance b)
  /\ (forall x, true_corner planes plane x -> exists v, In v (f_vertices f) /\ norm (minus (point_of (vt_pos v)) x) <= allowance b).
Proof.
  intros tx e planes plane f b E G L CL BL. destruct (face_points p tx e planes plane f E G L) as (Fc & Bc & _).
  destruct (corners_c15 p tx e planes plane f E) as (raw & centred & sorted & CS & M & F1 & P & F2).
  assert (G0 : grid_plane plane) by (apply G; now left).
  assert (OC : forall q, In q planes -> grid_plane q) by (intros q Hq; apply G; now right).
  destruct (forall_exists (fun v x => of_corner p planes plane (vt_pos v) x) raw) as (xs & H).
  { intros v Hv. destruct CS as (A & _). destruct (A v Hv) as (p1 & p2 & I1 & I2 & Er & IN). destruct (meeting_crossing p plane p1 p2 (vt_pos v) G0 (OC _ I1) (OC _ I2) Er) as (x & X).
    exists x, p1, p2. split; [exact I1|]. split; [exact I2|]. split; [exact X|]. split; [exact Er|]. exact (kept_true p planes plane p1 p2 (vt_pos v) x G CL I1 I2 Er IN X). }
  assert (Hz : forall w, In w xs -> 0 <= b /\ norm w <= 524288 * b).
  { intros w Hw. destruct (Forall2_right _ _ _ _ H Hw) as (rv & _ & OCx). destruct (corner_near p planes plane b _ w G BL OCx) as (B0 & _ & _ & Nw). split; assumption. }
  assert (Near : forall v sv r x, In r raw -> vt_pos v = v3_add O (vt_pos sv) (f_center f) -> vt_pos sv = v3_sub O (vt_pos r) (f_center f) ->
    (exists p1 p2 r', In p1 planes /\ In p2 planes /\ crossing plane p1 p2 x /\ in_solid planes x /\ intersect_planes O plane p1 p2 = Some r' /\ point_of r' = point_of (vt_pos r)) ->
    norm (minus (point_of (vt_pos v)) x) <= allowance b).
  { intros v sv r x Hr Dv Ds (p1 & p2 & r' & I1 & I2 & X & T & Er & Pr).
    assert (Ne : xs <> []) by (intros ->; inversion H; subst; destruct Hr).
    assert (B0 : 0 <= b) by (destruct xs as [|z zs]; [congruence|]; apply (Hz z); now left).
    assert (Ng : norm (average xs) <= 524288 * b) by (apply average_norm; [exact Ne|]; intros w Hw; now apply Hz).
    pose proof (centre_near p planes plane b raw xs (f_center f) G L BL CS M H Ne) as Cn.
    assert (Kz : 0 <= INR (length xs) <= 16777216).
    { split; [apply pos_INR|]. assert (length raw = length xs) as <- by (clear -H; induction H; cbn; congruence). pose proof (raw_length p planes plane raw G CS).
      rewrite INR_IZR_INZ. apply (IZR_le _ 16777216). nia. }
    pose proof (minus_norm (point_of (f_center f)) (average xs)) as Nc. set (K := INR (length xs)) in *.
    assert (Kb : K * b <= 16777216 * b) by (apply Rmult_le_compat_r; lra).
    assert (Fr : fins (vt_pos r)) by (destruct CS as (A & _); destruct (meeting_fins p planes plane _ G (A r Hr)) as [Fr _]; exact Fr).
    pose proof (back_near p f plane p1 p2 r' (vt_pos r) x G0 (OC _ I1) (OC _ I2) Fc Bc Er Fr (eq_sym Pr) X) as N. unfold back in N. rewrite <- Ds, <- Dv in N.
    specialize (BL p1 p2 x I1 I2 X T). unfold allowance.
    replace (10 ^ 30) with 1000000000000000000000000000000 in * by ring. replace (10 ^ 20) with 100000000000000000000 by ring. replace (2 ^ 23) with 8388608 in * by ring. lra. }
  split.
  - intros v Hv. destruct (Forall2_right _ _ _ _ F2 Hv) as (sv & Hs & (Dv & _)). apply (Permutation_in _ (Permutation_sym P)) in Hs.
    destruct (Forall2_right _ _ _ _ F1 Hs) as (r & Hr & (Ds & _)). destruct (Forall2_left _ _ _ _ H Hr) as (x & _ & (p1 & p2 & I1 & I2 & X & Er & T)).
    exists x. split; [split; [exists p1, p2; auto|exact T]|]. apply (Near v sv r x Hr Dv Ds). exists p1, p2, (vt_pos r). auto 10.
  - intros x ((p1 & p2 & I1 & I2 & X) & T). destruct (true_kept p planes plane p1 p2 x G CL I1 I2 X T) as (r' & Er & IN).
    assert (MP : meeting_point O planes plane r') by (exists p1, p2; unfold meets; auto).
    pose proof CS as (A & B & _). destruct (B r' MP) as (r & Hr & EQ).
    assert (PE : point_of r' = point_of (vt_pos r)).
    { destruct EQ as [->|EQ]; [reflexivity|]. destruct (meeting_fins p planes plane _ G (A r Hr)) as [Fv _]. destruct (meeting_fins p planes plane _ G MP) as [Fr _]. apply pos_eq_point in EQ; assumption. }
    destruct (Forall2_left _ _ _ _ F1 Hr) as (sv & Hs & (Ds & _)). apply (Permutation_in _ P) in Hs. destruct (Forall2_left _ _ _ _ F2 Hs) as (v & Hv & (Dv & _)).
    exists v. split; [exact Hv|]. apply (Near v sv r x Hr Dv Ds). exists p1, p2, r'. auto 10.
Qed.

(** The points are the positions of the corners of the faces. *)
Definition made_of (faces : list (face f32)) (l : list (vec3 f32)) : Prop :=
  (forall f v, In f faces -> In v (f_vertices f) -> exists q, In q l /\ (q = vt_pos v \/ pos_eq O q (vt_pos v)))
  /\ (forall q, In q l -> exists f v, In f faces /\ In v (f_vertices f) /\ q = vt_pos v).

Theorem brush_filled : forall tx e planes faces l b, Forall2 (fun pl f => build_face O tx e planes pl = Ok f) planes faces -> (forall q, In q planes -> grid_plane q) ->
  (Z.of_nat (length planes) <= 4000)%Z -> plain_brush planes b -> made_of faces l -> fills (allowance b) l (solid (map plane_of planes)).
Proof.
  intros tx e planes faces l b Ff G L (Bd & PB) (M1 & M2). destruct (corners_listed planes G) as (ys & Y). pose proof (solid_corners planes ys G Bd Y) as SC.
  assert (Match : forall pl f, In pl planes -> build_face O tx e planes pl = Ok f ->
    (forall v, In v (f_vertices f) -> exists x, true_corner planes pl x /\ norm (minus (point_of (vt_pos v)) x) <= allowance b)
    /\ (forall x, true_corner planes pl x -> exists v, In v (f_vertices f) /\ norm (minus (point_of (vt_pos v)) x) <= allowance b)
    /\ forall v, In v (f_vertices f) -> finite_point (vt_pos v)).
  { intros pl f Ip Ef. destruct (PB pl Ip) as (CL & BL). assert (G' : forall q, In q (pl :: planes) -> grid_plane q) by (intros z [<-|I]; auto).
    destruct (face_matches tx e planes pl f b Ef G' L CL BL) as (A & B). split; [exact A|]. split; [exact B|]. intros v Hv.
    destruct (corners_inside p tx e planes pl f Ef G' L) as (_ & Fin). now apply Fin. }
  assert (Fl : forall q, In q l -> finite_point q).
  { intros q Hq. destruct (M2 q Hq) as (f & v & Hf & Hv & ->). destruct (Forall2_in_r _ _ _ _ _ _ Ff Hf) as (pl & Ip & Ef). now apply (Match pl f Ip Ef). }
  split.
  - intros x So. apply SC in So. destruct (hull_moved (allowance b) ys (map point_of l)) with (y := x) as (y & Hy & Ny); [|exact So|exists y; split; [exact Hy|now rewrite norm_back]].
    intros a Ha. apply Y in Ha. destruct Ha as (pl & Ip & Ta). destruct (Forall2_in_l _ _ _ _ _ _ Ff Ip) as (f & Hf & Ef).
    destruct (Match pl f Ip Ef) as (_ & B & Fin). destruct (B a Ta) as (v & Hv & N). destruct (M1 f v Hf Hv) as (q & Hq & Eq). exists (point_of q). split; [now apply in_map|].
    rewrite norm_back. assert (point_of q = point_of (vt_pos v)) as ->; [|exact N]. destruct Eq as [->|Eq]; [reflexivity|].
    apply (pos_eq_point p) in Eq; [exact Eq|apply finite_fins; now apply Fl|apply finite_fins; now apply Fin].
  - intros y Hy. destruct (hull_moved (allowance b) (map point_of l) ys) with (y := y) as (x & Hx & Nx); [|exact Hy|exists x; split; [now apply SC|exact Nx]].
    intros a Ha. apply in_map_iff in Ha. destruct Ha as (q & <- & Hq). destruct (M2 q Hq) as (f & v & Hf & Hv & ->). destruct (Forall2_in_r _ _ _ _ _ _ Ff Hf) as (pl & Ip & Ef).
    destruct (Match pl f Ip Ef) as (A & _). destruct (A v Hv) as (x & Tx & N). exists x. split; [apply Y; eauto|exact N].
Qed.
End Brush.
