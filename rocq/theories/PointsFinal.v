(** The points of whole runs lie in the solids of the map file: lemmas for C97. *)
From Coq Require Import Reals Lra Lia ZArith Permutation.
From Flocq Require Import Core.
From Verif Require Import Prelude F32 Text MapModel GeoModel LayerModel GameDataModel SceneModel RunModel
  GatherSpec SurfaceSpec GeoSpec NumberSpec LayerSpec TreeSpec PropertySpec MapSpec Utf8Spec RunSpec InvarianceSpec RealSpec ErrorSpec PointsSpec
  BaseProofs FloatProofs NumberProofs ColorProofs ArithProofs ExactProofs GeoProofs GeoFinal RunProofs SoundProofs ErrorProofs ErrorFinal PointsProofs.
Local Open Scope R_scope.

Section Final.
Context (p : platform).
Local Notation O := (f32_num p).

(** ** The size of a centre *)
Lemma scaled_format : forall k j, (0 <= k < 2 ^ 24)%Z -> (-149 <= j <= 33)%Z -> format32 (IZR k * bpow radix2 j).
Proof. intros k j K J. apply format_scaled; lia. Qed.
Lemma scaled_big : forall k j, (0 <= k < 2 ^ 24)%Z -> (j <= 33)%Z -> 0 <= IZR k * bpow radix2 j <= 144115188075855872.
Proof.
  intros k j K J. assert (0 < bpow radix2 j <= bpow radix2 33) by (split; [apply bpow_gt_0|apply bpow_le; exact J]).
  change (bpow radix2 33) with 8589934592 in H. assert (0 <= IZR k <= 16777216) by (split; apply IZR_le; lia). split; [apply Rmult_le_pos; lra|].
  replace 144115188075855872 with (16777216 * 8589934592) by ring. apply Rmult_le_compat; lra.
Qed.

Lemma add_scaled : forall j x y k, (-149 <= j <= 33)%Z -> fin x -> fin y -> (0 <= k)%Z -> (k + 1 < 2 ^ 24)%Z ->
  Rabs (val x) <= IZR k * bpow radix2 j -> Rabs (val y) <= bpow radix2 j -> fin (f32_add x y) /\ Rabs (val (f32_add x y)) <= IZR (k + 1) * bpow radix2 j.
Proof.
  intros j x y k J Fx Fy K0 K Bx By.
  assert (M : IZR (k + 1) * bpow radix2 j = IZR k * bpow radix2 j + bpow radix2 j) by (rewrite plus_IZR; ring).
  assert (R1 : Rabs (val x + val y) <= IZR (k + 1) * bpow radix2 j) by (eapply Rle_trans; [apply Rabs_triang|lra]).
  assert (R2 : Rabs (rnd32 (val x + val y)) <= IZR (k + 1) * bpow radix2 j) by (apply abs_round_le_generic; [apply fexp32_valid|apply valid_rnd_N|apply scaled_format; lia|exact R1]).
  destruct (add_correct x y Fx Fy) as [F V].
  - eapply Rle_lt_trans; [exact R2|]. pose proof (scaled_big (k + 1) j ltac:(lia) ltac:(lia)). pose proof big_bound. change (IZR (2 ^ 110)) with 1298074214633706907132624082305024 in *. lra.
  - split; [exact F|]. rewrite V. exact R2.
Qed.

Lemma sum_scaled : forall j s l r, (-149 <= j <= 33)%Z -> sum_from O s l r -> forall k, (0 <= k)%Z -> (k + Z.of_nat (length l) < 2 ^ 24)%Z ->
  fins s -> below (IZR k * bpow radix2 j) (point_of s) ->
  (forall x, In x l -> fins x /\ below (bpow radix2 j) (point_of x)) -> fins r /\ below (IZR (k + Z.of_nat (length l)) * bpow radix2 j) (point_of r).
Proof.
  intros j s l r J H. induction H as [s|s x l r H IH]; intros k K0 K F B A.
  - cbn [length]. rewrite Z.add_0_r. split; assumption.
  - cbn [length] in *. rewrite Nat2Z.inj_succ in *. destruct (A x (or_introl eq_refl)) as ((X1 & X2 & X3) & (Y1 & Y2 & Y3)). destruct F as (F1 & F2 & F3). destruct B as (B1 & B2 & B3).
    cbn [point_of vx vy vz] in *.
    destruct (add_scaled j _ _ k J F1 X1) as [G1 H1]; auto; [lia|]. destruct (add_scaled j _ _ k J F2 X2) as [G2 H2]; auto; [lia|]. destruct (add_scaled j _ _ k J F3 X3) as [G3 H3]; auto; [lia|].
    replace (k + Z.succ (Z.of_nat (length l)))%Z with (k + 1 + Z.of_nat (length l))%Z by lia.
    apply IH; [lia|lia|split; [|split]; assumption|split; [|split]; assumption|]. intros z Hz. apply A. now right.
Qed.

(** A mean is not beyond a power of two that none of the points is beyond. *)
Lemma mean_scaled : forall j l c, (-149 <= j <= 33)%Z -> is_mean O l c -> (Z.of_nat (length l) < 2 ^ 24)%Z ->
  (forall x, In x l -> fins x /\ below (bpow radix2 j) (point_of x)) -> fins c /\ below (bpow radix2 j) (point_of c).
Proof.
  intros j l c J (s & S & E) L A.
  assert (Z0 : fin f32_zero /\ val f32_zero = 0) by (split; [apply fin_zero|apply val_zero]).
  destruct (sum_scaled j _ _ _ J S 0%Z ltac:(lia) ltac:(lia)) as [F B]; [split; [|split]; apply Z0| |exact A|].
  { unfold below. cbn [point_of vx vy vz n_zero f32_num]. destruct Z0 as [_ ->]. rewrite Rabs_R0, Rmult_0_l. lra. }
  set (n := Nat.max (length l) 1) in *. assert (N1 : (1 <= Z.of_nat n < 2 ^ 24)%Z) by (unfold n; lia).
  assert (I : int (f32_of_N (N.of_nat n)) (Z.of_nat n)) by (rewrite <- nat_N_Z; apply int_of_N; lia).
  assert (NL : (Z.of_nat (length l) <= Z.of_nat n)%Z) by (unfold n; lia). clearbody n. subst c.
  destruct I as [Fn Vn]. assert (NP : 1 <= IZR (Z.of_nat n)) by (apply (IZR_le 1); lia). pose proof (bpow_gt_0 radix2 j) as JP.
  assert (H : forall x, fin x -> Rabs (val x) <= IZR (0 + Z.of_nat (length l)) * bpow radix2 j ->
    fin (f32_div x (f32_of_N (N.of_nat n))) /\ Rabs (val (f32_div x (f32_of_N (N.of_nat n)))) <= bpow radix2 j).
  { intros x Fx Bx. rewrite Z.add_0_l in Bx.
    assert (R1 : Rabs (val x / val (f32_of_N (N.of_nat n))) <= bpow radix2 j).
    { rewrite Vn. unfold Rdiv. rewrite Rabs_mult, (Rabs_pos_eq (/ IZR (Z.of_nat n))) by (apply Rlt_le, Rinv_0_lt_compat; lra).
      apply Rmult_le_reg_r with (IZR (Z.of_nat n)); [lra|]. rewrite Rmult_assoc, Rinv_l, Rmult_1_r by lra. eapply Rle_trans; [exact Bx|]. rewrite Rmult_comm.
      apply Rmult_le_compat_l; [lra|apply IZR_le; exact NL]. }
    assert (R2 : Rabs (rnd32 (val x / val (f32_of_N (N.of_nat n)))) <= bpow radix2 j).
    { apply abs_round_le_generic; [apply fexp32_valid|apply valid_rnd_N| |exact R1]. rewrite <- (Rmult_1_l (bpow radix2 j)). apply (scaled_format 1); lia. }
    destruct (div_correct x _ Fx Fn) as [Fq Vq]; [rewrite Vn; lra| |split; [exact Fq|rewrite Vq; exact R2]].
    eapply Rle_lt_trans; [exact R2|]. pose proof big_bound. pose proof (scaled_big 1 j ltac:(lia) ltac:(lia)). change (IZR (2 ^ 110)) with 1298074214633706907132624082305024 in *. lra. }
  destruct F as (F1 & F2 & F3). destruct B as (B1 & B2 & B3). cbn [point_of vx vy vz] in *.
  destruct (H _ F1 B1) as [G1 H1]. destruct (H _ F2 B2) as [G2 H2]. destruct (H _ F3 B3) as [G3 H3].
  unfold v3_divs, fins, below. cbn [vx vy vz point_of n_div f32_num n_of_N]. repeat split; try assumption; try apply G1; try apply G2; apply G3.
Qed.

Lemma below_dec : forall k (l : list (vec3 f32)), (forall x, In x l -> below k (point_of x)) \/ exists x, In x l /\ k < norm (point_of x).
Proof.
  intros k l. induction l as [|x l [IH|(y & I & H)]]; [left; intros x []| |right; exists y; split; [now right|exact H]].
  destruct (coord_norm (point_of x)) as (X & Y & Z).
  destruct (Rle_lt_dec (Rabs (vx (point_of x))) k); [|right; exists x; split; [now left|lra]].
  destruct (Rle_lt_dec (Rabs (vy (point_of x))) k); [|right; exists x; split; [now left|lra]].
  destruct (Rle_lt_dec (Rabs (vz (point_of x))) k); [|right; exists x; split; [now left|lra]].
  left. intros y [<-|I]; [split; [|split]; assumption|now apply IH].
Qed.

Lemma least_power : forall (l : list (vec3 f32)) n, (forall x, In x l -> below (bpow radix2 (Z.of_nat n - 149)) (point_of x)) -> exists j, (-149 <= j <= Z.of_nat n - 149)%Z
  /\ (forall x, In x l -> below (bpow radix2 j) (point_of x)) /\ (j = (-149)%Z \/ exists x, In x l /\ bpow radix2 j <= 2 * norm (point_of x)).
Proof.
  intros l n. induction n as [|n IH]; intros A.
  - exists (-149)%Z. split; [lia|]. split; [exact A|now left].
  - destruct (below_dec (bpow radix2 (Z.of_nat n - 149)) l) as [H|(x & I & H)].
    + destruct (IH H) as (j & J & R1). exists j. split; [lia|exact R1].
    + exists (Z.of_nat (S n) - 149)%Z. split; [lia|]. split; [exact A|]. right. exists x. split; [exact I|].
      replace (Z.of_nat (S n) - 149)%Z with (1 + (Z.of_nat n - 149))%Z by lia. rewrite bpow_plus. change (bpow radix2 1) with 2. lra.
Qed.

(** A centre is not much farther from the origin than the corners. *)
Lemma centre_size : forall tx e planes plane f m, build_face O tx e planes plane = Ok f -> (forall q, In q (plane :: planes) -> grid_plane q) ->
  (Z.of_nat (length planes) <= 4000)%Z -> f_vertices f <> [] -> (forall v, In v (f_vertices f) -> norm (point_of (vt_pos v)) <= m) ->
  norm (point_of (f_center f)) <= 36 / 10 * m + 100 * eta.
Proof.
  intros tx e planes plane f m E G L Ne Bm. destruct (face_points p tx e planes plane f E G L) as (Fc & Bc & _ & A2).
  destruct (corners_c15 p tx e planes plane f E) as (raw & centred & sorted & CS & M & _).
  pose proof (raw_length p planes plane raw G CS) as RL. destruct CS as (A & B & N).
  assert (AL : forall x, In x (map vt_pos raw) -> meeting_point O planes plane x).
  { intros x Hx. apply in_map_iff in Hx. destruct Hx as (v & <- & Hv). now apply A. }
  destruct (least_power (map vt_pos raw) 182) as (j & J & Bj & C).
  { intros x Hx. destruct (meeting_fins p planes plane x G (AL x Hx)) as [_ K]. exact K. }
  destruct (mean_scaled j _ _ ltac:(lia) M) as [_ Bc']; [rewrite map_length; nia|intros x Hx; split; [apply (meeting_fins p planes plane x G (AL x Hx))|now apply Bj]|].
  assert (NC : norm (point_of (f_center f)) <= 7 / 4 * bpow radix2 j) by (destruct Bc' as (? & ? & ?); now apply norm_cube).
  assert (M0 : 0 <= m) by (destruct (f_vertices f) as [|v vs]; [congruence|]; eapply Rle_trans; [apply norm_pos|apply (Bm v); now left]).
  pose proof eta_small as HE. destruct C as [->|(x & Hx & Hn)].
  - replace (bpow radix2 (-149)) with (2 * eta) in NC; [lra|]. unfold eta. change (-149)%Z with (1 + -150)%Z. rewrite bpow_plus. reflexivity.
  - destruct (A2 x (AL x Hx)) as (v & r & Hv & Fr & Er & Ev). specialize (Bm v Hv). rewrite Ev in Bm.
    destruct (meeting_fins p planes plane x G (AL x Hx)) as [_ Bx].
    destruct (there_and_back p r (f_center f) Fr Fc) as [_ Eb]; [rewrite Er; exact Bx|exact Bc|]. fold (back p f r) in Eb.
    pose proof (minus_norm (point_of r) (point_of (back p f r))) as T1.
    assert (T2 : norm (minus (point_of r) (point_of (back p f r))) = norm (minus (point_of (back p f r)) (point_of r))).
    { unfold norm. f_equal. unfold inner, minus. cbn [vx vy vz]. ring. }
    rewrite Er in *. pose proof (norm_pos (point_of x)). pose proof (norm_pos (point_of (f_center f))).
    set (X := norm (point_of x)) in *. set (V := norm (point_of (back p f r))) in *. set (C := norm (point_of (f_center f))) in *.
    lra.
Qed.

(** ** Points of a face *)
Theorem face_near : forall tx e planes plane f m, build_face O tx e planes plane = Ok f -> (forall q, In q planes -> grid_plane q) -> In plane planes ->
  (Z.of_nat (length planes) <= 4000)%Z -> (forall v, In v (f_vertices f) -> norm (point_of (vt_pos v)) <= m) ->
  forall v, In v (f_vertices f) -> finite_point (vt_pos v) /\ near_solid m (map plane_of planes) (point_of (vt_pos v)) /\ near_corner m (map plane_of planes) (point_of (vt_pos v)).
Proof.
  intros tx e planes plane f m E G0 Ip L Bm v Hv.
  assert (G : forall q, In q (plane :: planes) -> grid_plane q) by (intros q [<-|I]; auto).
  assert (Ne : f_vertices f <> []) by (intros K; rewrite K in Hv; destruct Hv).
  pose proof (centre_size tx e planes plane f m E G L Ne Bm) as Cs. pose proof (Bm v Hv) as Vm. pose proof eta_small as HE.
  assert (M0 : 0 <= m) by (eapply Rle_trans; [apply norm_pos|exact Vm]).
  destruct (face_points p tx e planes plane f E G L) as (Fc & Bc & A & _). destruct (A v Hv) as (r & Mr & Ev).
  destruct (meeting_fins p planes plane r G Mr) as [Fr Br].
  destruct (there_and_back p r (f_center f) Fr Fc Br Bc) as [Fv Eb]. fold (back p f r) in Fv, Eb. rewrite <- Ev in Fv, Eb.
  split; [apply finite_fins; exact Fv|]. split.
  - intros q' Hq. apply in_map_iff in Hq. destruct Hq as (q & <- & Hq). apply within_on; [now apply G0|]. destruct Mr as (p1 & p2 & I1 & I2 & Er & In_).
    destruct (hull_test p q r) as [H _]; [now apply G0|exact Fr|eapply below_weaken; [|exact Br]; unfold corner_bound, B50; lra|]. cbn zeta in H. specialize (H (In_ q Hq)).
    cbn [plane_of bp_v0]. set (n := unit_along (facing (plane_of q))) in *. set (V := point_of (vt_pos v)) in *. set (R := point_of r) in *. set (C := point_of (f_center f)) in *. set (q0 := point_of (bp_v0 q)) in *.
    assert (N : norm n = 1) by (apply grid_unit; now apply G0).
    replace (inner n (minus V q0)) with (inner n (minus R q0) + inner n (minus V R)) by (rewrite !inner_minus_r; ring).
    pose proof (abs_inner n (minus V R)) as I. rewrite N, Rmult_1_l in I. apply Rabs_le_inv in I.
    assert (NR : norm R <= norm V + norm (minus V R)).
    { replace R with (vplus V (vscale (-1) (minus V R))) at 1.
      - eapply Rle_trans; [apply norm_triangle|]. rewrite norm_scale, (Rabs_left (-1)) by lra. lra.
      - unfold vplus, vscale, minus, R, V, point_of. cbn [vx vy vz]. f_equal; ring. }
    pose proof (norm_pos V). pose proof (norm_pos C). pose proof (norm_pos q0). change (/ 2 ^ 20) with (/ (2 ^ 20)). replace (2 ^ 20) with 1048576 by ring. lra.
  - destruct (corners_accurate p tx e planes plane f v E G L Hv) as (p1 & p2 & x & I1 & I2 & X0 & X1 & X2 & Op & D).
    exists (plane_of plane), (plane_of p1), (plane_of p2), x. 
    split; [now apply in_map|]. split; [now apply in_map|]. split; [now apply in_map|]. split; [exact X0|]. split; [exact X1|]. split; [exact X2|]. split; [exact Op|].
    eapply Rle_trans; [exact D|]. set (g := / 2 ^ 19 * _). clearbody g.
    replace (2 ^ 23) with 8388608 by ring. replace (2 ^ 21) with 2097152 by ring. replace (10 ^ 29) with 100000000000000000000000000000 by ring. replace (10 ^ 30) with 1000000000000000000000000000000 by ring. lra.
Qed.

(** ** Whole runs *)
Theorem points_near : forall order, (forall m, Permutation (order m) m) -> forall fuel c text d nodes,
  file_text (cf_map c) text -> text_document p text d -> grid_document p d -> run p order fuel c = Ok nodes ->
  forall n0 n l m, In n0 nodes -> InvarianceSpec.within n n0 -> In l (point_lists n) -> (forall v, In v l -> norm (point_of v) <= m) ->
  forall v, In v l -> finite_point v /\ exists e b planes, In e d /\ In b (doc_brushes e) /\ Forall2 (reads_as p) b planes
    /\ near_solid m (map plane_of planes) (point_of v) /\ near_corner m (map plane_of planes) (point_of v).
Proof.
  intros order P fuel c text d nodes Ft Td Gd Er n0 n l m I0 W Il Bm v Hv.
  pose proof Er as Er'. rewrite run_split in Er'. pose proof Ft as Ft'. apply read_ok in Ft'. rewrite Ft' in Er'. cbn [bind] in Er'.
  apply bind_ok in Er'. destruct Er' as ([ps es] & El & _). pose proof (loaded_document p text d ps es Td El) as Ag.
  set (B := fun bg : brush_geo f32 => exists e b planes x, In e d /\ In b (doc_brushes e) /\ Forall2 (reads_as p) b planes
    /\ forall f, In f (bg_faces bg) -> exists pl, In pl planes /\ build_face O (cf_textures c) x planes pl = Ok f).
  assert (Bb : forall b f, B b -> In f (bg_faces b) -> in_bounds f).
  { intros b f (e & b' & planes & x & _ & _ & _ & K) Hf. destruct (K f Hf) as (pl & _ & E). apply face_fan in E. destruct E as (_ & E & _). exact E. }
  assert (Fn : fine p B n).
  { eapply run_fine; [exact Bb|exact P|exact Ft|exact El| |exact Er|exact I0|exact W].
    intros gs Eg e g Ie. apply geometry_shape in Eg. pose proof Ie as Ie'. apply in_combine_l in Ie'. apply (in_combine_Forall2 _ _ _ _ _ _ _ Eg) in Ie. destruct Ie as (Ie & _).
    destruct (Forall2_in_r _ _ _ _ _ _ Ag Ie') as (x & Hx & _ & Fx). apply Forall_forall. intros bg Hb.
    destruct (Forall2_in_r _ _ _ _ _ _ Ie Hb) as (br & Hbr & F & _). destruct (Forall2_in_r _ _ _ _ _ _ Fx Hbr) as (lb & Hlb & Fb).
    exists x, lb, br, e. repeat split; auto. intros f Hf. destruct (Forall2_in_r _ _ _ _ _ _ F Hf) as (pl & Hpl & Ef). eauto. }
  unfold fine in Fn. rewrite Forall_forall in Fn.
  assert (K : forall bg f, B bg -> In f (bg_faces bg) -> exists e b planes x pl, In e d /\ In b (doc_brushes e) /\ Forall2 (reads_as p) b planes
    /\ (forall q, In q planes -> grid_plane q) /\ In pl planes /\ (Z.of_nat (length planes) <= 4000)%Z /\ build_face O (cf_textures c) x planes pl = Ok f
    /\ forall w, In w (f_vertices f) -> finite_point (vt_pos w)).
  { intros bg f (e & b & planes & x & Ie & Ib & Fb & K) Hf. destruct (K f Hf) as (pl & Ipl & Ef).
    assert (G : forall q, In q planes -> grid_plane q).
    { intros q Hq. destruct (Forall2_in_r _ _ _ _ _ _ Fb Hq) as (ln & Hln & Rl). destruct (Gd e b Ie Ib) as (_ & Gb). eauto. }
    assert (L : (Z.of_nat (length planes) <= 4000)%Z) by (rewrite <- (Forall2_length _ _ _ _ _ Fb); apply (Gd e b Ie Ib)).
    assert (G' : forall q, In q (pl :: planes) -> grid_plane q) by (intros q [<-|I]; auto).
    destruct (corners_inside p (cf_textures c) x planes pl f Ef G' L) as (_ & Fin).
    exists e, b, planes, x, pl. split; [exact Ie|]. split; [exact Ib|]. split; [exact Fb|]. split; [exact G|]. split; [exact Ipl|]. split; [exact L|]. split; [exact Ef|].
    intros w Hw. now apply Fin. }
  assert (Fin : forall v, In v l -> finite_point v).
  { intros v' Hv'. destruct (Fn l Il v' Hv') as (bg & f & w & Bg & Hf & Hw & -> & _). destruct (K bg f Bg Hf) as (e & b & planes & x & pl & _ & _ & _ & _ & _ & _ & _ & Fw). now apply Fw. }
  split; [now apply Fin|]. destruct (Fn l Il v Hv) as (bg & f & w & Bg & Hf & Hw & -> & Cov).
  destruct (K bg f Bg Hf) as (e & b & planes & x & pl & Ie & Ib & Fb & G & Ipl & L & Ef & Fw).
  destruct (face_near (cf_textures c) x planes pl f m Ef G Ipl L) with (v := w) as (Fv & N1 & N2); [|exact Hw|].
  - intros w' Hw'. destruct (Cov w' Hw') as (v' & Iv & [<-|Eq]); [now apply Bm|].
    apply (pos_eq_point p) in Eq; [rewrite <- Eq; now apply Bm|apply finite_fins; now apply Fin|apply finite_fins; now apply Fw].
  - exists e, b, planes. repeat split; assumption.
Qed.
End Final.
