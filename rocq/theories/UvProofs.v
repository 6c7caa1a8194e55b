(** Rounding errors of texture coordinates (C101). *)
From Coq Require Import Reals Lra Lia ZArith.
From Flocq Require Import Core BinarySingleNaN.
From Verif Require Import Prelude F32 Text MapModel GeoModel GeoSpec GatherSpec GatherProofs GeoFinal AttributeProofs NumberSpec BaseProofs FloatProofs NumberProofs ColorProofs ExactProofs RealSpec BoxSpec BoxProofs ArithProofs ErrorSpec ErrorProofs ErrorFinal UvSpec.
Local Open Scope R_scope.

Lemma div_err : forall x y, fin x -> fin y -> / 2 ^ 20 <= Rabs (val y) -> Rabs (val x) <= B60 ->
  fin (f32_div x y) /\ Rabs (val (f32_div x y) - val x / val y) <= u * Rabs (val x / val y) + eta.
Proof.
  intros x y Fx Fy By Bx.
  assert (P : 0 < / 2 ^ 20) by (apply Rinv_0_lt_compat; lra).
  assert (N : val y <> 0) by (intros e; rewrite e, Rabs_R0 in By; lra).
  destruct (div_correct x y Fx Fy N) as [F V].
  - apply rnd_big. unfold Rdiv. apply Rle_trans with (B60 * 2 ^ 20).
    + apply prod_bound; [exact Bx|]. rewrite Rabs_inv. rewrite <- (Rinv_inv (2 ^ 20)). apply Rinv_le_contravar; [exact P|exact By].
    + unfold B60. change (IZR (2 ^ 105)) with 40564819207303340847894502572032. lra.
  - split; [exact F|]. rewrite V. apply rnd_err.
Qed.

Lemma size_val : forall n, sane_size n -> fin (f32_of_N n) /\ val (f32_of_N n) = IZR (Z.of_N n) /\ 1 <= IZR (Z.of_N n) <= 2 ^ 20.
Proof.
  intros n (A & B). destruct (int_of_N n) as [F V]; [lia|]. split; [exact F|]. split; [exact V|].
  replace (2 ^ 20) with (IZR (2 ^ 20)) by (simpl; lra). split; [apply (IZR_le 1)|apply IZR_le]; lia.
Qed.

(** The last steps, the same for both kinds of coordinates. *)
Lemma coord_err : forall r s o n T E, fin r -> sane_scale s -> sane_offset o -> sane_size n ->
  Rabs (val r - T) <= E -> Rabs T <= 2 ^ 38 -> E <= 2 ^ 30 ->
  let q := f32_add (f32_div (f32_div r (f32_of_N n)) s) (f32_div o (f32_of_N n)) in
  let w := IZR (Z.of_N n) in
  fin q /\ Rabs (val q - coordinate T (val s) (val o) n) <=
    101 / 100 * (E / Rabs (val s) / w) + 301 / 100 * u * (Rabs T / Rabs (val s) / w) + 201 / 100 * u * (Rabs (val o) / w) + / 10 ^ 35.
Proof.
  intros r s o n T E Fr (Fs & Bs) (Fo & Bo) Hn HE BT BE. apply finite_fin in Fs, Fo.
  destruct (size_val n Hn) as (Fn & Vn & Bn). cbn zeta. set (w := IZR (Z.of_N n)) in *.
  pose proof eta_small as Heta. pose proof (near_bound _ _ _ HE) as Br. pose proof (Rabs_pos T) as PT. pose proof (Rabs_pos (val o)) as PO.
  pose proof (Rle_trans _ _ _ (Rabs_pos _) HE) as PE.
  set (S := Rabs (val s)) in *.
  assert (W : Rabs w = w) by (apply Rabs_pos_eq; lra).
  assert (Iw : 0 < / w <= 1) by (split; [apply Rinv_0_lt_compat; lra|rewrite <- Rinv_1; apply Rinv_le_contravar; lra]).
  assert (P : 0 < / 2 ^ 20) by (apply Rinv_0_lt_compat; lra).
  assert (Is : 0 < / S <= 1048576).
  { split; [apply Rinv_0_lt_compat; lra|]. replace 1048576 with (/ / 2 ^ 20) by (rewrite Rinv_inv; lra). apply Rinv_le_contravar; lra. }
  set (i := / w) in *. set (j := / S) in *.
  (* division by the size *)
  destruct (div_err r (f32_of_N n) Fr Fn) as [F1 E1]; [rewrite Vn, W; lra|unfold B60; lra|].
  rewrite Vn in E1. set (q1 := f32_div r (f32_of_N n)) in *.
  assert (A1 : Rabs (val r / w) <= (Rabs T + E) * i).
  { unfold Rdiv. fold i. rewrite Rabs_mult, (Rabs_pos_eq i) by lra. apply Rmult_le_compat_r; lra. }
  assert (D1 : Rabs (val q1 - T * i) <= u * ((Rabs T + E) * i) + eta + E * i).
  { replace (val q1 - T * i) with ((val q1 - val r / w) + (val r - T) * i) by (unfold Rdiv; fold i; ring).
    eapply Rle_trans; [apply Rabs_triang|]. rewrite (Rabs_mult (val r - T)), (Rabs_pos_eq i) by lra.
    assert (Rabs (val r - T) * i <= E * i) by (apply Rmult_le_compat_r; lra). lra. }
  assert (T1 : Rabs (T * i) = Rabs T * i) by (rewrite Rabs_mult, (Rabs_pos_eq i) by lra; reflexivity).
  pose proof (near_bound _ _ _ D1) as B1. rewrite T1 in B1.
  assert (G1 : Rabs T * i <= 2 ^ 38 * 1) by (apply Rmult_le_compat; lra).
  assert (G2 : E * i <= 2 ^ 30 * 1) by (apply Rmult_le_compat; lra).
  assert (G3 : 0 <= Rabs T * i) by (apply Rmult_le_pos; lra). assert (G4 : 0 <= E * i) by (apply Rmult_le_pos; lra).
  assert (M1 : Rabs (val q1) <= 2 ^ 39) by (rewrite Rmult_plus_distr_r in B1; lra).
  (* division by the scale *)
  destruct (div_err q1 s F1 Fs) as [F2 E2]; [fold S; lra|unfold B60; lra|].
  set (q2 := f32_div q1 s) in *.
  assert (Js : forall x, Rabs (x / val s) = Rabs x * j) by (intros x; unfold Rdiv; rewrite Rabs_mult, Rabs_inv; reflexivity).
  rewrite Js in E2.
  set (A := Rabs T * i * j). set (F := E * i * j).
  assert (D2 : Rabs (val q1 / val s - T * i / val s) <= u * (A + F) + eta * j + F).
  { replace (val q1 / val s - T * i / val s) with ((val q1 - T * i) / val s) by (unfold Rdiv; ring). rewrite Js.
    replace (u * (A + F) + eta * j + F) with ((u * ((Rabs T + E) * i) + eta + E * i) * j) by (unfold A, F; ring).
    apply Rmult_le_compat_r; lra. }
  assert (J : eta * j <= 1048576 * eta) by (rewrite (Rmult_comm eta); apply Rmult_le_compat_r; lra).
  assert (B2 : Rabs (val q1) * j <= A + (u * (A + F) + eta * j + F)).
  { replace (A + (u * (A + F) + eta * j + F)) with ((Rabs T * i + (u * ((Rabs T + E) * i) + eta + E * i)) * j) by (unfold A, F; ring).
    apply Rmult_le_compat_r; lra. }
  assert (PA : 0 <= A) by (apply Rmult_le_pos; lra). assert (PF : 0 <= F) by (apply Rmult_le_pos; lra).
  assert (E3 : Rabs (val q2 - T * i / val s) <= u * (A + F) + eta * j + F + (u * (A + (u * (A + F) + eta * j + F)) + eta)).
  { replace (val q2 - T * i / val s) with ((val q2 - val q1 / val s) + (val q1 / val s - T * i / val s)) by ring.
    eapply Rle_trans; [apply Rabs_triang|]. lra. }
  (* the offset *)
  destruct (div_err o (f32_of_N n) Fo Fn) as [F4 E4]; [rewrite Vn, W; lra|unfold B60; lra|].
  rewrite Vn in E4. set (q4 := f32_div o (f32_of_N n)) in *.
  set (B := Rabs (val o) * i).
  assert (AB : Rabs (val o / w) = B) by (unfold Rdiv; fold i; rewrite Rabs_mult, (Rabs_pos_eq i) by lra; reflexivity).
  rewrite AB in E4. pose proof (near_bound _ _ _ E4) as B4. rewrite AB in B4.
  assert (PB : 0 <= B) by (apply Rmult_le_pos; lra).
  assert (MB : B <= 2 ^ 40 * 1) by (apply Rmult_le_compat; lra).
  (* the sum *)
  assert (AT : Rabs (T * i / val s) = A) by (rewrite Js, T1; reflexivity).
  pose proof (near_bound _ _ _ E3) as B3. rewrite AT in B3.
  assert (MA : A <= 2 ^ 38 * 1048576) by (unfold A; apply Rmult_le_compat; lra).
  assert (MF : F <= 2 ^ 30 * 1048576) by (unfold F; apply Rmult_le_compat; lra).
  destruct (add_err q2 q4 F2 F4) as [F5 E5]; [unfold B60; lra|unfold B60; lra|].
  pose proof (two_sum _ _ _ _ _ _ _ E3 E4 E5) as E6. rewrite AT, AB in E6.
  split; [exact F5|].
  replace (coordinate T (val s) (val o) n) with (T * i / val s + val o / w) by (unfold coordinate; fold w; unfold Rdiv; fold i; ring).
  replace (E / S / w) with F by (unfold F, Rdiv; fold i j; ring).
  replace (Rabs T / S / w) with A by (unfold A, Rdiv; fold i j; ring).
  replace (Rabs (val o) / w) with B by (unfold B, Rdiv; fold i; ring).
  eapply Rle_trans; [exact E6|]. lra.
Qed.

Section WithPlatform.
Variable p : platform.
Notation O := (f32_num p).
Notation normal_of pl := (unit_along (facing (plane_of pl))).

(** A vertex and the meeting point its texture coordinates are computed from. *)
Lemma vertex_source : forall tx e planes plane f v size, build_face O tx e planes plane = Ok f ->
  (forall q, In q (plane :: planes) -> grid_plane q) -> (Z.of_nat (length planes) <= 4000)%Z -> In v (f_vertices f) ->
  hget tx (bp_texture plane) = Some size ->
  exists x t, fins x /\ below corner_bound (point_of x) /\ norm (point_of x) <= corner_bound
    /\ norm (minus (point_of (vt_pos v)) (point_of x)) <= 21 / 10 * u * norm (point_of (vt_pos v)) + 11 / 10 * u * norm (point_of (f_center f)) + 8 * eta
    /\ vertex_uv O x plane size = Ok t /\ vt_uv v = Some t.
Proof.
  intros tx e planes plane f v size E G L Hv Hs.
  destruct (corner_origin O (f32_eq_laws p) _ _ _ _ _ _ E Hv) as (p1 & p2 & x & LP & Ex & _ & _ & U).
  rewrite Hs in U. destruct U as (t & Et & Eu). exists x, t.
  destruct (face_points p tx e planes plane f E G L) as (Fc & Bc & _).
  destruct LP as (l1 & l2 & El & M & _). destruct M as (I1 & I2 & M & _).
  destruct (meet_size p plane p1 p2 x) as (_ & F & N); [apply G; now left|apply G; now right|apply G; now right|exact M|].
  assert (B : below corner_bound (point_of x)) by (destruct (coord_norm (point_of x)) as (? & ? & ?); unfold below; lra).
  destruct (there_and_back p x (f_center f) F Fc B Bc) as [_ D]. rewrite <- Ex in D.
  repeat split; try apply F; try apply B; assumption.
Qed.

Lemma coordinate_shift : forall T T' s o n D, sane_size n -> s <> 0 -> Rabs (T - T') <= D ->
  Rabs (coordinate T s o n - coordinate T' s o n) <= D / Rabs s / IZR (Z.of_N n).
Proof.
  intros T T' s o n D Hn Hs HD. destruct (size_val n Hn) as (_ & _ & Bn). unfold coordinate. set (w := IZR (Z.of_N n)) in *.
  replace ((T / s + o) / w - (T' / s + o) / w) with ((T - T') * / s * / w) by (unfold Rdiv; ring).
  rewrite !Rabs_mult, !Rabs_inv, (Rabs_pos_eq w) by lra. unfold Rdiv.
  assert (0 < Rabs s) by (apply Rabs_pos_lt; exact Hs).
  apply Rmult_le_compat_r; [apply Rlt_le, Rinv_0_lt_compat; lra|]. apply Rmult_le_compat_r; [apply Rlt_le, Rinv_0_lt_compat; lra|exact HD].
Qed.

(** Dividing a sum of errors *)
Lemma quotient_mono : forall a b s n, a <= b -> 0 < s -> 0 < n -> a / s / n <= b / s / n.
Proof.
  intros a b s n H S N. unfold Rdiv. apply Rmult_le_compat_r; [apply Rlt_le, Rinv_0_lt_compat; exact N|].
  apply Rmult_le_compat_r; [apply Rlt_le, Rinv_0_lt_compat; exact S|exact H].
Qed.

(** Putting the parts together: [X] the texel bound in terms of the vertex *)
Lemma collect : forall q T T' s o n E D X k, sane_scale s -> sane_size n -> 0 <= k -> 0 <= X ->
  Rabs (val q - coordinate T (val s) (val o) n) <=
    101 / 100 * (E / Rabs (val s) / IZR (Z.of_N n)) + 301 / 100 * u * (Rabs T / Rabs (val s) / IZR (Z.of_N n)) + 201 / 100 * u * (Rabs (val o) / IZR (Z.of_N n)) + / 10 ^ 35 ->
  Rabs (T - T') <= D -> 101 / 100 * E + D + 301 / 100 * u * Rabs T <= k * X + / 10 ^ 38 -> / 2 ^ 22 <= k ->
  Rabs (val q - coordinate T' (val s) (val o) n) <= k * ((X / Rabs (val s) + Rabs (val o)) / IZR (Z.of_N n)) + / 10 ^ 30.
Proof.
  intros q T T' s o n E D X k (_ & Bs) Hn Hk HX H HD HS K. destruct (size_val n Hn) as (_ & _ & Bn). set (w := IZR (Z.of_N n)) in *.
  set (S := Rabs (val s)) in *. assert (P : 0 < / 2 ^ 20) by (apply Rinv_0_lt_compat; lra).
  assert (NZ : val s <> 0) by (intros e; unfold S in Bs; rewrite e, Rabs_R0 in Bs; lra).
  pose proof (coordinate_shift T T' (val s) (val o) n D Hn NZ HD) as HC. fold w S in HC.
  replace (val q - coordinate T' (val s) (val o) n) with ((val q - coordinate T (val s) (val o) n) + (coordinate T (val s) (val o) n - coordinate T' (val s) (val o) n)) by ring.
  eapply Rle_trans; [apply Rabs_triang|].
  pose proof (quotient_mono _ _ S w HS ltac:(lra) ltac:(lra)) as Q.
  replace ((101 / 100 * E + D + 301 / 100 * u * Rabs T) / S / w) with (101 / 100 * (E / S / w) + D / S / w + 301 / 100 * u * (Rabs T / S / w)) in Q by (field; lra).
  replace ((k * X + / 10 ^ 38) / S / w) with (k * (X / S / w) + / 10 ^ 38 / S / w) in Q by (field; lra).
  replace (k * ((X / S + Rabs (val o)) / w)) with (k * (X / S / w) + k * (Rabs (val o) / w)) by (field; lra).
  assert (Is : 0 < / S <= 1048576).
  { split; [apply Rinv_0_lt_compat; lra|]. replace 1048576 with (/ / 2 ^ 20) by (rewrite Rinv_inv; lra). apply Rinv_le_contravar; lra. }
  assert (Iw : 0 < / w <= 1) by (split; [apply Rinv_0_lt_compat; lra|rewrite <- Rinv_1; apply Rinv_le_contravar; lra]).
  assert (T38 : / 10 ^ 38 / S / w <= / 10 ^ 38 * 1048576 * 1).
  { unfold Rdiv. apply Rmult_le_compat; lra. }
  assert (PO : 0 <= Rabs (val o) / w) by (apply Rmult_le_pos; [apply Rabs_pos|lra]).
  assert (KO : 201 / 100 * u * (Rabs (val o) / w) <= k * (Rabs (val o) / w)) by (apply Rmult_le_compat_r; lra).
  lra.
Qed.

Theorem valve_accurate : forall tx e planes plane f v size ua uo va vo, build_face O tx e planes plane = Ok f ->
  (forall q, In q (plane :: planes) -> grid_plane q) -> (Z.of_nat (length planes) <= 4000)%Z -> In v (f_vertices f) ->
  hget tx (bp_texture plane) = Some size -> bp_uv plane = UVValve ua uo va vo ->
  sane_axis ua -> sane_axis va -> sane_offset uo -> sane_offset vo -> sane_scale (ux (bp_scale plane)) -> sane_scale (uy (bp_scale plane)) ->
  sane_size (fst size) -> sane_size (snd size) ->
  let x := point_of (vt_pos v) in
  let reach := norm x + norm (point_of (f_center f)) in
  exists t, vt_uv v = Some t /\ finite (ux t) /\ finite (uy t)
    /\ Rabs (val (ux t) - coordinate (inner (point_of ua) x) (val (ux (bp_scale plane))) (val uo) (fst size))
       <= coordinate_error (/ 2 ^ 20) (norm (point_of ua) * reach) (val (ux (bp_scale plane))) (val uo) (fst size)
    /\ Rabs (val (uy t) - coordinate (inner (point_of va) x) (val (uy (bp_scale plane))) (val vo) (snd size))
       <= coordinate_error (/ 2 ^ 20) (norm (point_of va) * reach) (val (uy (bp_scale plane))) (val vo) (snd size).
Proof.
  intros tx e planes plane f v size ua uo va vo E G L Hv Hs Huv Ha Hb Ho Hp Sx Sy N1 N2. cbn zeta.
  destruct (vertex_source tx e planes plane f v size E G L Hv Hs) as (x & t & Fx & Bx & Nx & Dx & Et & Eu).
  exists t. split; [exact Eu|]. unfold vertex_uv in Et. rewrite Huv in Et. injection Et as <-.
  unfold v2_add, v2_div, texture_size. cbn [ux uy n_add n_div n_of_N f32_num].
  set (X := norm (point_of (vt_pos v))) in *. set (C := norm (point_of (f_center f))) in *.
  pose proof (norm_pos (point_of (vt_pos v))) as PX. fold X in PX. pose proof (norm_pos (point_of (f_center f))) as PC. fold C in PC.
  pose proof eta_small as He.
  assert (one : forall a s o n, sane_axis a -> sane_offset o -> sane_scale s -> sane_size n ->
    let q := f32_add (f32_div (f32_div (v3_dot O a x) (f32_of_N n)) s) (f32_div o (f32_of_N n)) in
    fin q /\ Rabs (val q - coordinate (inner (point_of a) (point_of (vt_pos v))) (val s) (val o) n)
      <= coordinate_error (/ 2 ^ 20) (norm (point_of a) * (X + C)) (val s) (val o) n).
  { intros a s o n (Fa & Ba) Ho' Hs' Hn'. cbn zeta. apply finite_fins in Fa.
    assert (Na : norm (point_of a) <= 7).
    { replace 7 with (7 / 4 * 4) by lra. destruct Ba as (? & ? & ?). apply norm_cube; assumption. }
    pose proof (norm_pos (point_of a)) as Pa. pose proof (norm_pos (point_of x)) as Px.
    destruct (dot_err p a x Fa Fx) as [Fd Ed]; [exact Ba|apply (below_weaken corner_bound); [unfold corner_bound, B50; lra|exact Bx]|].
    set (A := norm (point_of a)) in *. set (Y := norm (point_of x)) in *.
    assert (AY : A * Y <= 7 * 8589934592) by (apply Rmult_le_compat; try lra; exact Nx).
    assert (AYp : 0 <= A * Y) by (apply Rmult_le_pos; lra).
    pose proof (abs_inner (point_of a) (point_of x)) as AI. fold A Y in AI.
    destruct (coord_err (v3_dot O a x) s o n _ _ Fd Hs' Ho' Hn' Ed) as [Fq Eq]; [lra|lra|]. split; [exact Fq|].
    unfold coordinate_error.
    assert (HD : Rabs (inner (point_of a) (point_of x) - inner (point_of a) (point_of (vt_pos v))) <= A * (21 / 10 * u * X + 11 / 10 * u * C + 8 * eta)).
    { rewrite <- inner_minus_r. eapply Rle_trans; [apply abs_inner|]. fold A. apply Rmult_le_compat_l; [exact Pa|].
      replace (norm (minus (point_of x) (point_of (vt_pos v)))) with (norm (minus (point_of (vt_pos v)) (point_of x)));
        [exact Dx|]. unfold norm, minus, inner. cbn [vx vy vz]. f_equal. ring. }
    apply (collect _ _ _ s o n _ _ (A * (X + C)) (/ 2 ^ 20) Hs' Hn' ltac:(lra) ltac:(apply Rmult_le_pos; lra) Eq HD); [|lra].
    assert (YX : Y <= X + (21 / 10 * u * X + 11 / 10 * u * C + 8 * eta)).
    { unfold X, Y. eapply Rle_trans; [apply (minus_norm _ (point_of (vt_pos v)))|].
      replace (norm (minus (point_of x) (point_of (vt_pos v)))) with (norm (minus (point_of (vt_pos v)) (point_of x)));
        [fold X; lra|]. unfold norm, minus, inner. cbn [vx vy vz]. f_equal. ring. }
    assert (AYX : A * Y <= A * (X + (21 / 10 * u * X + 11 / 10 * u * C + 8 * eta))) by (apply Rmult_le_compat_l; lra).
    assert (AX : 0 <= A * X) by (apply Rmult_le_pos; lra). assert (AC : 0 <= A * C) by (apply Rmult_le_pos; lra).
    assert (AE : A * eta <= 7 * eta) by (apply Rmult_le_compat_r; lra). assert (AE0 : 0 <= A * eta) by (apply Rmult_le_pos; lra).
    rewrite !Rmult_plus_distr_l in *. rewrite <- !Rmult_assoc in *.
    replace (A * 21) with (21 * A) in * by ring.
    lra. }
  destruct (one ua _ _ _ Ha Ho Sx N1) as [Q1 R1]. destruct (one va _ _ _ Hb Hp Sy N2) as [Q2 R2].
  split; [apply fin_finite; exact Q1|]. split; [apply fin_finite; exact Q2|]. split; assumption.
Qed.
End WithPlatform.
