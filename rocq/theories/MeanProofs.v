(** Rounding errors of centres (C104). *)
From Coq Require Import Reals Lra Lia ZArith Permutation.
From Flocq Require Import Core BinarySingleNaN.
From Verif Require Import Prelude F32 Text MapModel GeoModel GatherSpec GeoSpec GeoProofs GeoFinal NumberSpec BaseProofs FloatProofs NumberProofs ColorProofs ExactProofs RealSpec ArithProofs ErrorSpec ErrorProofs ErrorFinal UvSpec UvProofs PointsFinal MeanSpec.
Local Open Scope R_scope.

Definition part (f : vec3 R -> R) (l : list (vec3 R)) : R := fold_right Rplus 0 (map f l).
Definition parts (f : vec3 R -> R) (l : list (vec3 R)) : R := fold_right Rplus 0 (map (fun x => Rabs (f x)) l).
Lemma parts_pos : forall f l, 0 <= parts f l.
Proof. intros f l. unfold parts. induction l as [|x l IH]; cbn; [lra|]. pose proof (Rabs_pos (f x)). lra. Qed.
Lemma part_abs : forall f l, Rabs (part f l) <= parts f l.
Proof. intros f l. unfold part, parts. induction l as [|x l IH]; cbn; [rewrite Rabs_R0; lra|]. eapply Rle_trans; [apply Rabs_triang|]. lra. Qed.

(** ** The growth of the error of a sum *)
Lemma growth : forall k, INR k * u <= 1 -> (1 + u) ^ k <= 1 + INR k * u + INR k * u * (INR k * u).
Proof.
  induction k as [|k IH]; intros H; [cbn; lra|]. rewrite S_INR in *. pose proof (pos_INR k). cbn [pow].
  specialize (IH ltac:(lra)). set (t := INR k * u) in *. assert (T0 : 0 <= t) by (unfold t; lra). replace ((INR k + 1) * u) with (t + u) in * by (unfold t; ring).
  assert (T1 : t * t <= t * 1) by (apply Rmult_le_compat_l; lra).
  apply Rle_trans with ((1 + u) * (1 + t + t * t)); [apply Rmult_le_compat_l; lra|]. nra.
Qed.
Lemma growth_two : forall k, (Z.of_nat k < 2 ^ 24)%Z -> (1 + u) ^ k - 1 <= 2 * (INR k * u).
Proof.
  intros k K. assert (H : INR k * u <= 1).
  { rewrite INR_IZR_INZ. assert (IZR (Z.of_nat k) <= IZR (2 ^ 24)) by (apply IZR_le; lia). change (IZR (2 ^ 24)) with 16777216 in *. lra. }
  pose proof (growth k H). pose proof (pos_INR k). set (t := INR k * u) in *. assert (0 <= t) by (unfold t; lra).
  assert (t * t <= t * 1) by (apply Rmult_le_compat_l; lra). lra.
Qed.
Lemma power_up : forall k, 1 <= (1 + u) ^ k.
Proof. intros k. apply pow_R1_Rle. lra. Qed.

Section WithPlatform.
Variable p : platform.
Notation O := (f32_num p).

(** One coordinate of a sum: [P] what is summed so far, [A] bounds the sizes of all terms. *)
Lemma sum_part : forall f g, (forall v, f (point_of v) = val (g v)) -> (forall v, fins v -> fin (g v)) -> (forall k v, below k (point_of v) -> Rabs (val (g v)) <= k) ->
  (forall a b, g (v3_add O a b) = f32_add (g a) (g b)) ->
  forall s l r, sum_from O s l r -> forall k P Q A, (0 <= k)%Z -> (k + Z.of_nat (length l) < 2 ^ 24)%Z -> fins s -> below (multiple k) (point_of s) ->
  (forall x, In x l -> fins x /\ below corner_bound (point_of x)) ->
  Rabs P <= Q -> Q + parts f (map point_of l) <= A ->
  Rabs (val (g s) - P) <= ((1 + u) ^ Z.to_nat k - 1) * (A + eta / u) ->
  Rabs (val (g r) - (P + part f (map point_of l))) <= ((1 + u) ^ (Z.to_nat k + length l) - 1) * (A + eta / u).
Proof.
  intros f g Hf Hg Hb Ha s l r H. induction H as [s|s x l r H IH]; intros k P Q A K0 K F B AL HP HA HE.
  - cbn [length map]. unfold part. cbn [map fold_right]. rewrite Nat.add_0_r, Rplus_0_r. exact HE.
  - cbn [length map] in *. rewrite Nat2Z.inj_succ in *. unfold part, parts in *. cbn [map fold_right] in *. fold (part f (map point_of l)) in *. fold (parts f (map point_of l)) in *.
    destruct (AL x (or_introl eq_refl)) as (Fx & Bx). pose proof (parts_pos f (map point_of l)) as PP. pose proof eta_small as HS.
    destruct (sum_bound p s [x] (v3_add O s x)) with (k := k) as [F' B']; [repeat constructor|exact K0|cbn; lia|exact F|exact B|intros y [<-|[]]; split; assumption|].
    cbn [length] in B'. change (Z.of_nat 1) with 1%Z in B'.
    replace (P + (f (point_of x) + part f (map point_of l))) with ((P + f (point_of x)) + part f (map point_of l)) by ring.
    replace (Z.to_nat k + S (length l))%nat with (Z.to_nat (k + 1) + length l)%nat by lia.
    apply IH with (Q + Rabs (f (point_of x))); [lia|lia|exact F'|exact B'|intros y Hy; apply AL; now right|eapply Rle_trans; [apply Rabs_triang|lra]|lra|].
    rewrite Ha. rewrite Hf in *.
    pose proof (multiple_big k ltac:(lia)) as MB. pose proof (Hb _ _ B) as B1. pose proof (Hb _ _ Bx) as B2. unfold corner_bound in B2.
    destruct (add_err (g s) (g x) (Hg _ F) (Hg _ Fx)) as [_ E]; [unfold B60; lra|unfold B60; lra|].
    set (e := ((1 + u) ^ Z.to_nat k - 1) * (A + eta / u)) in *.
    assert (E1 : Rabs (val (g s) + val (g x) - (P + val (g x))) <= e) by (replace (val (g s) + val (g x) - (P + val (g x))) with (val (g s) - P) by ring; exact HE).
    pose proof (near_bound _ _ _ E1) as N1.
    assert (N2 : Rabs (P + val (g x)) <= A) by (eapply Rle_trans; [apply Rabs_triang|]; lra).
    replace (val (f32_add (g s) (g x)) - (P + val (g x))) with ((val (f32_add (g s) (g x)) - (val (g s) + val (g x))) + (val (g s) + val (g x) - (P + val (g x)))) by ring.
    eapply Rle_trans; [apply Rabs_triang|].
    replace (Z.to_nat (k + 1)) with (S (Z.to_nat k)) by lia. cbn [pow].
    replace (((1 + u) * (1 + u) ^ Z.to_nat k - 1) * (A + eta / u)) with ((1 + u) * e + u * A + eta); [lra|]. unfold e. field.
Qed.

Lemma mean_part : forall f g, (forall v, f (point_of v) = val (g v)) -> (forall v, fins v -> fin (g v)) -> (forall k v, below k (point_of v) -> Rabs (val (g v)) <= k) ->
  (forall a b, g (v3_add O a b) = f32_add (g a) (g b)) -> g (V3 (n_zero O) (n_zero O) (n_zero O)) = f32_zero -> (forall a b, g (v3_divs O a b) = f32_div (g a) b) ->
  forall l c, is_mean O l c -> l <> [] -> (Z.of_nat (length l) < 2 ^ 24)%Z -> (forall x, In x l -> fins x /\ below corner_bound (point_of x)) ->
  Rabs (val (g c) - part f (map point_of l) / INR (length l)) <= (2 * INR (length l) + 3) * u * (parts f (map point_of l) / INR (length l)) + 6 * eta.
Proof.
  intros f g Hf Hg Hb Ha Hz Hd l c (s & S & Ec) Ne L AL. pose proof eta_small as HE.
  assert (Z0 : fin f32_zero /\ val f32_zero = 0) by (split; [apply fin_zero|apply val_zero]).
  assert (FZ : fins (V3 (n_zero O) (n_zero O) (n_zero O))) by (split; [|split]; apply Z0).
  assert (BZ : below (multiple 0) (point_of (V3 (n_zero O) (n_zero O) (n_zero O)))).
  { unfold below. cbn [point_of vx vy vz n_zero f32_num]. destruct Z0 as [_ ->]. unfold multiple. rewrite Rabs_R0. lra. }
  set (A := parts f (map point_of l)). pose proof (parts_pos f (map point_of l)) as A0. fold A in A0.
  destruct (sum_bound p _ _ _ S 0%Z ltac:(lia) ltac:(lia) FZ BZ AL) as [Fs Bs].
  pose proof (sum_part f g Hf Hg Hb Ha _ _ _ S 0%Z 0 0 A ltac:(lia) ltac:(lia) FZ BZ AL ltac:(rewrite Rabs_R0; lra) ltac:(unfold A; lra)) as E.
  rewrite Hz in E. destruct Z0 as [_ ->] in E. specialize (E ltac:(rewrite Rminus_0_r, Rabs_R0; cbn [Z.to_nat pow]; lra)).
  change (Z.to_nat 0 + length l)%nat with (length l) in E. rewrite Rplus_0_l in E. set (T := part f (map point_of l)) in *.
  assert (Len : (1 <= length l)%nat) by (destruct l; [congruence|cbn; lia]).
  replace (Nat.max (length l) 1) with (length l) in Ec by lia.
  assert (I : int (f32_of_N (N.of_nat (length l))) (Z.of_nat (length l))) by (rewrite <- nat_N_Z; apply int_of_N; lia).
  destruct I as [Fn Vn]. set (K := INR (length l)) in *. assert (KV : IZR (Z.of_nat (length l)) = K) by (unfold K; now rewrite INR_IZR_INZ). rewrite KV in Vn.
  assert (K1 : 1 <= K) by (rewrite <- KV; apply (IZR_le 1); lia).
  assert (K2 : K * u <= 1). { rewrite <- KV. assert (IZR (Z.of_nat (length l)) <= IZR (2 ^ 24)) by (apply IZR_le; lia). change (IZR (2 ^ 24)) with 16777216 in *. lra. }
  assert (E2 : Rabs (val (g s) - T) <= 2 * K * u * A + 2 * K * eta).
  { eapply Rle_trans; [exact E|]. apply Rle_trans with (2 * (K * u) * (A + eta / u)).
    - apply Rmult_le_compat_r; [|apply growth_two; lia]. apply Rplus_le_le_0_compat; [exact A0|]. unfold Rdiv. apply Rmult_le_pos; lra.
    - right. field. }
  rewrite Z.add_0_l in Bs. pose proof (Hb _ _ Bs) as Bg. pose proof (multiple_big (Z.of_nat (length l)) ltac:(lia)) as MB.
  assert (Y : / 2 ^ 20 <= Rabs (val (f32_of_N (N.of_nat (length l))))).
  { rewrite Vn, Rabs_pos_eq by lra. replace (2 ^ 20) with 1048576 by ring. lra. }
  destruct (div_err (g s) _ (Hg _ Fs) Fn Y ltac:(unfold B60; lra)) as [_ Ed]. rewrite Vn in Ed.
  assert (KI : 0 < / K) by (apply Rinv_0_lt_compat; lra). assert (KM : K * / K = 1) by (apply Rinv_r; lra).
  assert (TA : Rabs T <= A) by apply part_abs.
  assert (E3 : Rabs (val (g s) / K - T / K) <= 2 * u * A + 2 * eta).
  { replace (val (g s) / K - T / K) with ((val (g s) - T) * / K) by (unfold Rdiv; ring). rewrite Rabs_mult, (Rabs_pos_eq (/ K)) by lra.
    apply Rle_trans with ((2 * K * u * A + 2 * K * eta) * / K); [apply Rmult_le_compat_r; lra|]. right. replace ((2 * K * u * A + 2 * K * eta) * / K) with ((2 * u * A + 2 * eta) * (K * / K)) by ring. rewrite KM. ring. }
  assert (E4 : Rabs (T / K) <= A / K) by (unfold Rdiv; rewrite Rabs_mult, (Rabs_pos_eq (/ K)) by lra; apply Rmult_le_compat_r; lra).
  pose proof (near_bound _ _ _ E3) as N3.
  assert (AK : A = K * (A / K)) by (field; lra). assert (Q0 : 0 <= A / K) by (unfold Rdiv; apply Rmult_le_pos; lra).
  rewrite Ec, Hd. cbn [n_of_N f32_num]. set (q := A / K) in *.
  replace (val (f32_div (g s) (f32_of_N (N.of_nat (length l)))) - T / K) with ((val (f32_div (g s) (f32_of_N (N.of_nat (length l)))) - val (g s) / K) + (val (g s) / K - T / K)) by ring.
  eapply Rle_trans; [apply Rabs_triang|].
  assert (Kq : 0 <= K * q) by (apply Rmult_le_pos; lra). assert (Kuq : K * u * q <= 1 * q) by (apply Rmult_le_compat_r; lra).
  rewrite AK in E3, N3. lra.
Qed.

Lemma parts_norm : forall l m, (forall x, In x l -> norm x <= m) -> norm (V3 (parts vx l) (parts vy l) (parts vz l)) <= INR (length l) * m.
Proof.
  induction l as [|x l IH]; intros m H.
  - unfold parts. cbn. unfold norm, inner. cbn [vx vy vz]. rewrite Rmult_0_l, !Rplus_0_r, sqrt_0. lra.
  - cbn [length]. rewrite S_INR. pose proof (H x (or_introl eq_refl)) as Hx. pose proof (IH m (fun y Hy => H y (or_intror Hy))) as Hl.
    change (V3 (parts vx (x :: l)) (parts vy (x :: l)) (parts vz (x :: l))) with (vplus (vabs x) (V3 (parts vx l) (parts vy l) (parts vz l))).
    eapply Rle_trans; [apply norm_triangle|]. rewrite norm_vabs. lra.
Qed.

Theorem mean_accurate : forall l c m, is_mean O l c -> l <> [] -> (Z.of_nat (length l) < 2 ^ 24)%Z ->
  (forall x, In x l -> fins x /\ below corner_bound (point_of x)) -> (forall x, In x l -> norm (point_of x) <= m) ->
  norm (minus (point_of c) (average (map point_of l))) <= (2 * INR (length l) + 3) * u * m + 11 * eta.
Proof.
  intros l c m M Ne L AL Bm. set (K := INR (length l)).
  assert (K1 : 1 <= K) by (unfold K; rewrite INR_IZR_INZ; apply (IZR_le 1); destruct l; [congruence|cbn [length]; lia]).
  assert (Hx := mean_part vx vx (fun _ => eq_refl) (fun v F => proj1 F) (fun k v B => proj1 B) (fun _ _ => eq_refl) eq_refl (fun _ _ => eq_refl) l c M Ne L AL).
  assert (Hy := mean_part vy vy (fun _ => eq_refl) (fun v F => proj1 (proj2 F)) (fun k v B => proj1 (proj2 B)) (fun _ _ => eq_refl) eq_refl (fun _ _ => eq_refl) l c M Ne L AL).
  assert (Hz := mean_part vz vz (fun _ => eq_refl) (fun v F => proj2 (proj2 F)) (fun k v B => proj2 (proj2 B)) (fun _ _ => eq_refl) eq_refl (fun _ _ => eq_refl) l c M Ne L AL).
  fold K in Hx, Hy, Hz. set (ps := map point_of l) in *.
  assert (LK : INR (length ps) = K) by (unfold ps, K; now rewrite map_length).
  pose proof (parts_norm ps m) as PN. rewrite LK in PN.
  specialize (PN ltac:(intros x Hx'; unfold ps in Hx'; apply in_map_iff in Hx'; destruct Hx' as (y & <- & Iy); now apply Bm)).
  assert (KI : 0 < / K) by (apply Rinv_0_lt_compat; lra).
  pose proof (norm_combine (minus (point_of c) (average ps)) (vscale (/ K) (V3 (parts vx ps) (parts vy ps) (parts vz ps))) (V3 0 0 0) ((2 * K + 3) * u) 0 (6 * eta)) as C.
  pose proof eta_small as HE. specialize (C ltac:(lra) ltac:(lra) ltac:(lra)).
  unfold average, minus, vscale in C. cbn [vx vy vz] in C. rewrite Rabs_R0 in C. fold (part vx ps) (part vy ps) (part vz ps) in C.
  rewrite LK in C.
  assert (G : forall f, Rabs (/ K * parts f ps) = parts f ps / K).
  { intros f. rewrite Rabs_pos_eq; [unfold Rdiv; ring|]. apply Rmult_le_pos; [lra|apply parts_pos]. }
  rewrite !G in C. cbn [point_of vx vy vz] in C. specialize (C ltac:(lra) ltac:(lra) ltac:(lra)).
  change (norm (V3 (/ K * parts vx ps) (/ K * parts vy ps) (/ K * parts vz ps))) with (norm (vscale (/ K) (V3 (parts vx ps) (parts vy ps) (parts vz ps)))) in C.
  rewrite norm_scale, (Rabs_pos_eq (/ K)) in C by lra.
  assert (Q : / K * norm (V3 (parts vx ps) (parts vy ps) (parts vz ps)) <= m).
  { apply Rle_trans with (/ K * (K * m)); [apply Rmult_le_compat_l; lra|]. right. field. lra. }
  unfold average, minus. cbn [vx vy vz]. fold (part vx ps) (part vy ps) (part vz ps). rewrite LK. cbn [point_of vx vy vz].
  eapply Rle_trans; [exact C|].
  assert ((2 * K + 3) * u * (/ K * norm (V3 (parts vx ps) (parts vy ps) (parts vz ps))) <= (2 * K + 3) * u * m) by (apply Rmult_le_compat_l; lra). lra.
Qed.

Lemma average_perm : forall l l', Permutation l l' -> average l = average l'.
Proof.
  intros l l' P. assert (H : forall f, fold_right Rplus 0 (map f l) = fold_right Rplus 0 (map f l')) by (intros f; induction P; cbn; lra).
  unfold average. now rewrite !H, (Permutation_length P).
Qed.
Lemma average_close : forall l l' e, Forall2 (fun a b => norm (minus a b) <= e) l l' -> l <> [] -> norm (minus (average l) (average l')) <= e.
Proof.
  intros l l' e F Ne.
  assert (S : norm (V3 (part vx l - part vx l') (part vy l - part vy l') (part vz l - part vz l')) <= INR (length l) * e /\ length l = length l').
  { clear Ne. induction F as [|a b l l' H F [IH EL]].
    - split; [|reflexivity]. unfold part. cbn. unfold norm, inner. cbn [vx vy vz]. rewrite Rminus_0_r, Rmult_0_l, !Rplus_0_r, sqrt_0. lra.
    - split; [|cbn; congruence]. cbn [length]. rewrite S_INR.
      replace (V3 (part vx (a :: l) - part vx (b :: l')) (part vy (a :: l) - part vy (b :: l')) (part vz (a :: l) - part vz (b :: l')))
        with (vplus (minus a b) (V3 (part vx l - part vx l') (part vy l - part vy l') (part vz l - part vz l'))) by (unfold vplus, minus, part; cbn; f_equal; ring).
      eapply Rle_trans; [apply norm_triangle|]. lra. }
  destruct S as [S EL]. assert (K : 1 <= INR (length l)) by (rewrite INR_IZR_INZ; apply (IZR_le 1); destruct l; [congruence|cbn [length]; lia]).
  replace (minus (average l) (average l')) with (vscale (/ INR (length l)) (V3 (part vx l - part vx l') (part vy l - part vy l') (part vz l - part vz l'))).
  - assert (KI : 0 < / INR (length l)) by (apply Rinv_0_lt_compat; lra). rewrite norm_scale, Rabs_pos_eq by lra.
    apply Rle_trans with (/ INR (length l) * (INR (length l) * e)); [apply Rmult_le_compat_l; lra|]. right. field. lra.
  - unfold average, minus, vscale. rewrite <- EL. cbn [vx vy vz]. fold (part vx l) (part vy l) (part vz l) (part vx l') (part vy l') (part vz l'). f_equal; field; lra.
Qed.

Theorem face_centre_accurate : forall tx e planes plane f m, build_face O tx e planes plane = Ok f -> (forall q, In q (plane :: planes) -> grid_plane q) ->
  (Z.of_nat (length planes) <= 4000)%Z -> f_vertices f <> [] -> (forall v, In v (f_vertices f) -> norm (point_of (vt_pos v)) <= m) ->
  finite_point (f_center f)
  /\ norm (minus (point_of (f_center f)) (average (map (fun v => point_of (vt_pos v)) (f_vertices f)))) <= drift (length (f_vertices f)) m.
Proof.
  intros tx e planes plane f m E G L Ne Bm. destruct (face_points p tx e planes plane f E G L) as (Fc & Bc & _).
  split; [now apply finite_fins|].
  destruct (corners_c15 p tx e planes plane f E) as (raw & centred & sorted & CS & M & F1 & P & F2).
  pose proof (raw_length p planes plane raw G CS) as RL. destruct CS as (A & _).
  pose proof (centre_size p tx e planes plane f m E G L Ne Bm) as Cs.
  assert (AL : forall x, In x (map vt_pos raw) -> fins x /\ below corner_bound (point_of x)).
  { intros x Hx. apply in_map_iff in Hx. destruct Hx as (v & <- & Hv). apply (meeting_fins p planes plane); auto. }
  assert (N1 : length raw = length (f_vertices f)) by (apply Forall2_length in F1; apply Forall2_length in F2; apply Permutation_length in P; congruence).
  pose proof eta_small as HE.
  assert (M0 : 0 <= m) by (destruct (f_vertices f) as [|v vs]; [congruence|]; eapply Rle_trans; [apply norm_pos|apply (Bm v); now left]).
  (* raw corners against vertices *)
  assert (Cl : exists raw', Permutation raw raw' /\ Forall2 (fun r v => vt_pos v = back p f (vt_pos r)) raw' (f_vertices f)).
  { assert (F1' : Forall2 (fun s r => vt_pos s = v3_sub O (vt_pos r) (f_center f)) centred raw).
    { clear -F1. induction F1 as [|x y l l' (D & _) F IH]; constructor; assumption. }
    destruct (Permutation_Forall2 P F1') as (raw' & PR & F3). exists raw'. split; [exact PR|]. clear -F2 F3. revert raw' F3.
    induction F2 as [|s v sorted vs (D & _) F2 IH]; intros raw' F3; inversion F3; subst; constructor; [|now apply IH]. rewrite D. match goal with H : vt_pos s = _ |- _ => rewrite H end. reflexivity. }
  destruct Cl as (raw' & PR & F3).
  assert (AL' : forall r, In r raw' -> fins (vt_pos r) /\ below corner_bound (point_of (vt_pos r))).
  { intros r Hr. apply AL. apply in_map. apply (Permutation_in _ (Permutation_sym PR)). exact Hr. }
  assert (Dv : Forall2 (fun a b => norm (minus a b) <= 62 / 10 * u * m + 100 * eta) (map (fun r => point_of (vt_pos r)) raw') (map (fun v => point_of (vt_pos v)) (f_vertices f))).
  { clear -F3 Bm AL' Fc Bc Cs HE M0. induction F3 as [|r v raw' vs D F IH]; [constructor|]. cbn [map]. constructor.
    - destruct (AL' r (or_introl eq_refl)) as [Fr Br]. destruct (there_and_back p (vt_pos r) (f_center f) Fr Fc Br Bc) as [_ Eb].
      fold (back p f (vt_pos r)) in Eb. rewrite <- D in Eb. pose proof (Bm v (or_introl eq_refl)).
      replace (norm (minus (point_of (vt_pos r)) (point_of (vt_pos v)))) with (norm (minus (point_of (vt_pos v)) (point_of (vt_pos r)))); [lra|].
      unfold norm, inner, minus. cbn [vx vy vz]. f_equal. ring.
    - apply IH; [intros w Hw; apply Bm; now right|intros w Hw; apply AL'; now right]. }
  assert (Nr : raw' <> []) by (intros ->; apply Permutation_sym, Permutation_nil in PR; subst raw; destruct (f_vertices f); [congruence|discriminate]).
  assert (A1 := average_close _ _ _ Dv ltac:(destruct raw'; [congruence|discriminate])).
  assert (A2 : average (map (fun r => point_of (vt_pos r)) raw') = average (map point_of (map vt_pos raw))).
  { rewrite map_map. apply average_perm. apply Permutation_map. now apply Permutation_sym. }
  rewrite A2 in A1.
  assert (Br : forall x, In x (map vt_pos raw) -> norm (point_of x) <= m + (62 / 10 * u * m + 100 * eta)).
  { intros x Hx. apply in_map_iff in Hx. destruct Hx as (r & <- & Hr). apply (Permutation_in _ PR) in Hr.
    destruct (Forall2_left _ _ _ _ Dv (in_map (fun r => point_of (vt_pos r)) _ _ Hr)) as (y & Hy & D). apply in_map_iff in Hy. destruct Hy as (v & <- & Hv).
    pose proof (minus_norm (point_of (vt_pos r)) (point_of (vt_pos v))). pose proof (Bm v Hv). cbv beta in D. lra. }
  pose proof (mean_accurate (map vt_pos raw) (f_center f) _ M ltac:(destruct raw; [apply Permutation_nil in PR; congruence|discriminate]) ltac:(rewrite map_length; nia) AL Br) as A3.
  rewrite map_length, N1 in A3.
  pose proof (minus_triangle (point_of (f_center f)) (average (map point_of (map vt_pos raw))) (average (map (fun v => point_of (vt_pos v)) (f_vertices f)))) as T.
  unfold drift. replace (2 ^ 23) with 8388608 by ring. replace (10 ^ 30) with 1000000000000000000000000000000 by ring.
  set (K := INR (length (f_vertices f))) in *. assert (K0 : 0 <= K <= 16777216).
  { unfold K. split; [apply pos_INR|]. rewrite INR_IZR_INZ. apply (IZR_le _ 16777216). rewrite <- N1. nia. }
  assert (Ku : 0 <= K * u * m <= 1 * m) by (split; [apply Rmult_le_pos; lra|apply Rmult_le_compat_r; lra]).
  assert (Ke : 0 <= K * u * eta <= 1 * eta) by (split; [apply Rmult_le_pos; lra|apply Rmult_le_compat_r; lra]).
  lra.
Qed.

Theorem brush_centre_accurate : forall tx e b g m, build_brush O tx e b = Ok g -> (forall q, In q b -> grid_plane q) -> b <> [] -> (Z.of_nat (length b) <= 4000)%Z ->
  (forall f, In f (bg_faces g) -> norm (point_of (f_center f)) <= m) ->
  finite_point (bg_center g) /\ below corner_bound (point_of (bg_center g))
  /\ norm (minus (point_of (bg_center g)) (average (map (fun f => point_of (f_center f)) (bg_faces g)))) <= drift (length b) m.
Proof.
  intros tx e b g m E G Ne L Bm. unfold build_brush in E. apply bind_ok in E. destruct E as (fs & Ef & E). injection E as <-. cbn [bg_faces bg_center] in *.
  apply mapM_ok in Ef. assert (Len : length b = length fs) by (clear -Ef; induction Ef; cbn; congruence).
  assert (AL : forall x, In x (map f_center fs) -> fins x /\ below corner_bound (point_of x)).
  { intros x Hx. apply in_map_iff in Hx. destruct Hx as (f & <- & Hf). destruct (Forall2_right _ _ _ _ Ef Hf) as (q & Hq & E).
    destruct (face_points p tx e b q f E) as (F & B & _); [intros q' [<-|I]; now apply G|exact L|]. split; assumption. }
  assert (M : is_mean O (map f_center fs) (GeoModel.mean O (map f_center fs))) by apply mean_is.
  destruct (mean_bound p _ _ M) as [Fc Bc]; [rewrite map_length; lia|exact AL|]. split; [now apply finite_fins|]. split; [exact Bc|].
  pose proof (mean_accurate _ _ m M ltac:(destruct fs; [destruct b; [congruence|discriminate]|discriminate]) ltac:(rewrite map_length; lia) AL) as A.
  specialize (A ltac:(intros x Hx; apply in_map_iff in Hx; destruct Hx as (f & <- & Hf); now apply Bm)). rewrite map_map, map_length, <- Len in A.
  eapply Rle_trans; [exact A|]. unfold drift. pose proof eta_small. assert (M0 : 0 <= m).
  { destruct fs as [|f fs]; [destruct b; [congruence|discriminate]|]. eapply Rle_trans; [apply norm_pos|apply (Bm f); now left]. }
  replace (2 ^ 23) with 8388608 by ring. replace (10 ^ 30) with 1000000000000000000000000000000 by ring. lra.
Qed.

Theorem brush_centre : forall tx e b g m, build_brush O tx e b = Ok g -> (forall q, In q b -> grid_plane q) -> b <> [] -> (Z.of_nat (length b) <= 4000)%Z ->
  (forall f, In f (bg_faces g) -> norm (point_of (f_center f)) <= m) ->
  finite_point (bg_center g)
  /\ norm (minus (point_of (bg_center g)) (average (map (fun f => point_of (f_center f)) (bg_faces g)))) <= drift (length b) m.
Proof. intros tx e b g m E G Ne L Bm. destruct (brush_centre_accurate tx e b g m E G Ne L Bm) as (F & _ & A). exact (conj F A). Qed.

Theorem entity_centre_accurate : forall tx e g m, build_entity_geo O tx e = Ok g -> hget (e_props e) (lit "origin") = None -> e_brushes e <> [] ->
  (forall b, In b (e_brushes e) -> b <> [] /\ (Z.of_nat (length b) <= 4000)%Z /\ forall q, In q b -> grid_plane q) -> (Z.of_nat (length (e_brushes e)) < 2 ^ 24)%Z ->
  (forall b, In b (eg_brushes g) -> norm (point_of (bg_center b)) <= m) ->
  finite_point (eg_center g)
  /\ norm (minus (point_of (eg_center g)) (average (map (fun b => point_of (bg_center b)) (eg_brushes g)))) <= drift (length (e_brushes e)) m.
Proof.
  intros tx e g m E Og Ne G L Bm. unfold build_entity_geo in E. apply bind_ok in E. destruct E as (bs & Eb & E). injection E as <-. rewrite Og. cbn [eg_brushes eg_center] in *.
  apply mapM_ok in Eb. assert (Len : length (e_brushes e) = length bs) by (clear -Eb; induction Eb; cbn; congruence).
  assert (AL : forall x, In x (map bg_center bs) -> fins x /\ below corner_bound (point_of x)).
  { intros x Hx. apply in_map_iff in Hx. destruct Hx as (g & <- & Hg). destruct (Forall2_right _ _ _ _ Eb Hg) as (b & Hb & E). destruct (G b Hb) as (Nb & Lb & Gb).
    destruct (brush_centre_accurate tx e b g (7 / 4 * corner_bound) E Gb Nb Lb) as (F & B & _); [|split; [now apply finite_fins|exact B]].
    intros f Hf. unfold build_brush in E. apply bind_ok in E. destruct E as (fs & Ef & E). injection E as <-. cbn [bg_faces] in Hf. apply mapM_ok in Ef.
    destruct (Forall2_right _ _ _ _ Ef Hf) as (q & Hq & Eq). destruct (face_points p tx e b q f Eq) as (_ & (B1 & B2 & B3) & _); [intros q' [<-|I]; now apply Gb|exact Lb|].
    now apply norm_cube. }
  assert (M : is_mean O (map bg_center bs) (GeoModel.mean O (map bg_center bs))) by apply mean_is.
  destruct (mean_bound p _ _ M) as [Fc Bc]; [rewrite map_length; lia|exact AL|]. split; [now apply finite_fins|].
  pose proof (mean_accurate _ _ m M ltac:(destruct bs; [destruct (e_brushes e); [congruence|discriminate]|discriminate]) ltac:(rewrite map_length; lia) AL) as A.
  specialize (A ltac:(intros x Hx; apply in_map_iff in Hx; destruct Hx as (f & <- & Hf); now apply Bm)). rewrite map_map, map_length, <- Len in A.
  eapply Rle_trans; [exact A|]. unfold drift. pose proof eta_small. assert (M0 : 0 <= m).
  { destruct bs as [|f fs]; [destruct (e_brushes e); [congruence|discriminate]|]. eapply Rle_trans; [apply norm_pos|apply (Bm f); now left]. }
  replace (2 ^ 23) with 8388608 by ring. replace (10 ^ 30) with 1000000000000000000000000000000 by ring. lra.
Qed.
End WithPlatform.
