(** Axis-aligned integer boxes are built exactly (C18): planes and their meeting points. *)
From Coq Require Import SpecFloat Reals Lra Lia.
From Flocq Require Import Core.
From Verif Require Import Prelude F32 Text MapModel GeoModel GatherSpec GeoSpec BaseProofs FloatProofs ColorProofs
  ExactProofs BoxSpec.
Local Open Scope R_scope.

(** ** Scalars *)
Lemma int_sub_wide : forall x y a b, int x a -> int y b -> (Z.abs (a - b) < 2 ^ 24)%Z -> int (f32_sub x y) (a - b).
Proof.
  intros x y a b [Fx Vx] [Fy Vy] B. assert (E : val x - val y = IZR (a - b)) by (rewrite Vx, Vy, minus_IZR; lra).
  assert (F0 : format32 (IZR (a - b))) by (apply format_Z; exact B).
  destruct (sub_correct x y Fx Fy) as [F V].
  - rewrite E, round_generic by (auto with typeclass_instances). apply small_bound. rewrite <- abs_IZR. apply IZR_lt. exact B.
  - split; [exact F|]. rewrite V, E. apply round_generic; auto with typeclass_instances.
Qed.

Lemma add_null : forall x y, fin x -> fin y -> val x = 0 \/ val y = 0 -> fin (f32_add x y) /\ val (f32_add x y) = val x + val y.
Proof.
  intros x y Fx Fy H.
  assert (R : rnd32 (val x + val y) = val x + val y).
  { apply round_generic; [auto with typeclass_instances|]. destruct H as [-> | ->]; rewrite ?Rplus_0_l, ?Rplus_0_r; apply val_format; [apply Fy|apply Fx]. }
  destruct (add_correct x y Fx Fy) as [F V].
  - rewrite R. destruct H as [-> | ->]; rewrite ?Rplus_0_l, ?Rplus_0_r; apply val_bound; [apply Fy|apply Fx].
  - split; [exact F|]. now rewrite V, R.
Qed.

Lemma square : forall x k, int x k -> (Z.abs k < 2 ^ 24)%Z -> fin (f32_mul x x) /\ val (f32_mul x x) = rnd32 (IZR (Z.abs k) * IZR (Z.abs k)).
Proof.
  intros x k [Fx Vx] B. assert (E : val x * val x = IZR (Z.abs k) * IZR (Z.abs k)).
  { rewrite Vx, <- !mult_IZR. f_equal. lia. }
  destruct (mul_correct x x Fx Fx) as [F V]; [|split; [exact F|now rewrite V, E]].
  rewrite E. assert (H : Rabs (rnd32 (IZR (Z.abs k) * IZR (Z.abs k))) <= bpow radix2 48).
  { apply abs_round_le_generic; [auto with typeclass_instances|auto with typeclass_instances| |].
    - rewrite <- (Rmult_1_l (bpow radix2 48)). apply format_scaled; lia.
    - rewrite <- mult_IZR, <- abs_IZR. change (bpow radix2 48) with (IZR (2 ^ 48)). apply IZR_le.
      rewrite Z.abs_eq by lia. change (2 ^ 48)%Z with (2 ^ 24 * 2 ^ 24)%Z. nia. }
  eapply Rle_lt_trans; [exact H|]. apply bpow_lt. lia.
Qed.

Lemma square_zero : forall x, int x 0 -> fin (f32_mul x x) /\ val (f32_mul x x) = 0.
Proof. intros x H. destruct (square x 0 H) as [F V]; [reflexivity|]. split; [exact F|]. rewrite V. simpl. rewrite Rmult_0_l. apply round_0; auto with typeclass_instances. Qed.

Lemma root : forall s k, fin s -> (0 < k < 2 ^ 24)%Z -> val s = rnd32 (IZR k * IZR k) -> int (f32_sqrt s) k.
Proof.
  intros s k F K V. destruct (sqrt_correct s F) as [F' V'].
  - rewrite V. apply Rlt_le_trans with (rnd32 1).
    + rewrite round_generic; [lra|auto with typeclass_instances|]. apply (format_Z 1). reflexivity.
    + apply round_le; [auto with typeclass_instances|auto with typeclass_instances|]. rewrite <- mult_IZR. apply IZR_le. nia.
  - split; [exact F'|]. rewrite V', V. apply sqrt_sq. exact K.
Qed.

(** The reciprocal of a power of two is exact. *)
Lemma reciprocal : forall l n, (0 <= n < 24)%Z -> int l (2 ^ n) -> fin (f32_div f32_one l) /\ val (f32_div f32_one l) = bpow radix2 (- n).
Proof.
  intros l n Hn [F V]. assert (E : val f32_one / val l = bpow radix2 (- n)).
  { rewrite V, val_one, bpow_opp. unfold Rdiv. rewrite Rmult_1_l. f_equal. change 2%Z with (radix_val radix2). apply IZR_Zpower. lia. }
  assert (G : format32 (bpow radix2 (- n))) by (rewrite <- (Rmult_1_l (bpow radix2 (- n))); apply format_scaled; lia).
  destruct (div_correct f32_one l fin_one F) as [F' V'].
  - rewrite V. apply not_0_IZR. assert (0 < 2 ^ n)%Z by (apply Z.pow_pos_nonneg; lia). lia.
  - rewrite E, round_generic by (auto with typeclass_instances). rewrite Rabs_pos_eq by apply bpow_ge_0. apply bpow_lt. lia.
  - split; [exact F'|]. rewrite V', E. apply round_generic; auto with typeclass_instances.
Qed.

Lemma times_reciprocal : forall x r n s, (0 <= n < 24)%Z -> int x (2 ^ n * s) -> (Z.abs s <= 1)%Z -> fin r -> val r = bpow radix2 (- n) -> int (f32_mul x r) s.
Proof.
  intros x r n s Hn [Fx Vx] Hs Fr Vr. assert (E : val x * val r = IZR s).
  { rewrite Vx, Vr, mult_IZR, bpow_opp. change (2 ^ n)%Z with (radix_val radix2 ^ n)%Z. rewrite IZR_Zpower by lia. field.
    apply Rgt_not_eq, bpow_gt_0. }
  assert (G : format32 (IZR s)) by (apply format_Z; lia).
  destruct (mul_correct x r Fx Fr) as [F V].
  - rewrite E, round_generic by (auto with typeclass_instances). apply small_bound. rewrite <- abs_IZR. apply IZR_lt. lia.
  - split; [exact F|]. rewrite V, E. apply round_generic; auto with typeclass_instances.
Qed.

(** ** Normalising a multiple of a unit direction *)
Section Box.
Context (p : platform).
Local Notation O := (f32_num p).

Lemma length_exact : forall v s k, at_ints v (ztimes k (outward s)) -> (0 < k < 2 ^ 24)%Z ->
  int (f32_sqrt (f32_add (f32_add (f32_mul (vx v) (vx v)) (f32_mul (vy v) (vy v))) (f32_mul (vz v) (vz v)))) k.
Proof.
  assert (K : forall a b c k, (0 < k < 2 ^ 24)%Z ->
    (exists u, int a u /\ Z.abs u = k /\ int b 0 /\ int c 0) \/ (exists u, int b u /\ Z.abs u = k /\ int a 0 /\ int c 0)
    \/ (exists u, int c u /\ Z.abs u = k /\ int a 0 /\ int b 0) ->
    int (f32_sqrt (f32_add (f32_add (f32_mul a a) (f32_mul b b)) (f32_mul c c))) k).
  { intros a b c k Hk H.
    assert (S : exists x y z, f32_mul a a = x /\ f32_mul b b = y /\ f32_mul c c = z /\ fin x /\ fin y /\ fin z /\
              ((val x = rnd32 (IZR k * IZR k) /\ val y = 0 /\ val z = 0) \/ (val y = rnd32 (IZR k * IZR k) /\ val x = 0 /\ val z = 0)
               \/ (val z = rnd32 (IZR k * IZR k) /\ val x = 0 /\ val y = 0))).
    { do 3 eexists. split; [reflexivity|]. split; [reflexivity|]. split; [reflexivity|].
      destruct H as [(u & Hu & Eu & H1 & H2)|[(u & Hu & Eu & H1 & H2)|(u & Hu & Eu & H1 & H2)]];
        destruct (square _ _ Hu ltac:(lia)) as [F V]; rewrite Eu in V;
        destruct (square_zero _ H1) as [F1 V1]; destruct (square_zero _ H2) as [F2 V2]; tauto. }
    destruct S as (x & y & z & -> & -> & -> & Fx & Fy & Fz & S).
    destruct (add_null x y Fx Fy) as [F1 V1]; [tauto|].
    destruct (add_null (f32_add x y) z F1 Fz) as [F2 V2].
    { rewrite V1. destruct S as [(_ & -> & ->)|[(_ & -> & ->)|(_ & -> & ->)]]; rewrite ?Rplus_0_l; auto. }
    apply root; [exact F2|exact Hk|]. rewrite V2, V1. destruct S as [(-> & -> & ->)|[(-> & -> & ->)|(-> & -> & ->)]]; ring. }
  intros v s k (A & B & C) Hk. apply K; [exact Hk|].
  destruct s; cbn [ztimes outward vx vy vz] in *; rewrite ?Z.mul_0_r in *;
    first [left; eexists; split; [exact A|]; split; [lia|]; tauto
          |right; left; eexists; split; [exact B|]; split; [lia|]; tauto
          |right; right; eexists; split; [exact C|]; split; [lia|]; tauto].
Qed.

Lemma outward_small : forall s, coords (fun c => Z.abs c <= 1)%Z (outward s).
Proof. intros []; unfold coords; cbn; lia. Qed.

Lemma normalize_exact : forall v s k, at_ints v (ztimes k (outward s)) ->
  (0 < k < 2 ^ 24)%Z -> exact_length p k -> at_ints (n_normalize O v) (outward s).
Proof.
  intros v s k H Hk X. pose proof (length_exact v s k H Hk) as L. pose proof (outward_small s) as (Sx & Sy & Sz).
  destruct H as (A & B & C). cbn [ztimes vx vy vz] in *. cbn [n_normalize f32_num]. unfold normalize_with. cbv zeta.
  set (len := f32_sqrt _) in *. destruct (p_simd p) eqn:Es.
  - unfold at_ints. cbn [vx vy vz]. split; [|split]; (eapply div_int; [eassumption|exact L|lia|reflexivity|lia]).
  - destruct X as [X|(n & Hn & ->)]; [congruence|].
    assert (N : (0 <= n < 24)%Z).
    { split; [exact Hn|]. apply Z.lt_nge. intros G. assert (2 ^ 24 <= 2 ^ n)%Z by (apply Z.pow_le_mono_r; lia). lia. }
    destruct (reciprocal len n N L) as [Fr Vr].
    unfold at_ints. cbn [vx vy vz]. split; [|split]; apply (times_reciprocal _ _ n _ N); auto.
Qed.

(** ** Vectors *)
Lemma at_sub : forall u v a b, at_ints u a -> at_ints v b -> coords (fun c => Z.abs c < 2 ^ 23)%Z (zminus a b) -> at_ints (v3_sub O u v) (zminus a b).
Proof. intros u v a b (A & B & C) (D & E & F) (G & H & I). split; [|split]; cbn; apply int_sub; auto. Qed.

Lemma mul_bound : forall x y m n, (Z.abs x <= m -> Z.abs y <= n -> Z.abs (x * y) <= m * n)%Z.
Proof. intros x y m n Hx Hy. rewrite Z.abs_mul. nia. Qed.

Lemma at_cross : forall u v a b m n, at_ints u a -> at_ints v b -> coords (fun c => Z.abs c <= m)%Z a -> coords (fun c => Z.abs c <= n)%Z b ->
  (m * n < 2 ^ 23)%Z -> at_ints (v3_cross O u v) (zouter a b).
Proof.
  intros u v a b m n (A & B & C) (D & E & F) (G & H & I) (J & K & L) M.
  assert (P : forall x y i j, int x i -> int y j -> (Z.abs i <= m)%Z -> (Z.abs j <= n)%Z -> int (f32_mul x y) (i * j)).
  { intros x y i j Hx Hy Bi Bj. apply int_mul; auto. pose proof (mul_bound i j m n Bi Bj). lia. }
  pose proof (fun i j Bi Bj => mul_bound i j m n Bi Bj) as W.
  unfold at_ints, v3_cross, zouter. cbn [vx vy vz n_sub n_mul f32_num].
  split; [|split]; (apply int_sub_wide; [apply P; assumption| | ]).
  all: try (rewrite Z.mul_comm; apply P; assumption).
  all: try (apply P; assumption).
  all: match goal with |- (Z.abs (?x * ?y - ?z * ?w) < _)%Z =>
         pose proof (W x y ltac:(assumption) ltac:(assumption)); pose proof (W z w ltac:(assumption) ltac:(assumption)); lia end.
Qed.

Lemma normal_exact : forall lo hi s k pl, box_plane lo hi s k pl -> exact_length p k -> at_ints (plane_normal O pl) (outward s).
Proof.
  intros lo hi s k pl (a & b & c & m & n & A & B & C & _ & _ & _ & _ & K & E & Bm & Bn & M & Mm & Mn) X.
  assert (K1 : (k < 2 ^ 24)%Z).
  { destruct Bm as (M1 & M2 & M3). destruct Bn as (N1 & N2 & N3).
    assert (W : forall x y z w, (Z.abs x <= m -> Z.abs y <= n -> Z.abs z <= m -> Z.abs w <= n -> Z.abs (x * y - z * w) < 2 ^ 24)%Z).
    { intros x y z w H1 H2 H3 H4. pose proof (mul_bound x y m n H1 H2). pose proof (mul_bound z w m n H3 H4). lia. }
    unfold zouter, ztimes in E. injection E as E1 E2 E3.
    pose proof (W _ _ _ _ M2 N3 M3 N2) as W1. pose proof (W _ _ _ _ M3 N1 M1 N3) as W2. pose proof (W _ _ _ _ M1 N2 M2 N1) as W3.
    cbn [zminus vx vy vz] in W1, W2, W3. rewrite E1 in W1. rewrite E2 in W2. rewrite E3 in W3. destruct s; cbn [outward vx vy vz] in *; lia. }
  unfold plane_normal. apply (normalize_exact _ s k); [|lia|exact X]. rewrite <- E.
  apply (at_cross _ _ _ _ m n); [| |exact Bm|exact Bn|exact M].
  - apply at_sub; auto. destruct Bm as (M1 & M2 & M3). repeat split; lia.
  - apply at_sub; auto. destruct Bn as (M1 & M2 & M3). repeat split; lia.
Qed.

Lemma at_dot : forall u v a b, at_ints u a -> at_ints v b -> coords (fun c => Z.abs c <= 1)%Z a -> coords (fun c => Z.abs c <= 2 ^ 20)%Z b ->
  int (v3_dot O u v) (zinner a b).
Proof.
  intros u v a b (A & B & C) (D & E & F) (G & H & I) (J & K & L).
  pose proof (mul_bound _ _ _ _ G J). pose proof (mul_bound _ _ _ _ H K). pose proof (mul_bound _ _ _ _ I L).
  unfold v3_dot, zinner. cbn [n_add n_mul f32_num].
  apply int_add; [apply int_add|apply int_mul; auto; lia|lia]; [apply int_mul; auto; lia|apply int_mul; auto; lia|lia].
Qed.

(** The signed distance of a side from the origin. *)
Definition level (lo hi : vec3 Z) (s : box_side) : Z :=
  (match s with XUp => vx hi | XDown => - vx lo | YUp => vy hi | YDown => - vy lo | ZUp => vz hi | ZDown => - vz lo end)%Z.

Lemma dist_exact : forall lo hi s k pl, box_plane lo hi s k pl -> exact_length p k -> int (plane_dist O pl) (level lo hi s).
Proof.
  intros lo hi s k pl H X. pose proof (normal_exact _ _ _ _ _ H X) as N.
  destruct H as (a & b & c & m & n & A & _ & _ & Ba & S & _).
  replace (level lo hi s) with (zinner (outward s) a); [apply at_dot; auto; apply outward_small|].
  destruct s; cbn [on_side level] in *; unfold zinner; cbn [outward vx vy vz]; rewrite <- S; ring.
Qed.

Lemma level_bound : forall lo hi s, box lo hi -> (Z.abs (level lo hi s) <= 2 ^ 20)%Z.
Proof. intros lo hi s (_ & _ & _ & (A & B & C) & (D & E & F)). destruct s; cbn [level]; lia. Qed.

(** ** Intersections *)
Definition det (s0 s1 s2 : box_side) : Z := zinner (zouter (outward s0) (outward s1)) (outward s2).
Definition zplus (a b : vec3 Z) : vec3 Z := V3 (vx a + vx b)%Z (vy a + vy b)%Z (vz a + vz b)%Z.
Definition corner (lo hi : vec3 Z) (s0 s1 s2 : box_side) : vec3 Z :=
  zplus (zplus (ztimes (level lo hi s0) (zouter (outward s1) (outward s2))) (ztimes (level lo hi s1) (zouter (outward s2) (outward s0))))
        (ztimes (level lo hi s2) (zouter (outward s0) (outward s1))).

Lemma outer_small : forall s1 s2, coords (fun c => Z.abs c <= 1)%Z (zouter (outward s1) (outward s2)).
Proof. intros [] []; unfold coords; cbn; lia. Qed.

Lemma eps_between : 0 < val (n_eps O) < 1 /\ fin (n_eps O).
Proof.
  assert (F : fin (n_eps O)) by (split; vm_compute; reflexivity).
  assert (A : f32_cmp f32_zero (n_eps O) = Some Lt) by (vm_compute; reflexivity).
  assert (B : f32_cmp f32_one (n_eps O) = Some Gt) by (vm_compute; reflexivity).
  rewrite cmp_correct in A by (auto using fin_zero). rewrite cmp_correct in B by (auto using fin_one).
  assert (A' : Rcompare (val f32_zero) (val (n_eps O)) = Lt) by congruence.
  assert (B' : Rcompare (val f32_one) (val (n_eps O)) = Gt) by congruence.
  clear A B. rename A' into A. rename B' into B. apply Rcompare_Lt_inv in A. apply Rcompare_Gt_inv in B.
  rewrite val_zero in A. rewrite val_one in B. split; [lra|exact F].
Qed.

Lemma cmp_ints : forall x y a b, int x a -> int y b -> f32_cmp x y = Some (a ?= b)%Z.
Proof. intros x y a b [Fx Vx] [Fy Vy]. rewrite cmp_correct by assumption. rewrite Vx, Vy, Rcompare_IZR. reflexivity. Qed.

Lemma at_scale : forall u a d k, at_ints u a -> int d k -> coords (fun c => Z.abs c <= 1)%Z a -> (Z.abs k <= 2 ^ 20)%Z ->
  at_ints (v3_scale O u d) (ztimes k a).
Proof.
  intros u a d k (A & B & C) D (E & F & G) K. split; [|split]; cbn [v3_scale ztimes vx vy vz n_mul f32_num];
    rewrite Z.mul_comm; (apply int_mul; [assumption|assumption|]).
  - pose proof (mul_bound _ _ _ _ E K). lia.
  - pose proof (mul_bound _ _ _ _ F K). lia.
  - pose proof (mul_bound _ _ _ _ G K). lia.
Qed.

Lemma times_small : forall k a, coords (fun c => Z.abs c <= 1)%Z a -> (Z.abs k <= 2 ^ 20)%Z -> coords (fun c => Z.abs c <= 2 ^ 20)%Z (ztimes k a).
Proof.
  intros k a (A & B & C) K. pose proof (mul_bound _ _ _ _ K A). pose proof (mul_bound _ _ _ _ K B). pose proof (mul_bound _ _ _ _ K C).
  repeat split; cbn [ztimes vx vy vz]; lia.
Qed.

Lemma at_plus : forall u v a b m n, at_ints u a -> at_ints v b -> coords (fun c => Z.abs c <= m)%Z a -> coords (fun c => Z.abs c <= n)%Z b ->
  (m + n < 2 ^ 23)%Z -> at_ints (v3_add O u v) (zplus a b) /\ coords (fun c => Z.abs c <= m + n)%Z (zplus a b).
Proof.
  intros u v a b m n (A & B & C) (D & E & F) (G & H & I) (J & K & L) M. split.
  - split; [|split]; cbn [v3_add zplus vx vy vz n_add f32_num]; apply int_add; auto; lia.
  - repeat split; cbn [zplus vx vy vz]; lia.
Qed.

Lemma intersect_exact : forall lo hi s0 s1 s2 k0 k1 k2 p0 p1 p2, box lo hi ->
  box_plane lo hi s0 k0 p0 -> exact_length p k0 -> box_plane lo hi s1 k1 p1 -> exact_length p k1 -> box_plane lo hi s2 k2 p2 -> exact_length p k2 ->
  (det s0 s1 s2 = 1%Z /\ exists x, intersect_planes O p0 p1 p2 = Some x /\ at_ints x (corner lo hi s0 s1 s2))
  \/ (det s0 s1 s2 <> 1%Z /\ intersect_planes O p0 p1 p2 = None).
Proof.
  intros lo hi s0 s1 s2 k0 k1 k2 p0 p1 p2 Bx P0 X0 P1 X1 P2 X2.
  pose proof (normal_exact _ _ _ _ _ P0 X0) as N0. pose proof (normal_exact _ _ _ _ _ P1 X1) as N1. pose proof (normal_exact _ _ _ _ _ P2 X2) as N2.
  pose proof (dist_exact _ _ _ _ _ P0 X0) as D0. pose proof (dist_exact _ _ _ _ _ P1 X1) as D1. pose proof (dist_exact _ _ _ _ _ P2 X2) as D2.
  pose proof (level_bound lo hi s0 Bx) as L0. pose proof (level_bound lo hi s1 Bx) as L1. pose proof (level_bound lo hi s2 Bx) as L2.
  unfold intersect_planes.
  set (n0 := plane_normal O p0) in *. set (n1 := plane_normal O p1) in *. set (n2 := plane_normal O p2) in *.
  assert (Cr : forall u v s t, at_ints u (outward s) -> at_ints v (outward t) -> at_ints (v3_cross O u v) (zouter (outward s) (outward t))).
  { intros u v s t Hu Hv. apply (at_cross _ _ _ _ 1 1); auto using outward_small. lia. }
  assert (Dn : int (v3_dot O (v3_cross O n0 n1) n2) (det s0 s1 s2)).
  { apply at_dot; auto using outer_small. pose proof (outward_small s2) as (A & B & C). repeat split; lia. }
  set (dn := v3_dot O (v3_cross O n0 n1) n2) in *. destruct eps_between as [[E0 E1] Fe].
  assert (Lt : n_ltb O dn (n_eps O) = (match Rcompare (IZR (det s0 s1 s2)) (val (n_eps O)) with Lt => true | _ => false end)).
  { unfold n_ltb. change (n_cmp O) with f32_cmp. rewrite cmp_correct by (try apply Dn; exact Fe). destruct Dn as [_ ->]. reflexivity. }
  cbv zeta. rewrite Lt. assert (Dc : (det s0 s1 s2 = 1 \/ det s0 s1 s2 <= 0)%Z) by (destruct s0, s1, s2; first [left; reflexivity|right; vm_compute; discriminate]).
  destruct Dc as [Dc|Dc].
  - left. split; [exact Dc|]. rewrite Rcompare_Gt by (rewrite Dc; lra).
    destruct (at_plus (v3_scale O (v3_cross O n1 n2) (plane_dist O p0)) (v3_scale O (v3_cross O n2 n0) (plane_dist O p1))
               (ztimes (level lo hi s0) (zouter (outward s1) (outward s2))) (ztimes (level lo hi s1) (zouter (outward s2) (outward s0)))
               (2 ^ 20) (2 ^ 20)) as [S1 B1]; [apply at_scale; auto using outer_small|apply at_scale; auto using outer_small| | |lia|].
    1-2: apply times_small; auto using outer_small.
    destruct (at_plus _ (v3_scale O (v3_cross O n0 n1) (plane_dist O p2)) _ (ztimes (level lo hi s2) (zouter (outward s0) (outward s1)))
               (2 ^ 20 + 2 ^ 20) (2 ^ 20) S1) as [S2 B2]; [apply at_scale; auto using outer_small|exact B1|apply times_small; auto using outer_small|lia|].
    eexists. split; [reflexivity|]. rewrite Dc in Dn. destruct S2 as (A & B & C). destruct B2 as (G & H & I).
    split; [|split]; cbn [v3_divs vx vy vz n_div f32_num].
    + eapply div_int; [exact A|exact Dn|lia|unfold corner; cbn [zplus vx]; lia|unfold corner in *; cbn [zplus vx] in *; lia].
    + eapply div_int; [exact B|exact Dn|lia|unfold corner; cbn [zplus vy]; lia|unfold corner in *; cbn [zplus vy] in *; lia].
    + eapply div_int; [exact C|exact Dn|lia|unfold corner; cbn [zplus vz]; lia|unfold corner in *; cbn [zplus vz] in *; lia].
  - right. split; [lia|]. rewrite Rcompare_Lt; [reflexivity|]. apply Rle_lt_trans with 0; [|exact E0]. apply IZR_le. exact Dc.
Qed.

(** ** Corners *)
Lemma corner_listed : forall lo hi s0 s1 s2, det s0 s1 s2 = 1%Z -> In (corner lo hi s0 s1 s2) (side_corners lo hi s0).
Proof.
  intros [x y z] [x' y' z'] s0 s1 s2 D. unfold corner, side_corners, zplus, ztimes, zouter. destruct s0, s1, s2; cbn in D; try discriminate D;
    cbn [outward level vx vy vz In];
    first [left; f_equal; ring|right; left; f_equal; ring|right; right; left; f_equal; ring|right; right; right; left; f_equal; ring].
Qed.

Lemma corner_found : forall lo hi s0 X, In X (side_corners lo hi s0) -> exists s1 s2, det s0 s1 s2 = 1%Z /\ corner lo hi s0 s1 s2 = X.
Proof.
  intros [x y z] [x' y' z'] s0 X H.
  Ltac pick s t := exists s, t; split; [reflexivity|unfold corner, zplus, ztimes, zouter; cbn [outward level vx vy vz]; f_equal; ring].
  Ltac pick2 t := first [pick XUp t|pick XDown t|pick YUp t|pick YDown t|pick ZUp t|pick ZDown t].
  destruct s0; cbn [side_corners In vx vy vz] in H; destruct H as [<-|[<-|[<-|[<-|[]]]]];
    first [pick2 XUp|pick2 XDown|pick2 YUp|pick2 YDown|pick2 ZUp|pick2 ZDown].
Qed.

Lemma corner_inside : forall lo hi s0 X s, box lo hi -> In X (side_corners lo hi s0) ->
  (zinner (outward s) X <= level lo hi s)%Z /\ coords (fun c => Z.abs c <= 2 ^ 20)%Z X.
Proof.
  intros [x y z] [x' y' z'] s0 X s (A & B & C & (D & E & F) & (G & H & I)) Hin. unfold coords, zinner. cbn [vx vy vz] in *.
  destruct s0; cbn [side_corners In vx vy vz] in Hin; destruct Hin as [<-|[<-|[<-|[<-|[]]]]]; cbn [vx vy vz];
    destruct s; cbn [outward level vx vy vz]; lia.
Qed.

Lemma behind_exact : forall lo hi s k q x X, box_plane lo hi s k q -> exact_length p k -> at_ints x X ->
  coords (fun c => Z.abs c <= 2 ^ 20)%Z X -> (zinner (outward s) X <= level lo hi s)%Z -> behind O x q.
Proof.
  intros lo hi s k q x X H E A B L [G _]. unfold greater in G. change (n_cmp O) with f32_cmp in G.
  erewrite cmp_ints in G; [|apply at_dot; [eapply normal_exact; eassumption|exact A|apply outward_small|exact B]|eapply dist_exact; eassumption].
  injection G as G. apply Z.compare_gt_iff in G. lia.
Qed.

Lemma meeting_corner : forall lo hi b s k plane x, box lo hi -> box_brush p lo hi b -> box_plane lo hi s k plane -> exact_length p k ->
  meeting_point O b plane x -> exists X, In X (side_corners lo hi s) /\ at_ints x X.
Proof.
  intros lo hi b s k plane x Bx [Bb _] Hp Hk (p1 & p2 & H1 & H2 & I & _).
  destruct (Bb p1 H1) as (s1 & k1 & Q1 & E1). destruct (Bb p2 H2) as (s2 & k2 & Q2 & E2).
  destruct (intersect_exact lo hi s s1 s2 k k1 k2 plane p1 p2 Bx Hp Hk Q1 E1 Q2 E2) as [[D (y & Iy & A)]|[_ N]]; [|congruence].
  exists (corner lo hi s s1 s2). split; [apply corner_listed; exact D|]. congruence.
Qed.

Lemma corner_meeting : forall lo hi b s k plane X, box lo hi -> box_brush p lo hi b -> box_plane lo hi s k plane -> exact_length p k ->
  In X (side_corners lo hi s) -> exists x, meeting_point O b plane x /\ at_ints x X.
Proof.
  intros lo hi b s k plane X Bx [Bb Bs] Hp Hk HX. destruct (corner_found lo hi s X HX) as (s1 & s2 & D & E).
  destruct (Bs s1) as (p1 & k1 & I1 & Q1 & E1). destruct (Bs s2) as (p2 & k2 & I2 & Q2 & E2).
  destruct (intersect_exact lo hi s s1 s2 k k1 k2 plane p1 p2 Bx Hp Hk Q1 E1 Q2 E2) as [[_ (x & Ix & A)]|[N _]]; [|congruence].
  rewrite E in A. exists x. split; [|exact A]. exists p1, p2. split; [exact I1|]. split; [exact I2|]. split; [exact Ix|].
  intros q Hq. destruct (Bb q Hq) as (t & kt & Qt & Et). destruct (corner_inside lo hi s X t Bx HX) as [L B].
  eapply behind_exact; eassumption.
Qed.
End Box.
