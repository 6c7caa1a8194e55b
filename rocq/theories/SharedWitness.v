(** A pyramid on a square, whose top four sides share, to try C110 on. *)
From Coq Require Import Reals Lra Lia ZArith Permutation Classical.
From Flocq Require Import Core.
From Verif Require Import Prelude F32 Text MapModel GeoModel Witness GeoSpec NumberSpec RealSpec WindSpec ArithProofs FloatProofs ExactProofs BaseProofs BoxSpec GeoWitness ErrorSpec ErrorProofs ErrorFinal ErrorWitness
  CornerSpec CornerProofs CornerWitness MeanSpec MeanProofs SolidSpec WoundSpec WoundWitness TriangleSpec SharedSpec CoverSpec.
Local Open Scope R_scope.

Notation side := CornerWitness.side.
Definition bottom : brush_plane f32 := tri r0 r1 r2.
Definition right_ : brush_plane f32 := tri r1 top r2.
Definition back_ : brush_plane f32 := tri r2 top r3.
Definition left_ : brush_plane f32 := tri r3 top r0.

(** The pairs of planes that meet the front side. *)
Definition meetings : list (brush_plane f32 * brush_plane f32 * vec3 R) :=
  [(left_, bottom, reals r0); (bottom, right_, reals r1); (right_, back_, reals top); (right_, left_, reals top); (back_, left_, reals top)].
Lemma side_cases : forall p1 p2 x, In p1 roof -> In p2 roof -> crossing side p1 p2 x -> In (p1, p2, x) meetings.
Proof.
  intros p1 p2 x I1 I2 (A & B & C & D). unfold side in *. cbn [In roof side] in I1, I2.
  destruct I1 as [<-|[<-|[<-|[<-|[<-|[]]]]]]; destruct I2 as [<-|[<-|[<-|[<-|[<-|[]]]]]]; turning D; try discriminate; clear D; equations;
  match goal with |- In (?a, ?b, ?y) _ =>
    first [assert (E : y = reals top) by (apply vec_eq; unfold reals; cbn [vx vy vz r0 r1 top]; lra)
          |assert (E : y = reals r0) by (apply vec_eq; unfold reals; cbn [vx vy vz r0 r1 top]; lra)
          |assert (E : y = reals r1) by (apply vec_eq; unfold reals; cbn [vx vy vz r0 r1 top]; lra)] end; rewrite E; cbn [meetings In]; tauto.
Qed.
Lemma meetings_true : forall p1 p2 x, In (p1, p2, x) meetings -> / 2 <= openness (plane_of side) (plane_of p1) (plane_of p2) /\ In p1 roof /\ In p2 roof /\ crossing side p1 p2 x /\ in_solid roof x.
Proof.
  intros p1 p2 x H.
  assert (OP : / 2 <= openness (plane_of side) (plane_of p1) (plane_of p2)).
  { cbn [meetings In] in H. repeat (destruct H as [H|H]; [injection H as <- <- <-|]); try contradiction; unfold side, bottom, right_, back_, left_.
    all: first [apply (tri_open _ _ _ _ _ _ _ _ _ 15 15 15); try grid; try lia; try (vm_compute; split; reflexivity || discriminate); [lra|];
      match goal with |- _ <= IZR ?z => let n := eval vm_compute in z in replace z with n by (vm_compute; reflexivity) end; replace (15 * 15 * 15)%Z with 3375%Z by reflexivity; lra
    | apply (tri_open _ _ _ _ _ _ _ _ _ 15 16 15); try grid; try lia; try (vm_compute; split; reflexivity || discriminate); [lra|];
      match goal with |- _ <= IZR ?z => let n := eval vm_compute in z in replace z with n by (vm_compute; reflexivity) end; replace (15 * 16 * 15)%Z with 3600%Z by reflexivity; lra
    | apply (tri_open _ _ _ _ _ _ _ _ _ 15 15 16); try grid; try lia; try (vm_compute; split; reflexivity || discriminate); [lra|];
      match goal with |- _ <= IZR ?z => let n := eval vm_compute in z in replace z with n by (vm_compute; reflexivity) end; replace (15 * 15 * 16)%Z with 3600%Z by reflexivity; lra]. }
  split; [exact OP|].
  assert (On : In p1 roof /\ In p2 roof /\ on_plane (plane_of side) x /\ on_plane (plane_of p1) x /\ on_plane (plane_of p2) x /\ in_solid roof x).
  { clear OP. cbn [meetings In] in H. repeat (destruct H as [H|H]; [injection H as <- <- <-|]); try contradiction; unfold side, bottom, right_, back_, left_;
    (split; [cbn; tauto|]); (split; [cbn; tauto|]); (split; [apply tri_on; first [grid|reflexivity]|]); (split; [apply tri_on; first [grid|reflexivity]|]); (split; [apply tri_on; first [grid|reflexivity]|]);
    apply roof_in; cbn; tauto. }
  destruct On as (I1 & I2 & A & B & C & T). split; [exact I1|]. split; [exact I2|]. split; [|exact T]. split; [exact A|]. split; [exact B|]. split; [exact C|]. lra.
Qed.

Lemma roof_small : forall q, In q roof -> norm (bp_v0 (plane_of q)) <= 3.
Proof.
  assert (N : forall k, on_grid k -> (zinner k k <= 9)%Z -> norm (point_of (fvz k)) <= 3) by (intros k G K; destruct (point_fvz k G) as [_ ->]; apply (norm_reals k 3); lia).
  intros q H. cbn [In roof] in H. repeat (destruct H as [<-|H]; [cbn [plane_of bp_v0 side tri wall_at]; apply N; [grid|znum]|]). destruct H.
Qed.
Lemma side_blurred : blurred (/ 10000) roof side.
Proof.
  intros p1 p2 x I1 I2 X _. destruct (meetings_true p1 p2 x (side_cases p1 p2 x I1 I2 X)) as (OP & _).
  assert (D : distances (plane_of side) (plane_of p1) (plane_of p2) x <= 12).
  { unfold distances. pose proof (roof_small side ltac:(cbn; tauto)). pose proof (roof_small p1 I1). pose proof (roof_small p2 I2).
    assert (norm x <= 3); [|lra]. pose proof (side_cases p1 p2 x I1 I2 X) as J. cbn [meetings In] in J.
    repeat (destruct J as [J|J]; [injection J as _ _ <-; apply (norm_reals _ 3); [lia|znum]|]). destruct J. }
  unfold blur. set (o := openness _ _ _) in *. set (d := distances _ _ _ _) in *.
  assert (D0 : d / o <= 24) by (apply Rmult_le_reg_r with o; [lra|]; unfold Rdiv; rewrite Rmult_assoc, Rinv_l, Rmult_1_r by lra; lra).
  replace (2 ^ 19) with 524288 by ring. lra.
Qed.
Lemma side_clear : clear roof side.
Proof.
  intros p1 p2 x I1 I2 X. left. destruct (meetings_true p1 p2 x (side_cases p1 p2 x I1 I2 X)) as (OP & _ & _ & _ & T). split; [exact T|]. split; [lra|].
  intros q H. pose proof (side_blurred p1 p2 x I1 I2 X T). pose proof (roof_small q H). unfold slack. replace (2 ^ 20) with 1048576 by ring. lra.
Qed.

(** ** However often the top is repeated *)
Lemma meetings_distinct : NoDup (map fst meetings).
Proof.
  repeat (constructor; [cbn [map fst meetings In]; intros H; repeat (destruct H as [H|H]; [injection H; intros; discriminate|]); exact H|]). constructor.
Qed.
Fixpoint pick {A} (bs : list bool) (l : list A) : list A :=
  match bs, l with b :: bs, a :: l => if b then a :: pick bs l else pick bs l | _, _ => [] end.
Lemma picked : forall {A} (l ls : list A), NoDup l -> NoDup ls -> incl ls l -> exists bs, length bs = length l /\ Permutation ls (pick bs l).
Proof.
  intros A l. induction l as [|a l IH]; intros ls N M I.
  - exists []. split; [reflexivity|]. destruct ls as [|x ls]; [constructor|]. destruct (I x (or_introl eq_refl)).
  - inversion N as [|? ? F N']; subst. destruct (classic (In a ls)) as [H|H].
    + apply in_split in H. destruct H as (l1 & l2 & ->). destruct (IH (l1 ++ l2) N') as (bs & L & P).
      * apply NoDup_remove_1 in M. exact M.
      * intros x Hx. assert (Hx' : In x (l1 ++ a :: l2)) by (apply in_app_iff in Hx; apply in_app_iff; cbn; tauto). destruct (I x Hx') as [<-|J]; [|exact J]. apply NoDup_remove_2 in M. elim M. exact Hx.
      * exists (true :: bs). split; [cbn; lia|]. cbn [pick]. apply Permutation_sym, Permutation_cons_app, Permutation_sym. exact P.
    + destruct (IH ls N' M) as (bs & L & P); [|exists (false :: bs); split; [cbn; lia|exact P]]. intros x Hx. destruct (I x Hx) as [<-|J]; [now elim H|exact J].
Qed.

Definition seen (m : nat) : list (vec3 R) := reals r0 :: reals r1 :: repeat (reals top) m.
Lemma points_differ : reals r0 <> reals r1 /\ reals r1 <> reals top /\ reals r0 <> reals top.
Proof. repeat split; unfold reals; cbn [vx vy vz r0 r1 top]; intros H; injection H; intros; lra. Qed.
Lemma tally_seen : forall ls, tally roof side ls -> exists m, (1 <= m <= 3)%nat /\ Permutation (map snd ls) (seen m).
Proof.
  intros ls (N & I & C).
  destruct (picked meetings ls) as (bs & L & P).
  { exact (NoDup_map_inv _ _ meetings_distinct). }
  { exact (NoDup_map_inv _ _ N). }
  { intros ((p1 & p2) & x) H. destruct (I p1 p2 x H) as (I1 & I2 & X & _). now apply side_cases. }
  assert (Q : forall x, In x (map reals [r0; r1; top]) -> In x (map snd (pick bs meetings))).
  { intros x H. apply (Permutation_in _ (Permutation_map snd P)). apply C. now apply roof_corners. }
  apply (Permutation_map snd) in P. pose proof (Q (reals r0) ltac:(cbn; tauto)) as Q0. pose proof (Q (reals r1) ltac:(cbn; tauto)) as Q1. pose proof (Q (reals top) ltac:(cbn; tauto)) as Q2. clear Q I C N.
  destruct points_differ as (D1 & D2 & D3).
  destruct bs as [|b0 [|b1 [|b2 [|b3 [|b4 [|b5 bs]]]]]]; try discriminate L.
  assert (b0 = true) by (destruct b0; [reflexivity|exfalso]; destruct b1, b2, b3, b4; cbn in Q0; intuition congruence). subst b0.
  assert (b1 = true) by (destruct b1; [reflexivity|exfalso]; destruct b2, b3, b4; cbn in Q1; intuition congruence). subst b1. clear Q0 Q1.
  destruct b2, b3, b4; cbn [pick meetings map snd] in P; try (cbn in Q2; exfalso; intuition congruence).
  all: first [exists 3%nat; split; [lia|exact P]|exists 2%nat; split; [lia|exact P]|exists 1%nat; split; [lia|exact P]].
Qed.

Lemma seen_spread : forall m, (1 <= m <= 3)%nat -> spread (9 / 10) 1 (seen m).
Proof.
  intros m L.
  assert (G : exists gy gz, average (seen m) = V3 0 gy gz /\ ((gy = -4 / 3 /\ gz = 1) \/ (gy = -1 /\ gz = 3 / 2) \/ (gy = -4 / 5 /\ gz = 9 / 5))).
  { assert (C : m = 1%nat \/ m = 2%nat \/ m = 3%nat) by lia.
    destruct C as [->|[->| ->]]; unfold average, seen, reals; cbn [repeat map fold_right length vx vy vz r0 r1 top INR].
    - exists (-4 / 3), 1. split; [apply vec_eq; cbn [vx vy vz]; field|]. left. lra.
    - exists (-1), (3 / 2). split; [apply vec_eq; cbn [vx vy vz]; field|]. right. left. lra.
    - exists (-4 / 5), (9 / 5). split; [apply vec_eq; cbn [vx vy vz]; field|]. right. right. lra. }
  destruct G as (gy & gz & E & G). unfold spread. rewrite E. cbn zeta. clear E.
  assert (I : forall x, In x (seen m) -> x = reals r0 \/ x = reals r1 \/ x = reals top).
  { intros x [<-|[<-|H]]; auto. apply repeat_spec in H. auto. }
  split.
  - intros x H. apply I in H. apply Rle_trans with (sqrt (1 * 1)); [rewrite sqrt_square; lra|]. unfold norm. apply sqrt_le_1_alt.
    destruct H as [->|[->| ->]]; unfold inner, minus, reals; cbn [vx vy vz r0 r1 top]; destruct G as [(-> & ->)|[(-> & ->)|(-> & ->)]]; lra.
  - intros x y H H' N. apply I in H, H'.
    assert (S : inner (minus x (V3 0 gy gz)) (minus y (V3 0 gy gz)) <= 0
      \/ 81 / 100 * (inner (minus x (V3 0 gy gz)) (minus x (V3 0 gy gz)) * inner (minus y (V3 0 gy gz)) (minus y (V3 0 gy gz)))
         <= inner (outer (minus x (V3 0 gy gz)) (minus y (V3 0 gy gz))) (outer (minus x (V3 0 gy gz)) (minus y (V3 0 gy gz)))).
    { destruct H as [->|[->| ->]], H' as [->|[->| ->]]; try (now elim N); destruct G as [(-> & ->)|[(-> & ->)|(-> & ->)]];
      unfold inner, outer, minus, reals; cbn [vx vy vz r0 r1 top]; first [left; lra|right; lra]. }
    destruct S as [S|S]; [now left|]. right. set (a := minus x _) in *. set (c := minus y _) in *.
    rewrite <- (sqrt_square (9 / 10 * (norm a * norm c))).
    + change (norm (outer a c)) with (sqrt (inner (outer a c) (outer a c))). apply sqrt_le_1_alt. replace (9 / 10 * (norm a * norm c) * (9 / 10 * (norm a * norm c))) with (81 / 100 * ((norm a * norm a) * (norm c * norm c))) by field.
      rewrite !norm_sq. exact S.
    + pose proof (norm_pos a). pose proof (norm_pos c). assert (0 <= norm a * norm c) by (apply Rmult_le_pos; assumption). lra.
Qed.

Lemma side_spread : always_spread (9 / 10) 1 (/ 10000) roof side.
Proof.
  intros ls T. destruct (tally_seen ls T) as (m & L & P). pose proof (seen_spread m L) as SP. split.
  - unfold spread in *. rewrite (average_perm _ _ P). destruct SP as (A & B).
    assert (Q : forall x, In x (map snd ls) -> In x (seen m)) by (intros x; apply Permutation_in; exact P). split; auto.
  - rewrite <- (map_length snd), (Permutation_length P). unfold seen. cbn [length]. rewrite repeat_length.
    assert (INR (S (S m)) <= 5) by (rewrite INR_IZR_INZ; apply (IZR_le _ 5); lia). replace (10 ^ 20) with 100000000000000000000 by ring. lra.
Qed.

Lemma side_shared : ~ simple roof side.
Proof.
  intros S. destruct (meetings_true right_ back_ (reals top)) as (_ & I1 & I2 & X & T); [cbn; tauto|]. destruct (meetings_true right_ left_ (reals top)) as (_ & I3 & I4 & X' & _); [cbn; tauto|].
  destruct (S right_ back_ (reals top) right_ left_ (reals top) I1 I2 I3 I4 X X' T T) as [(_ & E)|D]; [injection E; intros; discriminate|].
  assert (Z0 : norm (minus (reals top) (reals top)) = 0).
  { unfold norm, minus, inner. cbn [vx vy vz]. rewrite !Rminus_diag_eq, Rmult_0_l, !Rplus_0_r by reflexivity. apply sqrt_0. }
  pose proof (g_pos _ _ _ _ X). pose proof (g_pos _ _ _ _ X'). unfold blur in D. replace (2 ^ 19) with 524288 in D by ring. replace (10 ^ 30) with 1000000000000000000000000000000 in D by ring. lra.
Qed.

Lemma side_bounded : bounded (SolidSpec.side (map plane_of roof) (plane_of side)).
Proof.
  exists 4. intros x (_ & S). assert (W : forall q, In q roof -> RealSpec.within 0 (plane_of q) x) by (intros q H; apply S, in_map, H).
  pose proof (W (tri r0 r1 r2) ltac:(cbn; tauto)) as H1. pose proof (W side ltac:(cbn; tauto)) as H2. pose proof (W (tri r1 top r2) ltac:(cbn; tauto)) as H3.
  pose proof (W (tri r2 top r3) ltac:(cbn; tauto)) as H4. pose proof (W (tri r3 top r0) ltac:(cbn; tauto)) as H5. clear W S. unfold side in *. equations. repeat split; apply Rabs_le; lra.
Qed.

Lemma side_good : forall simd, good_side (measured simd) roof side (/ 10000).
Proof.
  intros simd. split; [exact side_clear|]. split; [exact side_bounded|]. split.
  { exists (reals r0), (reals r1), (reals top). destruct points_differ as (D1 & D2 & D3). repeat (split; [first [assumption|apply roof_corners; cbn; tauto]|]). assumption. }
  exists (/ 1000000), (9 / 10), 1. split; [exact best_accurate|]. split; [exact side_spread|]. split; [exact side_blurred|]. lra.
Qed.

Lemma side_measured : forall simd, exists f, build_face (f32_num (measured simd)) textures (world []) roof side = Ok f /\ length (f_vertices f) = 4%nat.
Proof.
  intros simd. unfold measured. generalize best_atan2 as at2. intros at2. unfold build_face.
  match goal with |- context [plane_vertices ?n ?t ?e ?ps ?q] => assert (V : exists vs, plane_vertices n t e ps q = Ok vs /\ length (unique_vertices n (is_phong (T := f32) (world [])) vs) = 4%nat) end.
  { destruct simd; eexists; (split; [vm_compute; reflexivity|vm_compute; reflexivity]). }
  destruct V as (vs & -> & L). eexists. split; [reflexivity|]. cbn [f_vertices]. rewrite map_length, sort_by_length, map_length. exact L.
Qed.

Theorem roof_example : forall simd, exists f, build_face (f32_num (measured simd)) textures (world []) roof side = Ok f /\ length (f_vertices f) = 4%nat
  /\ (forall q, In q (side :: roof) -> grid_plane q) /\ clear roof side /\ accurate_angle (/ 1000000) (p_atan2 (measured simd))
  /\ always_spread (9 / 10) 1 (/ 10000) roof side /\ blurred (/ 10000) roof side /\ good_side (measured simd) roof side (/ 10000)
  /\ (forall x, true_corner roof side x <-> In x (map reals [r0; r1; top])) /\ ~ simple roof side.
Proof.
  intros simd. destruct (side_measured simd) as (f & E & L). exists f. split; [exact E|]. split; [exact L|].
  split; [intros q H; apply roof_grid; destruct H as [<-|H]; [cbn; tauto|exact H]|].
  split; [exact side_clear|]. split; [exact best_accurate|]. split; [exact side_spread|]. split; [exact side_blurred|]. split; [apply side_good|]. split; [exact roof_corners|exact side_shared].
Qed.
