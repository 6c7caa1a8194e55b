(** A small map at twice its size, and a brush too small once shrunk (C122). *)
From Coq Require Import Reals Lra.
From Verif Require Import Prelude F32 Text MapModel GeoModel LayerModel GameDataModel SceneModel GeoSpec RealSpec WindSpec RigidSpec ScaleSpec
  BaseProofs GeoProofs RealProofs WindProofs WindWitness RigidProofs RigidWitness.
Local Open Scope R_scope.

Definition planar_turn (a : R) (x : vec2 R) : vec2 R := V2 (cos a * ux x - sin a * uy x) (sin a * ux x + cos a * uy x).
Lemma planar_homogeneous : homogeneous planar_turn.
Proof. intros k a [x y]. unfold planar_turn. cbn [ux uy]. f_equal; ring. Qed.

Lemma hall_doubled : Forall2 (grown_entity digit 2) (lit_hall (lit "1 0 1") crate) (lit_hall (lit "2 0 2") (map (grown_plane 2) crate)).
Proof.
  assert (G : forall x y z x' y' z' a b c, ~ In 32%N x -> ~ In 32%N y -> ~ In 32%N z -> ~ In 32%N x' -> ~ In 32%N y' -> ~ In 32%N z' ->
    digit x = Some a -> digit y = Some b -> digit z = Some c -> digit x' = Some (2 * a) -> digit y' = Some (2 * b) -> digit z' = Some (2 * c) ->
    Forall2 (grown_entity digit 2) (lit_hall (x ++ [32%N] ++ y ++ [32%N] ++ z) crate) (lit_hall (x' ++ [32%N] ++ y' ++ [32%N] ++ z') (map (grown_plane 2) crate))).
  { intros x y z x' y' z' a b c X Y Z X' Y' Z' A B C A' B' C'. constructor; [|constructor; [|constructor]].
    - split; [reflexivity|]. split; [reflexivity|]. left. split; reflexivity.
    - split; [reflexivity|]. split.
      + intros k N. cbn [e_props hget]. destruct (str_eqb k (lit "classname")); [reflexivity|].
        destruct (str_eqb k (lit "origin")) eqn:E; [|reflexivity]. apply str_eqb_eq in E. contradiction.
      + right. exists (V3 a b c). split; [exists x, y, z|exists x', y', z']; repeat split; assumption. }
  assert (D : forall c, In c [48; 49; 50]%N -> ~ In 32%N [c]) by (intros c Ic [H|[]]; subst c; cbn in Ic; repeat destruct Ic as [Ic|Ic]; try discriminate Ic; contradiction).
  refine (G (lit "1") (lit "0") (lit "1") (lit "2") (lit "0") (lit "2") 1 0 1 _ _ _ _ _ _ _ _ _ _ _ _); try (apply D; cbn; tauto); unfold digit; cbn; f_equal; lra.
Qed.

Lemma crate_roomy : forall k, 0 < k -> roomy k crate.
Proof.
  intros k K p0 p1 p2 q [x y z] I0 I1 I2 Iq S _ _ _ A0 A1 A2.
  assert (Ax : forall p, In p crate -> on_plane p (V3 x y z) -> ((x = 0 \/ x = 1) /\ exists s, facing p = V3 s 0 0) \/ ((y = 0 \/ y = 1) /\ exists s, facing p = V3 0 s 0)
    \/ ((z = 0 \/ z = 1) /\ exists s, facing p = V3 0 0 s)).
  { clear. intros p I H. unfold on_plane in H. cbn in I.
    repeat destruct I as [<-|I]; try contradiction; unfold facing, inner, outer, minus, wrapped in *; cbn in H |- *.
    - right; right. split; [right; lra|exists 1; f_equal; ring].
    - right; right. split; [left; lra|exists (-1); f_equal; ring].
    - left. split; [right; lra|exists 1; f_equal; ring].
    - left. split; [left; lra|exists (-1); f_equal; ring].
    - right; left. split; [right; lra|exists 1; f_equal; ring].
    - right; left. split; [left; lra|exists (-1); f_equal; ring]. }
  assert (C : (x = 0 \/ x = 1) /\ (y = 0 \/ y = 1) /\ (z = 0 \/ z = 1)).
  { unfold spans in S. rewrite !crate_norm in S by assumption. clear Iq.
    destruct (Ax _ I0 A0) as [(B0 & s0 & F0)|[(B0 & s0 & F0)|(B0 & s0 & F0)]], (Ax _ I1 A1) as [(B1 & s1 & F1)|[(B1 & s1 & F1)|(B1 & s1 & F1)]],
      (Ax _ I2 A2) as [(B2 & s2 & F2)|[(B2 & s2 & F2)|(B2 & s2 & F2)]]; first [now repeat split|exfalso; rewrite F0, F1, F2 in S; unfold inner, outer in S; cbn in S; ring_simplify in S; lra]. }
  assert (W : forall d, 0 < d -> within d q (V3 x y z)).
  { intros d D. unfold within. rewrite (crate_norm q Iq). cbn in Iq. destruct C as (X & Y & Z).
    repeat destruct Iq as [<-|Iq]; try contradiction; unfold facing, inner, outer, minus, wrapped; cbn; destruct X, Y, Z; lra. }
  split; intros _; apply W; [apply Rdiv_lt_0_compat; lra|lra].
Qed.
Lemma hall_roomy : forall k origin e b, 0 < k -> In e (lit_hall origin crate) -> In b (e_brushes e) -> roomy k b.
Proof. intros k origin e b K [<-|[<-|[]]] Ib; cbn in Ib; [|contradiction]. destruct Ib as [<-|[]]. now apply crate_roomy. Qed.

(** A unit cube cut at half its height: its old top is gone, unless the cube is a thousandth of its size. *)
Definition shelf : brush_plane R := panel (V3 0 0 (/ 2)) e1 e2.
Definition cut_cube : list (brush_plane R) := shelf :: cube.
Lemma cut_norm : forall p, In p cut_cube -> norm (facing p) = 1.
Proof. intros p [<-|I]; [|now apply cube_norm]. rewrite <- sqrt_1. unfold norm. f_equal. unfold facing, inner, outer, minus, shelf, panel; cbn; ring. Qed.
Lemma lid_shrunk : forall parse cosine radians atan2 quat mat2 tx e f f',
  build_face (real_num parse cosine radians atan2 quat mat2) tx e cut_cube lid = Ok f ->
  build_face (real_num parse cosine radians atan2 quat mat2) tx e (map (grown_plane (/ 1000)) cut_cube) (grown_plane (/ 1000) lid) = Ok f' ->
  f_vertices f = [] /\ f_vertices f' <> [].
Proof.
  intros parse cosine radians atan2 quat mat2 tx e f f' E E'. split.
  - destruct (f_vertices f) as [|v l] eqn:V; [reflexivity|exfalso]. destruct (real_corners _ _ _ _ _ _ _ _ _ _ _ E) as (_ & C).
    assert (Iv : In (vt_pos v) (map vt_pos (f_vertices f))) by (rewrite V; now left). apply C in Iv. destruct Iv as (p1 & p2 & _ & _ & _ & _ & _ & _ & A & _ & _ & W).
    specialize (W shelf (or_introl eq_refl)). unfold within in W. rewrite cut_norm in W by now left. destruct (vt_pos v) as [x y z].
    unfold on_plane, facing, inner, outer, minus, lid, shelf, panel in *. cbn in A, W. lra.
  - intros N. assert (C : exists x, In x (map vt_pos (f_vertices f'))); [|rewrite N in C; destruct C as (x & [])].
    pose proof (fun x => proj2 (proj2 (real_corners _ _ _ _ _ _ _ _ _ _ _ E') x)) as K. clear N E E' f.
    exists (V3 (/ 1000) (/ 1000) (/ 1000)). apply K. clear K.
    assert (No : forall p, In p cut_cube -> norm (facing (grown_plane (/ 1000) p)) = / 1000000).
    { intros p I. assert (Nf : norm (facing (grown_plane (/ 1000) p)) = / 1000000 * norm (facing p)).
      { assert (Gf : facing (grown_plane (/ 1000) p) = V3 (/ 1000000 * vx (facing p)) (/ 1000000 * vy (facing p)) (/ 1000000 * vz (facing p))).
        { unfold facing, grown_plane, grow. cbn [bp_v0 bp_v1 bp_v2]. vectors. f_equal; field. }
        rewrite Gf. generalize (facing p). intros [a b c]. unfold norm, inner. cbn [vx vy vz].
        replace (/ 1000000 * a * (/ 1000000 * a) + / 1000000 * b * (/ 1000000 * b) + / 1000000 * c * (/ 1000000 * c)) with (/ 1000000 * / 1000000 * (a * a + b * b + c * c)) by ring.
        rewrite sqrt_mult_alt by lra. rewrite sqrt_square by lra. reflexivity. }
      rewrite Nf, cut_norm by exact I. lra. }
    exists (grown_plane (/ 1000) (panel e1 e2 e3)), (grown_plane (/ 1000) (panel e2 e3 e1)).
    split; [apply in_map; cbn; tauto|]. split; [apply in_map; cbn; tauto|].
    repeat (split; [unfold proper; rewrite No by (cbn; tauto); lra|]).
    split; [unfold spans; rewrite !No by (cbn; tauto); unfold facing, inner, outer, minus, grown_plane, grow, lid, panel; cbn; lra|].
    repeat (split; [unfold on_plane, facing, inner, outer, minus, grown_plane, grow, lid, panel; cbn; lra|]).
    intros q I. apply in_map_iff in I. destruct I as (q' & <- & I). unfold within. rewrite (No q' I). cbn in I.
    repeat destruct I as [<-|I]; try contradiction; unfold facing, inner, outer, minus, grown_plane, grow, shelf, lid, panel; cbn; lra.
Qed.
Lemma thousandth : 0 < / 1000.
Proof. lra. Qed.
