(** A crate, to try C153 on. *)
From Coq Require Import Reals Lra Lia ZArith Permutation.
From Verif Require Import Prelude F32 Text MapModel GeoModel BoxSpec ErrorSpec WoundSpec BoxEdgeSpec BrickSpec CartonSpec CladSpec
  BoxEdgeProofs GeoWitness WoundWitness BoxEdgeWitness.
Local Open Scope R_scope.

Theorem crate_clad : forall simd tx e, let p := measured simd in exists g, block p 1 (V3 (-16) (-8) 0, V3 16 24 32)%Z (crate standard_uv)
  /\ (1 <= 1 <= 40000)%Z /\ / 1000000 <= / (3 * IZR 1) /\ accurate_angle (/ 1000000) (p_atan2 p) /\ build_brush (f32_num p) tx e (crate standard_uv) = Ok g
  /\ on_box (V3 (-16) (-8) 0)%Z (V3 16 24 32)%Z (V3 16 3 (/ 7)) /\ ~ on_box (V3 (-16) (-8) 0)%Z (V3 16 24 32)%Z (V3 15 3 (/ 7)).
Proof.
  intros simd tx e p. destruct (crate_closed simd) as (Bx & F & G & S & L & A).
  destruct (box_closed p (V3 (-16) (-8) 0)%Z (V3 16 24 32)%Z (crate standard_uv) all_sides 1 (/ 1000000) tx e Bx F (Permutation_refl _) G S ltac:(lia) L A) as (g & E & _).
  exists g. split; [split; [exact Bx|]; split; [exact S|]; split; [exact G|]; exists all_sides; split; [reflexivity|exact F]|].
  split; [lia|]. split; [exact L|]. split; [exact A|]. split; [exact E|]. unfold on_box, in_box. cbn [vx vy vz]. split; [lra|]. intros (_ & H). lra.
Qed.
