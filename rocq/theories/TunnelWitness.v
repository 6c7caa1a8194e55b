(** A crate and a line through it, to try C154 on. *)
From Coq Require Import Reals Lra Lia ZArith Permutation.
From Verif Require Import Prelude F32 Text MapModel GeoModel BoxSpec ErrorSpec WoundSpec BoxEdgeSpec RaySpec BrickSpec CartonSpec CladSpec TunnelSpec
  CladProofs GeoWitness WoundWitness CladWitness.
Local Open Scope R_scope.

Theorem crate_pierced : forall simd tx e, let p := measured simd in exists g, block p 1 (V3 (-16) (-8) 0, V3 16 24 32)%Z (crate standard_uv)
  /\ (1 <= 1 <= 40000)%Z /\ / 1000000 <= / (3 * IZR 1) /\ accurate_angle (/ 1000000) (p_atan2 p) /\ build_brush (f32_num p) tx e (crate standard_uv) = Ok g
  /\ V3 (-2) (-1) (/ 3) <> V3 0 0 0 /\ deep_in (V3 (-16) (-8) 0)%Z (V3 16 24 32)%Z (onwards (V3 40 20 0) (V3 (-2) (-1) (/ 3)) 20)
  /\ ~ on_faces g (V3 40 20 0) /\ ~ in_box (V3 (-16) (-8) 0)%Z (V3 16 24 32)%Z (V3 40 20 0).
Proof.
  intros simd tx e p. destruct (crate_clad simd tx e) as (g & B & L & D & A & E & _).
  assert (N : ~ in_box (V3 (-16) (-8) 0)%Z (V3 16 24 32)%Z (V3 40 20 0)) by (unfold in_box; cbn [vx vy vz]; lra).
  exists g. split; [exact B|]. split; [exact L|]. split; [exact D|]. split; [exact A|]. split; [exact E|]. split; [intros X; injection X; lra|].
  split; [unfold deep_in, onwards; cbn [vx vy vz]; lra|]. split; [|exact N]. intros M. apply N. exact (proj1 (proj1 (box_clad p 1 (/ 1000000) L D A tx e _ g _ _ B E _) M)).
Qed.
