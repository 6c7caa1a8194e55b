(** A crate to try C130 on. *)
From Coq Require Import Reals Lra Lia ZArith.
From Verif Require Import Prelude F32 Text MapModel GeoModel BaseProofs BoxSpec ErrorSpec WoundSpec BoxEdgeSpec GeoWitness PointsWitness WoundWitness.
Local Open Scope R_scope.

Theorem crate_closed : forall simd, let p := measured simd in box (V3 (-16) (-8) 0)%Z (V3 16 24 32)%Z
  /\ Forall2 (fun pl s => exists area, box_plane (V3 (-16) (-8) 0)%Z (V3 16 24 32)%Z s area pl /\ exact_length p area) (crate standard_uv) all_sides
  /\ (forall pl, In pl (crate standard_uv) -> grid_plane pl) /\ slender 1 (V3 (-16) (-8) 0)%Z (V3 16 24 32)%Z /\ / 1000000 <= / (3 * IZR 1)
  /\ accurate_angle (/ 1000000) (p_atan2 p).
Proof.
  intros simd p. split; [exact crate_box|]. split.
  { pose proof (crate_ok standard_uv) as F. induction F as [|pl s l l' H F IH]; constructor; [|exact IH]. exists 64%Z. split; [exact H|]. right. exists 6%Z. split; [lia|reflexivity]. }
  split; [exact crate_grid|]. split; [unfold slender; cbn [vx vy vz]; lia|]. split; [apply Rinv_le_contravar; lra|exact best_accurate].
Qed.
