(** The cube with its lid stated by far-off points (C120). *)
From Coq Require Import Reals Lra.
From Verif Require Import Prelude F32 Text MapModel GeoModel RealSpec WindSpec RestateSpec RealProofs WindProofs WindWitness.
Local Open Scope R_scope.

Definition far_lid : brush_plane R := panel (V3 5 7 1) (V3 2 1 0) (V3 (-1) 1 0).
Lemma restated_self : forall pl, restated pl pl.
Proof.
  intros pl. split; [|split; [|repeat split]].
  - unfold on_plane. generalize (facing pl) (bp_v0 pl); intros n a. vectors. ring.
  - exists 1. split; [lra|]. destruct (facing pl) as [x y z]. cbn [vx vy vz]. f_equal; ring.
Qed.
Lemma lid_restated : restated lid far_lid.
Proof.
  split; [|split; [|repeat split]].
  - unfold on_plane, facing, inner, outer, minus, lid, far_lid, panel. cbn. ring.
  - exists 3. split; [lra|]. unfold facing, outer, minus, lid, far_lid, panel. cbn. f_equal; ring.
Qed.
Lemma cube_restated : Forall2 restated cube (far_lid :: tl cube).
Proof. constructor; [exact lid_restated|]. cbn [tl cube]. repeat (constructor; [apply restated_self|]). constructor. Qed.
