(** The unit cube in a mirror, to try C144 on. *)
From Coq Require Import Reals Lra Permutation.
From Verif Require Import Prelude F32 Text MapModel GeoModel SceneModel GeoSpec RealSpec WindSpec RigidSpec RestateSpec MirrorSpec BaseProofs RealProofs WindProofs ShiftProofs WindWitness.
Local Open Scope R_scope.

Definition glass (a : vec3 R) : vec3 R := V3 (- vx a) (vy a) (vz a).
Lemma glass_reflection : reflection glass.
Proof. unfold reflection, glass, along, opposite. repeat split; intros; try (apply v3_ext; vectors; ring); vectors; ring. Qed.
Definition beyond : vec3 R := V3 5 0 0.
Definition seen (pl : brush_plane R) : brush_plane R :=
  BrushPlane (carry glass beyond (bp_v0 pl)) (carry glass beyond (bp_v2 pl)) (carry glass beyond (bp_v1 pl)) (bp_texture pl) (bp_uv pl) (bp_rotation pl) (bp_scale pl) (bp_extra pl).
Lemma seen_mirrored : forall pl, mirrored glass beyond pl (seen pl).
Proof. intros pl. repeat split. Qed.
Lemma cube_seen : Forall2 (mirrored glass beyond) cube (map seen cube).
Proof. induction cube; constructor; auto using seen_mirrored. Qed.
