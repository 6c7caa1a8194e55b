(** Corners shared by more than three planes (C110). *)
From Coq Require Import Reals.
From Verif Require Import Prelude F32 Text MapModel GeoModel RealSpec ErrorSpec CornerSpec MeanSpec WoundSpec.
Local Open Scope R_scope.

(** A choice of pairs of planes, each with the corner where it meets the plane, in which no corner is forgotten. *)
Definition tally (planes : list (brush_plane f32)) (plane : brush_plane f32) (ls : list (brush_plane f32 * brush_plane f32 * vec3 R)) : Prop :=
  NoDup (map fst ls)
  /\ (forall p1 p2 x, In (p1, p2, x) ls -> In p1 planes /\ In p2 planes /\ crossing plane p1 p2 x /\ in_solid planes x)
  /\ forall x, true_corner planes plane x -> In x (map snd ls).

(** However often rounding repeats a corner that several pairs of planes share, the corners are spread around their mean. *)
Definition always_spread (s r b : R) (planes : list (brush_plane f32)) (plane : brush_plane f32) : Prop :=
  forall ls, tally planes plane ls -> spread s r (map snd ls) /\ (64 + 4 * INR (length ls)) * (b + / 10 ^ 20) <= s * r.

(** Three points or more. *)
Definition three (P : vec3 R -> Prop) : Prop := exists x y z, P x /\ P y /\ P z /\ x <> y /\ y <> z /\ x <> z.
