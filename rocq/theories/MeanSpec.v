(** Means of points (C104). *)
From Coq Require Import Reals List.
From Verif Require Import Prelude F32 Text MapModel GeoModel RealSpec ErrorSpec.
Local Open Scope R_scope.

Definition average (l : list (vec3 R)) : vec3 R :=
  let part f := fold_right Rplus 0 (map f l) / INR (length l) in V3 (part vx) (part vy) (part vz).

(** How far rounding may move the mean of [n] points within [m] of the origin. *)
Definition drift (n : nat) (m : R) : R := (INR n + 12) / 2 ^ 23 * m + / 10 ^ 30.
