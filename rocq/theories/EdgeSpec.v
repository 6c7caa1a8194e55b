(** Edges of brushes over the real numbers (C123, C124). *)
From Coq Require Import Reals.
From Verif Require Import Prelude F32 Text MapModel GeoModel RealSpec WindSpec SolidSpec.
Local Open Scope R_scope.

(** From one corner of a face to the next, the last being followed by the first. *)
Definition edge (f : face R) (p q : vec3 R) : Prop :=
  exists i u v, nth_error (f_vertices f) i = Some u /\ nth_error (f_vertices f) (S i mod length (f_vertices f)) = Some v /\ p = vt_pos u /\ q = vt_pos v.

(** Two planes bound the same half of space. *)
Definition same_half (P Q : brush_plane R) : Prop :=
  (exists k, 0 < k /\ facing Q = V3 (k * vx (facing P)) (k * vy (facing P)) (k * vz (facing P))) /\ on_plane P (bp_v0 Q).
Definition no_repeats (planes : list (brush_plane R)) : Prop :=
  forall i j P Q, nth_error planes i = Some P -> nth_error planes j = Some Q -> same_half P Q -> i = j.

(** A point behind all planes. *)
Definition deep (planes : list (brush_plane R)) (o : vec3 R) : Prop := forall q, In q planes -> inner (facing q) (minus o (bp_v0 q)) < 0.

(** ** Sums over triangles *)
Fixpoint triples {A} (l : list A) : list (A * A * A) :=
  match l with i :: j :: k :: rest => (i, j, k) :: triples rest | _ => [] end.
Definition place (f : face R) (i : nat) : vec3 R := match nth_error (f_vertices f) i with Some v => vt_pos v | None => V3 0 0 0 end.
(** The triangles of all faces, as points. *)
Definition all_triangles (faces : list (face R)) : list (vec3 R * vec3 R * vec3 R) :=
  flat_map (fun f => map (fun '(i, j, k) => (place f i, place f j, place f k)) (triples (f_indices f))) faces.
Definition sum_vectors {A} (g : A -> vec3 R) (l : list A) : vec3 R :=
  fold_right (fun x s => V3 (vx (g x) + vx s) (vy (g x) + vy s) (vz (g x) + vz s)) (V3 0 0 0) l.
Definition sum_numbers {A} (g : A -> R) (l : list A) : R := fold_right (fun x s => g x + s) 0 l.
(** Twice the area of a triangle, along its normal. *)
Definition area_vector (t : vec3 R * vec3 R * vec3 R) : vec3 R := let '(a, b, c) := t in outer (minus b a) (minus c a).
(** Six times the volume of the tetrahedron from [o] to a triangle; positive if the triangle turns clockwise seen from outside. *)
Definition six_volumes (o : vec3 R) (t : vec3 R * vec3 R * vec3 R) : R := let '(a, b, c) := t in - inner (minus a o) (outer (minus b o) (minus c o)).
