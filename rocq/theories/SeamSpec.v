(** Edges of brushes in single precision (C131). *)
From Coq Require Import Reals.
From Verif Require Import Prelude F32 Text MapModel GeoModel RealSpec ErrorSpec CornerSpec.
Local Open Scope R_scope.

(** [y] comes after [x] in the list, whose last element is followed by the first. *)
Definition follows {A} (l : list A) (x y : A) : Prop := exists i, nth_error l i = Some x /\ nth_error l (S i mod length l) = Some y.
(** [v] is at most [h] from [x]. *)
Definition by_corner (h : R) (v : vertex f32) (x : vec3 R) : Prop := norm (minus (point_of (vt_pos v)) x) <= h.
Definition together (h : R) (v w : vertex f32) : Prop := norm (minus (point_of (vt_pos v)) (point_of (vt_pos w))) <= h.

(** The ring runs through the corners of a side of the true solid, and the vertices of the face with it. *)
Definition traces (h : R) (planes : list (brush_plane f32)) (pl : brush_plane f32) (f : face f32) (ys : list (vec3 R)) : Prop :=
  (forall x, In x ys <-> true_corner planes pl x) /\ Forall2 (by_corner h) (f_vertices f) ys.
Definition rings_of (h : R) (planes : list (brush_plane f32)) (faces : list (face f32)) (rings : list (list (vec3 R))) : Prop :=
  length rings = length planes /\ length faces = length planes
  /\ forall i pl f ys, nth_error planes i = Some pl -> nth_error faces i = Some f -> nth_error rings i = Some ys -> traces h planes pl f ys.

(** Each way from a point of a ring to the next is gone the other way in another ring. *)
Definition meet (rings : list (list (vec3 R))) : Prop :=
  forall i ys x y, nth_error rings i = Some ys -> follows ys x y -> x <> y -> exists j zs, j <> i /\ nth_error rings j = Some zs /\ follows zs y x.
(** No way between two points is gone twice in the same direction. *)
Definition meet_once (rings : list (list (vec3 R))) : Prop :=
  forall i j ys zs x y, nth_error rings i = Some ys -> nth_error rings j = Some zs -> follows ys x y -> follows zs x y -> x <> y -> i = j.

(** All corners of the true solid, each once. *)
Definition solid_corners (planes : list (brush_plane f32)) (V : list (vec3 R)) : Prop :=
  NoDup V /\ forall x, In x V <-> exists pl, In pl planes /\ true_corner planes pl x.
(** The number of indices of all faces. *)
Definition index_total (g : brush_geo f32) : nat := fold_right (fun f n => (length (f_indices f) + n)%nat) 0%nat (bg_faces g).
