(** The volume of brushes in single precision (C134). *)
From Coq Require Import Reals.
From Verif Require Import Prelude F32 Text MapModel GeoModel RealSpec WindSpec ErrorSpec CornerSpec EdgeSpec ShellSpec.
Local Open Scope R_scope.

(** The triangles of faces in single precision, as their vertices and indices say. *)
Definition drawn32 (faces : list (face f32)) : list corner3 :=
  flat_map (fun f => drawn_triangles (map (fun v => point_of (vt_pos v)) (f_vertices f)) (f_indices f)) faces.

(** A polygon cut into triangles from its first point. *)
Fixpoint cut_from (a : vec3 R) (l : list (vec3 R)) : list corner3 :=
  match l with b :: (c :: _) as r => (a, b, c) :: cut_from a r | _ => [] end.
Definition cut (ys : list (vec3 R)) : list corner3 := match ys with a :: l => cut_from a l | [] => [] end.

(** The corners of a side of the true solid, each once and clockwise. *)
Definition outline (planes : list (brush_plane f32)) (pl : brush_plane f32) (ys : list (vec3 R)) : Prop :=
  NoDup ys /\ (forall x, In x ys <-> true_corner planes pl x)
  /\ forall i j k a b c, (i < j)%nat -> (j < k)%nat -> nth_error ys i = Some a -> nth_error ys j = Some b -> nth_error ys k = Some c -> clockwise (facing (plane_of pl)) a b c.
(** The true solid has sides, and [v] is the volume between them, whatever point it is measured from and wherever polygons begin. *)
Definition true_volume (planes : list (brush_plane f32)) (v : R) : Prop :=
  (exists rings, Forall2 (outline planes) planes rings)
  /\ forall rings, Forall2 (outline planes) planes rings -> forall c, sum_numbers (six_volumes c) (flat_map cut rings) = 6 * v.

(** No corner of the true solid is farther than [m] from [c]. *)
Definition farthest (planes : list (brush_plane f32)) (c : vec3 R) (m : R) : Prop :=
  forall pl x, In pl planes -> true_corner planes pl x -> norm (minus x c) <= m.
(** No two corners of a side are farther than [d] from each other. *)
Definition across (planes : list (brush_plane f32)) (d : R) : Prop :=
  forall pl x y, In pl planes -> true_corner planes pl x -> true_corner planes pl y -> norm (minus x y) <= d.
