(** Triangles of whole runs against the sides written in the map file (C106). *)
From Coq Require Import Reals.
From Verif Require Import Prelude F32 Text MapModel GeoModel SceneModel RealSpec ErrorSpec CornerSpec MeanSpec WoundSpec.
Local Open Scope R_scope.

(** What C105 asks of a side: corners clear of the other planes, far enough apart for the platform's angles, no three of them in line. *)
Definition well_shaped (p : platform) (planes : list (brush_plane f32)) (pl : brush_plane f32) : Prop :=
  clear planes pl /\ simple planes pl /\ exists d s r b xs, accurate_angle d (p_atan2 p) /\ NoDup xs /\ (forall x, In x xs <-> true_corner planes pl x)
    /\ spread s r xs /\ blurred b planes pl /\ / 1000 <= s <= 1 /\ d <= s / 3 /\ (64 + 4 * INR (length xs)) * (b + / 10 ^ 20) <= s * r
    /\ thick (4 * (b + / 10 ^ 20)) xs.

(** The arrays of triangles a node holds: points and indices, and for surfaces the texture. *)
Definition drawings (n : node f32) : list (list (vec3 f32) * list nat * option (option str)) :=
  match n with
  | NVisual _ (VisMesh ss) => map (fun s => (s_vertices s, s_indices s, Some (s_texture s))) ss
  | NCollision _ (ColConcave cs) => map (fun c => (cc_vertices c, cc_indices c, None)) cs
  | _ => []
  end.

(** The [k]-th triangle: three indices in a row. *)
Definition kth_triangle (points : list (vec3 f32)) (ix : list nat) (k : nat) (a b c : vec3 f32) : Prop :=
  exists i j l, nth_error ix (3 * k) = Some i /\ nth_error ix (3 * k + 1) = Some j /\ nth_error ix (3 * k + 2) = Some l
    /\ nth_error points i = Some a /\ nth_error points j = Some b /\ nth_error points l = Some c.
