(** Meshes and concave shapes of maps made of boxes, in single precision: specification of C132. *)
From Coq Require Import Reals Permutation.
From Verif Require Import Prelude F32 Text MapModel GeoModel GameDataModel SceneModel DiffSpec MapSpec RealSpec EdgeSpec ErrorSpec PointsSpec BoxSpec BoxEdgeSpec ShellSpec.
Local Open Scope R_scope.

(** The planes of a box with integer corners, one for each side in any order, no edge more than [r] times as long as another. *)
Definition block (p : platform) (r : Z) (box1 : vec3 Z * vec3 Z) (planes : list (brush_plane f32)) : Prop :=
  let '(lo, hi) := box1 in box lo hi /\ slender r lo hi /\ (forall pl, In pl planes -> grid_plane pl)
  /\ exists sides, Permutation sides all_sides /\ Forall2 (fun pl s => exists area, box_plane lo hi s area pl /\ exact_length p area) planes sides.
Definition volume (box1 : vec3 Z * vec3 Z) : Z := let '(lo, hi) := box1 in ((vx hi - vx lo) * (vy hi - vy lo) * (vz hi - vz lo))%Z.

(** The brush a list of lines stands for is this box. *)
Definition block_of (p : platform) (r : Z) (lines : list str) (box1 : vec3 Z * vec3 Z) : Prop :=
  exists planes, Forall2 (reads_as p) lines planes /\ block p r box1 planes.
Definition block_document (p : platform) (r : Z) (d : doc) : Prop :=
  forall e lines planes, In e d -> In lines (doc_brushes e) -> Forall2 (reads_as p) lines planes -> exists box1, block p r box1 planes.

(** The triangles of a mesh, whatever their texture, or of a concave shape, where the floats put them. *)
Definition shells32 (n : node f32) : list (list corner3) :=
  match n with
  | NVisual _ (VisMesh l) => [flat_map (fun s => drawn_triangles (map point_of (s_vertices s)) (s_indices s)) l]
  | NCollision _ (ColConcave l) => map (fun c => drawn_triangles (map point_of (cc_vertices c)) (cc_indices c)) l
  | _ => []
  end.

(** Triangles are the surface of some of the brushes of one entity, which are boxes: twelve for each, leaving no gap,
    and the volume enclosed is that of the boxes. *)
Definition wraps_boxes (p : platform) (r : Z) (d : doc) (l : list corner3) : Prop :=
  watertight l /\ exists e chosen boxes, In e d /\ subseq chosen (doc_brushes e) /\ chosen <> [] /\ Forall2 (block_of p r) chosen boxes
    /\ length l = (12 * length boxes)%nat
    /\ forall o, sum_numbers (six_volumes o) l = 6 * sum_numbers (fun b => IZR (volume b)) boxes.
