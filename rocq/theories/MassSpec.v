(** The volume of meshes and concave shapes in single precision: specification of C135. *)
From Coq Require Import Reals.
From Verif Require Import Prelude F32 Text MapModel GeoModel GameDataModel SceneModel DiffSpec MapSpec RealSpec ErrorSpec PointsSpec CoverSpec EdgeSpec ShellSpec BulkSpec.
Local Open Scope R_scope.

(** What C134 asks of a brush, besides whole points. *)
Definition firm (p : platform) (h : R) (planes : list (brush_plane f32)) : Prop :=
  planes <> [] /\ (forall pl, In pl planes -> good_side p planes pl h) /\ (exists o, deep (map plane_of planes) o) /\ no_repeats (map plane_of planes).
Definition firm_document (p : platform) (h : R) (d : doc) : Prop :=
  forall e lines planes, In e d -> In lines (doc_brushes e) -> Forall2 (reads_as p) lines planes -> firm p h planes.

(** The volume of the brush that lines of the map stand for. *)
Definition has_volume (p : platform) (lines : list str) (v : R) : Prop :=
  exists planes, Forall2 (reads_as p) lines planes /\ 0 < v /\ true_volume planes v.

(** Triangles are the surface of some of the brushes of one entity: the volume enclosed is that of the brushes and area vectors cancel,
    up to a bound for each triangle. *)
Definition wraps_solids (p : platform) (h : R) (d : doc) (l : list corner3) : Prop :=
  exists e chosen volumes, In e d /\ subseq chosen (doc_brushes e) /\ chosen <> [] /\ Forall2 (has_volume p) chosen volumes
    /\ (forall c m, (forall lines planes, In lines chosen -> Forall2 (reads_as p) lines planes -> farthest planes c m) ->
         Rabs (sum_numbers (six_volumes c) l - 6 * sum_numbers (fun v => v) volumes) <= INR (length l) * ((m + allowance h) ^ 3 - m ^ 3))
    /\ (forall s, (forall lines planes, In lines chosen -> Forall2 (reads_as p) lines planes -> across planes s) ->
         norm (sum_vectors area_vector l) <= INR (length l) * ((s + 2 * allowance h) ^ 2 - s ^ 2)).
