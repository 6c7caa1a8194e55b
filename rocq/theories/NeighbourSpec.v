(** Sides of brushes (C127). *)
From Verif Require Import Prelude F32 Text MapModel GeoModel.

(** The faces with corners enough to be seen. *)
Definition shown {T} (b : brush_geo T) : list (face T) := filter (fun f => (3 <=? length (f_vertices f))%nat) (bg_faces b).
