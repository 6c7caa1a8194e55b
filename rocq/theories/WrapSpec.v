(** Meshes and concave shapes against the solids of the brushes, in exact arithmetic: specification of C155. *)
From Coq Require Import Reals.
From Verif Require Import Prelude F32 Text MapModel GeoModel LayerSpec WindSpec SolidSpec EdgeSpec RaySpec ShellSpec CladSpec.
Local Open Scope R_scope.

(** The points of the triangles are exactly those of the surfaces of some of the brushes of one entity. *)
Definition wraps (es : list (entity R)) (l : list corner3) : Prop :=
  exists e chosen, In e es /\ chosen <> [] /\ (forall planes, In planes chosen -> In planes (e_brushes e))
    /\ forall x, covered l x <-> exists planes, In planes chosen /\ surface_of planes x.
(** All brushes of the entity, or some of those of the worldspawn, whose layers are set apart. *)
Definition whole (e : entity R) (chosen : list (list (brush_plane R))) : Prop :=
  chosen = e_brushes e \/ worldspawn e /\ forall planes, In planes chosen -> In planes (e_brushes e).
Definition wraps_whole (es : list (entity R)) (l : list corner3) : Prop :=
  exists e chosen, In e es /\ chosen <> [] /\ whole e chosen /\ forall x, covered l x <-> exists planes, In planes chosen /\ surface_of planes x.
(** No straight way leads out of any of these brushes without meeting a triangle. *)
Definition holds_in (es : list (entity R)) (l : list corner3) : Prop :=
  exists e chosen, In e es /\ chosen <> [] /\ whole e chosen
    /\ (forall planes x y, In planes chosen -> deep planes x -> ~ solid planes y -> exists s, 0 < s < 1 /\ covered l (towards x y s))
    /\ forall x, covered l x -> exists planes, In planes chosen /\ solid planes x /\ ~ deep planes x.
