(** Two map files joined into one (C147). *)
From Verif Require Import Prelude F32 Text MapModel GeoModel RunModel MapSpec RunSpec.

(** One file after the other, with the end of a line between them. *)
Definition joined (f f1 f2 : file) : Prop := exists b1 b2, f1 = Contents b1 /\ f2 = Contents b2 /\ f = Contents (b1 ++ 10%N :: b2).

Definition has_world (d : doc) : Prop := exists e, In e d /\ doc_class e = Some (lit "worldspawn").
