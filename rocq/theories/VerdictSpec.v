(** Which archives crash the reader: specification of C140. *)
From Verif Require Import Prelude F32 TextSpec WadModel WadSpec.
Local Open Scope N_scope.

(** The file is long enough for a header but is neither a WAD2 nor a WAD3 file. *)
Definition odd_magic (file : bytes) : Prop :=
  exists h hb, header_bytes h hb /\ stored file 0 hb /\ forall ty, h_magic h <> magic_of ty.
