(** Exactly which archives are read, rejected or crash the reader (C140). *)
From Verif Require Import Prelude F32 Text TextSpec WadModel WadSpec VerdictSpec VerdictProofs WadWitness VerdictWitness.
Local Open Scope N_scope.

(** C140: reading one mip level panics exactly if the file has a header with another magic than those of WAD2 and WAD3, or, in builds
    with overflow checks, if an offset or size does not fit 32 bits. *)
Theorem C140_panics : forall checks file wl, Forall byte file ->
  ((exists w, read_textures checks (Some file) wl 1 = Panic w) <-> odd_magic file \/ (checks = true /\ overflows file wl)).
Proof. exact panics_iff. Qed.
Print Assumptions C140_panics.

(** It fails with an error exactly if something needed is not inside the file and there is no such overflow. *)
Theorem C140_errors : forall checks file wl, Forall byte file ->
  ((exists e, read_textures checks (Some file) wl 1 = Err e) <-> unreadable checks file wl /\ ~ (checks = true /\ overflows file wl)).
Proof. exact errors_iff. Qed.
Print Assumptions C140_errors.

(** In all other cases the archive is read (C42 says as what). *)
Theorem C140_reads : forall checks file wl, Forall byte file ->
  ((exists ts, read_textures checks (Some file) wl 1 = Ok ts) <->
   ~ odd_magic file /\ ~ (checks = true /\ overflows file wl) /\ ~ unreadable checks file wl).
Proof. exact reads_iff. Qed.
Print Assumptions C140_reads.

Example C140_example : let big := demo_wad WAD2 (lit "big") 65536 65536 in let wall := demo_wad WAD2 (lit "Wall") 8 8 in
  (Forall byte pack_file /\ odd_magic pack_file) /\ (Forall byte big /\ overflows big None)
  /\ (Forall byte (removelast wall) /\ unreadable true (removelast wall) None /\ ~ overflows (removelast wall) None)
  /\ (Forall byte wall /\ ~ odd_magic wall /\ ~ overflows wall None /\ ~ unreadable true wall None).
Proof. exact four_files. Qed.
