(** A file that is no archive, to try C140 on. *)
From Verif Require Import Prelude F32 Text TextSpec WadModel DiffSpec WadSpec VerdictSpec BaseProofs WadProofs WadWitness VerdictProofs.
Local Open Scope N_scope.

Definition pack_file : bytes := lit "PACK" ++ le 4 12 ++ le 4 64 ++ [7].
Lemma pack_odd : Forall byte pack_file /\ odd_magic pack_file.
Proof.
  split; [apply Forall_forall; intros x H; apply N.ltb_lt; revert x H; apply forallb_forall; vm_compute; reflexivity|].
  exists (Header (lit "PACK") 12 64), (lit "PACK" ++ le 4 12 ++ le 4 64). split; [repeat split|]. split; [stored_here 0%nat 12%nat|]. intros [|]; discriminate.
Qed.
Lemma big_bytes : Forall byte (demo_wad WAD2 (lit "big") 65536 65536).
Proof. apply Forall_forall. intros x H. apply N.ltb_lt. revert x H. apply forallb_forall. vm_compute. reflexivity. Qed.
Lemma cut_bytes : Forall byte (removelast (demo_wad WAD2 (lit "Wall") 8 8)).
Proof. apply Forall_forall. intros x H. apply N.ltb_lt. revert x H. apply forallb_forall. vm_compute. reflexivity. Qed.
Theorem four_files : let big := demo_wad WAD2 (lit "big") 65536 65536 in let wall := demo_wad WAD2 (lit "Wall") 8 8 in
  (Forall byte pack_file /\ odd_magic pack_file) /\ (Forall byte big /\ overflows big None)
  /\ (Forall byte (removelast wall) /\ unreadable true (removelast wall) None /\ ~ overflows (removelast wall) None)
  /\ (Forall byte wall /\ ~ odd_magic wall /\ ~ overflows wall None /\ ~ unreadable true wall None).
Proof.
  cbv zeta. split; [exact pack_odd|]. split; [exact (conj big_bytes demo_overflows)|].
  assert (E : exists e, read_textures true (Some (removelast (demo_wad WAD2 (lit "Wall") 8 8))) None 1 = Err e) by (eexists; vm_compute; reflexivity).
  apply (errors_iff true _ None cut_bytes) in E. destruct E as (U & N). split; [split; [exact cut_bytes|]; split; [exact U|]; intros O; apply N; auto|].
  assert (E : exists ts, read_textures true (Some (demo_wad WAD2 (lit "Wall") 8 8)) None 1 = Ok ts) by (eexists; vm_compute; reflexivity).
  apply (reads_iff true _ None demo_bytes) in E. destruct E as (M & O & R). split; [exact demo_bytes|]. split; [exact M|]. split; [|exact R]. intros K. apply O. auto.
Qed.
