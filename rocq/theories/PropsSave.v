(** Saved game data (C86) and equality of entity definitions (C87). *)
From Verif Require Import Prelude F32 Text MapModel GameDataModel RunModel SaveModel SaveSpec GameDataSpec FgdProofs SaveProofs.
Local Open Scope N_scope.

(** * C86 Saving game data *)
(** After a successful save the file holds the UTF-8 encoding of the printed text, reading the file gives
    that text back, and no other file has changed. *)
Theorem C86_saved : forall p f d d' g path, unicode_forge g -> save p f d g path = (Ok tt, d') ->
  exists text, show_forge_data p g = Ok text /\ read_to_string (d' path) = Ok text
    /\ (exists bs, d' path = Contents bs /\ encodes bs text) /\ forall other, other <> path -> d' other = d other.
Proof. exact SaveProofs.saved. Qed.
Print Assumptions C86_saved.

(** Data that print are saved whenever the system carries out the write. *)
Theorem C86_total : forall p d g path text, show_forge_data p g = Ok text ->
  exists d', save p Written d g path = (Ok tt, d').
Proof. exact SaveProofs.save_total. Qed.
Print Assumptions C86_total.

(** After a failed save the file is as before or holds the beginning of the new contents. *)
Theorem C86_fails : forall p f d d' g path e, unicode_forge g -> save p f d g path = (Err e, d') ->
  (forall other, other <> path -> d' other = d other) /\
  (d' path = d path \/ exists text whole part rest, show_forge_data p g = Ok text /\ encodes whole text
     /\ d' path = Contents part /\ whole = part ++ rest).
Proof. exact SaveProofs.save_fails. Qed.
Print Assumptions C86_fails.

(** A panic while printing leaves every file untouched. *)
Theorem C86_panics : forall p f d d' g path w, save p f d g path = (Panic w, d') ->
  show_forge_data p g = Panic w /\ forall other, d' other = d other.
Proof. exact SaveProofs.save_panics. Qed.
Print Assumptions C86_panics.

(** The saved file of well-formed data says what the FGD format shows of them. *)
Theorem C86_read_back : forall p f d d' g path, wf_forge g -> unicode_forge g -> save p f d g path = (Ok tt, d') ->
  exists text, read_to_string (d' path) = Ok text /\ read_fgd text = Some (visible p g).
Proof. exact SaveProofs.saved_read_back. Qed.
Print Assumptions C86_read_back.

(** Saved files are equal exactly when the data agree in what the format shows. *)
Theorem C86_same : forall p f1 f2 d1 d1' d2 d2' a b path, wf_forge a -> wf_forge b -> typed_forge a -> typed_forge b ->
  unicode_forge a -> unicode_forge b ->
  save p f1 d1 a path = (Ok tt, d1') -> save p f2 d2 b path = (Ok tt, d2') -> (d1' path = d2' path <-> agree p a b).
Proof. exact SaveProofs.saved_same. Qed.
Print Assumptions C86_same.

Example C86_example : unicode_forge sample /\ wf_forge sample /\
  forall p d path, exists d', save p Written d sample path = (Ok tt, d').
Proof.
  split; [|split; [apply FgdProofs.sample_wf|]].
  - unfold unicode_forge. repeat (constructor; [repeat (constructor; [vm_compute; split; [reflexivity|intros [H _]; apply H; reflexivity]|]); constructor|]). constructor.
  - intros p d path. destruct (GameDataProofs.show_forge_total p sample) as [t E]; [apply FgdProofs.sample_wf|]. exact (SaveProofs.save_total p d sample path t E).
Qed.
(** Euro sign and G clef take three and four bytes; empty data are a comment and empty lines. *)
Example C86_bytes : utf8_bytes [0x41; 0xE9; 0x20AC; 0x1D11E] = [0x41; 0xC3; 0xA9; 0xE2; 0x82; 0xAC; 0xF0; 0x9D; 0x84; 0x9E] /\
  forall p, show_forge_data p default_forge = Ok (lit "// " ++ [10; 10; 10]).
Proof. split; reflexivity. Qed.

(** * C87 Entity definitions are identified by class name *)
Theorem C87_equal : forall T (a b : forge_entity T), entity_eqb a b = true <-> fe_name a = fe_name b.
Proof. exact @SaveProofs.entity_eqb_iff. Qed.
Print Assumptions C87_equal.

Theorem C87_equivalence : forall T, (forall a : forge_entity T, entity_eqb a a = true) /\
  (forall a b : forge_entity T, entity_eqb a b = entity_eqb b a) /\
  (forall a b c : forge_entity T, entity_eqb a b = true -> entity_eqb b c = true -> entity_eqb a c = true).
Proof. exact @SaveProofs.eqb_equivalence. Qed.
Print Assumptions C87_equivalence.

(** Equal definitions hash alike. *)
Theorem C87_hash : forall T (a b : forge_entity T), entity_eqb a b = true -> entity_hashed a = entity_hashed b.
Proof. exact @SaveProofs.hashed_same. Qed.
Print Assumptions C87_hash.

(** The hasher never sees the same bytes for different definitions, whatever is hashed after them. *)
Theorem C87_prefix_free : forall T (a b : forge_entity T) x y, unicode (fe_name a) -> unicode (fe_name b) ->
  entity_hashed a ++ x = entity_hashed b ++ y -> entity_eqb a b = true.
Proof. exact @SaveProofs.hashed_iff. Qed.
Print Assumptions C87_prefix_free.

Example C87_example : let a := @ForgeEntity f32 PointClass [] (lit "light") (lit "A light") [] in
  let b := @ForgeEntity f32 SolidClass [] (lit "light") [] [] in
  entity_eqb a b = true /\ entity_eqb a default_entity = false /\
  entity_hashed a = [108; 105; 103; 104; 116; 255] /\ unicode (fe_name a).
Proof. repeat split; try reflexivity. apply SaveProofs.uni_ascii. reflexivity. Qed.
