(** The bare castle and a file with a lamp and a handle, to try C147 on. *)
From Coq Require Import Permutation.
From Verif Require Import Prelude F32 Text MapModel GeoModel LayerModel GameDataModel SceneModel RunModel Witness SceneWitness
  GeoSpec GameDataSpec MapSpec Utf8Spec TreeSpec PropertySpec RunSpec InvarianceSpec GrowSpec JoinSpec
  BaseProofs PlaneProofs MapProofs TextProofs RunProofs PrintProofs GeoWitness RunWitness GrowWitness.

Definition fittings : map_source :=
  [ [MProp (lit "classname") (lit "lamp")]; [MProp (lit "classname") (lit "handle"); MProp (lit "_tb_group") (lit "7")] ].
Lemma fittings_printable : printable (polar true) fittings.
Proof.
  intros e i He Hi. cbn [fittings In] in He. repeat (destruct He as [<-|He]; [cbn [In] in Hi; repeat (destruct Hi as [<-|Hi]; [|]); try contradiction; cbn [printable_item]|]);
    try contradiction; split; plainly.
Qed.
Definition fittings_file : file := Contents (map_bytes (polar true) fittings).
Definition with_file (f : file) : config := Config f textures (Blacklist [] []) no_fd yard_gd.
Definition fitted_config : config := with_file (Contents (map_bytes (polar true) bare_castle ++ 10%N :: map_bytes (polar true) fittings)).
Definition twice_config : config := with_file (Contents (map_bytes (polar true) bare_castle ++ 10%N :: map_bytes (polar true) bare_castle)).

Lemma ends_last : forall l, ends_with_cr l -> last l 0%N = 13%N.
Proof. intros l (x & ->). apply last_last. Qed.
Lemma bare_ends : ~ ends_with_cr (map_text (polar true) bare_castle).
Proof. intros H. apply ends_last in H. vm_compute in H. discriminate. Qed.
Lemma bare_world : has_world (source_doc (polar true) bare_castle).
Proof. exists (nth 0 (source_doc (polar true) bare_castle) []). split; [now left|reflexivity]. Qed.
Lemma fittings_worldless : ~ has_world (source_doc (polar true) fittings).
Proof. intros (e & I & C). cbn in I. destruct I as [<-|[<-|[]]]; discriminate. Qed.

Theorem castle_joined : exists text text2 d d2 nodes nodes', same_but_map bare_config fitted_config /\ joined (cf_map fitted_config) (cf_map bare_config) fittings_file /\ ~ ends_with_cr text
  /\ file_text (cf_map bare_config) text /\ file_text fittings_file text2 /\ text_document (polar true) text d /\ text_document (polar true) text2 d2 /\ ~ has_world d2
  /\ run (polar true) given 4 bare_config = Ok nodes /\ below nodes = [(lit "worldspawn", 2); (lit "door", 0)]
  /\ run (polar true) given 4 fitted_config = Ok nodes' /\ below nodes' = [(lit "worldspawn", 2); (lit "door", 1); (lit "lamp", 0)].
Proof.
  exists (map_text (polar true) bare_castle), (map_text (polar true) fittings), (source_doc (polar true) bare_castle), (source_doc (polar true) fittings).
  destruct (shown _ _ below (run (polar true) given 4 bare_config) [(lit "worldspawn", 2); (lit "door", 0)]) as (nodes & R & B); [vm_compute; reflexivity|].
  destruct (shown _ _ below (run (polar true) given 4 fitted_config) [(lit "worldspawn", 2); (lit "door", 1); (lit "lamp", 0)]) as (nodes' & R' & B'); [vm_compute; reflexivity|]. exists nodes, nodes'.
  split; [exact (conj eq_refl (conj eq_refl (conj eq_refl eq_refl)))|]. split; [eexists; eexists; exact (conj eq_refl (conj eq_refl eq_refl))|]. split; [exact bare_ends|].
  split; [eexists; split; [reflexivity|apply printed_encodes, bare_printable]|]. split; [eexists; split; [reflexivity|apply printed_encodes, fittings_printable]|].
  split; [apply printed_document, bare_printable|]. split; [apply printed_document, fittings_printable|]. split; [exact fittings_worldless|].
  exact (conj R (conj B (conj R' B'))).
Qed.
Theorem castle_twice : exists text d, joined (cf_map twice_config) (cf_map bare_config) (cf_map bare_config) /\ file_text (cf_map bare_config) text /\ ~ ends_with_cr text
  /\ text_document (polar true) text d /\ has_world d.
Proof.
  exists (map_text (polar true) bare_castle), (source_doc (polar true) bare_castle). split; [eexists; eexists; exact (conj eq_refl (conj eq_refl eq_refl))|].
  split; [eexists; split; [reflexivity|apply printed_encodes, bare_printable]|]. split; [exact bare_ends|]. split; [apply printed_document, bare_printable|exact bare_world].
Qed.
