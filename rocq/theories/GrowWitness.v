(** The castle without its lamp and its handle, to try C114 on. *)
From Coq Require Import Permutation.
From Verif Require Import Prelude F32 Text MapModel GeoModel LayerModel GameDataModel SceneModel RunModel Witness SceneWitness
  GeoSpec GameDataSpec MapSpec Utf8Spec TreeSpec PropertySpec RunSpec InvarianceSpec GrowSpec
  BaseProofs PlaneProofs MapProofs TextProofs RunProofs PrintProofs GeoWitness RunWitness.

Definition bare_castle : map_source :=
  [ [MProp (lit "classname") (lit "worldspawn"); MBrush (crate standard_uv)];
    [MProp (lit "classname") (lit "door"); MProp (lit "_tb_id") (lit "7")] ].
Definition bare_config : config := Config (Contents (map_bytes (polar true) bare_castle)) textures (Blacklist [] []) no_fd yard_gd.
Definition fitting (e : doc_entity) : Prop := doc_value e (lit "classname") = Some (lit "lamp") \/ doc_value e (lit "classname") = Some (lit "handle").

Lemma bare_printable : printable (polar true) bare_castle.
Proof.
  intros e i He Hi. cbn [bare_castle In] in He. repeat (destruct He as [<-|He]; [cbn [In] in Hi; repeat (destruct Hi as [<-|Hi]; [|]); try contradiction; cbn [printable_item]|]);
    try contradiction; try (split; plainly).
  apply (castle_printable [MProp (lit "classname") (lit "worldspawn"); MBrush (crate standard_uv)] (MBrush (crate standard_uv))); cbn; auto.
Qed.

Definition below (ns : list (node f32)) : list (str * nat) :=
  flat_map (fun n => match n with NActor _ a ch => [(a_name a, length ch)] | _ => [] end) ns.

Theorem castle_grown : exists text text' d d' nodes nodes', same_but_map bare_config castle_config
  /\ file_text (cf_map bare_config) text /\ file_text (cf_map castle_config) text'
  /\ text_document (polar true) text d /\ text_document (polar true) text' d' /\ extended fitting d d'
  /\ run (polar true) given 4 bare_config = Ok nodes /\ below nodes = [(lit "worldspawn", 2); (lit "door", 0)]
  /\ run (polar true) given 4 castle_config = Ok nodes' /\ below nodes' = [(lit "worldspawn", 2); (lit "lamp", 0); (lit "door", 1)].
Proof.
  set (P := polar true) in *. exists (map_text P bare_castle), (map_text P castle), (source_doc P bare_castle), (source_doc P castle).
  destruct (shown _ _ below (run P given 4 bare_config) [(lit "worldspawn", 2); (lit "door", 0)]) as (nodes & R & B); [vm_compute; reflexivity|].
  destruct (shown _ _ below (run P given 4 castle_config) [(lit "worldspawn", 2); (lit "lamp", 0); (lit "door", 1)]) as (nodes' & R' & B'); [vm_compute; reflexivity|]. exists nodes, nodes'.
  split; [exact (conj eq_refl (conj eq_refl (conj eq_refl eq_refl)))|].
  split; [eexists; split; [reflexivity|apply printed_encodes, bare_printable]|]. split; [eexists; split; [reflexivity|apply printed_encodes, castle_printable]|].
  split; [apply printed_document, bare_printable|]. split; [apply printed_document, castle_printable|]. split.
  { unfold source_doc, castle, bare_castle. cbn [map item_doc]. generalize (map (plane_line P) (crate standard_uv)). intros ls.
    apply MergedNew; [split; [left; reflexivity|discriminate]|]. apply MergedKept; [split; reflexivity|]. apply MergedKept; [split; reflexivity|].
    apply MergedNew; [split; [right; reflexivity|discriminate]|]. constructor. }
  exact (conj R (conj B (conj R' B'))).
Qed.
