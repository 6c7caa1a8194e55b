(** The castle with its entities in another order, to try C112 on. *)
From Coq Require Import Permutation.
From Verif Require Import Prelude F32 Text MapModel GeoModel LayerModel GameDataModel SceneModel RunModel Witness SceneWitness
  GeoSpec GameDataSpec MapSpec Utf8Spec TreeSpec PropertySpec RunSpec InvarianceSpec SiblingSpec
  BaseProofs PlaneProofs MapProofs TextProofs RunProofs PrintProofs GeoWitness RunWitness.

Definition moved_castle : map_source :=
  [ [MProp (lit "_tb_group") (lit "7"); MProp (lit "classname") (lit "handle")];
    [MProp (lit "classname") (lit "door"); MProp (lit "_tb_id") (lit "7")];
    [MProp (lit "classname") (lit "lamp")];
    [MProp (lit "classname") (lit "worldspawn"); MBrush (crate standard_uv)] ].
Definition moved_config : config := Config (Contents (map_bytes (polar true) moved_castle)) textures (Blacklist [] []) no_fd yard_gd.

Lemma moved_printable : printable (polar true) moved_castle.
Proof.
  intros e i He Hi. cbn [moved_castle In] in He. repeat (destruct He as [<-|He]; [cbn [In] in Hi; repeat (destruct Hi as [<-|Hi]; [|]); try contradiction; cbn [printable_item]|]);
    try contradiction; try (split; plainly).
  apply (castle_printable [MProp (lit "classname") (lit "worldspawn"); MBrush (crate standard_uv)] (MBrush (crate standard_uv))); cbn; auto.
Qed.

Lemma four_moved : forall A (a b c d : A), Permutation [a; b; c; d] [d; c; a; b].
Proof.
  intros A a b c d. change [a; b; c; d] with ([a; b] ++ [c; d]). eapply perm_trans; [apply Permutation_app_comm|]. cbn. apply perm_swap.
Qed.

Theorem moved_castle_reordered : exists text text' d d' nodes, same_but_map castle_config moved_config
  /\ file_text (cf_map castle_config) text /\ file_text (cf_map moved_config) text'
  /\ text_document (polar true) text d /\ text_document (polar true) text' d' /\ reordered d d' /\ d <> d'
  /\ run (polar true) given 4 castle_config = Ok nodes.
Proof.
  set (P := polar true) in *. exists (map_text P castle), (map_text P moved_castle), (source_doc P castle), (source_doc P moved_castle).
  destruct (shown _ _ (@length _) (run P given 4 castle_config) 3) as (nodes & E & _); [vm_compute; reflexivity|]. exists nodes.
  split; [exact (conj eq_refl (conj eq_refl (conj eq_refl eq_refl)))|].
  split; [eexists; split; [reflexivity|apply printed_encodes, castle_printable]|]. split; [eexists; split; [reflexivity|apply printed_encodes, moved_printable]|].
  split; [apply printed_document, castle_printable|]. split; [apply printed_document, moved_printable|].
  split; [|split; [intros D; apply (f_equal (fun l => doc_value (nth 0 l []) (lit "classname"))) in D; vm_compute in D; discriminate|exact E]].
  unfold source_doc, castle, moved_castle. cbn [map item_doc]. generalize (map (plane_line P) (crate standard_uv)). intros ls. eexists. split; [apply four_moved|].
  repeat apply Forall2_cons; try constructor; try reflexivity. intros k. cbn [doc_value].
  destruct (str_eqb k (lit "classname")) eqn:E1, (str_eqb k (lit "_tb_group")) eqn:E2; try reflexivity. exfalso. apply str_eqb_eq in E1, E2. rewrite E1 in E2. discriminate.
Qed.
