(** A map to try C102 on. *)
From Coq Require Import Reals Lra ZArith Lia Permutation.
From Verif Require Import Prelude F32 Text MapModel GeoModel LayerModel GameDataModel SceneModel RunModel
  MapSpec Utf8Spec RunSpec InvarianceSpec NumberSpec RealSpec ErrorSpec PointsSpec UvSpec RunProofs PrintProofs GeoWitness RunWitness PointsWitness UvWitness.
Local Open Scope R_scope.

Local Notation P := (polar true).

Lemma castle_mesh : exists text, file_text (cf_map castle_config) text /\ text_document P text (source_doc P castle)
  /\ grid_document P (source_doc P castle) /\ exists nodes n0 o s ss uvs, run P given 4 castle_config = Ok nodes
     /\ In n0 nodes /\ InvarianceSpec.within (NVisual o (VisMesh (s :: ss))) n0 /\ length (s_vertices s) = 24%nat /\ s_texture s = Some (lit "brick")
     /\ s_uvs s = Some uvs /\ nth_error (s_vertices s) 0 = Some (fv 16 24 32) /\ nth_error uvs 0 = Some (V2 (f32_div (fz 24) (fz 64)) (f32_div (fz (-32)) (fz 64))).
Proof.
  exists (map_text P castle). split; [eexists; split; [reflexivity|apply printed_encodes, castle_printable]|]. split; [apply printed_document, castle_printable|].
  split; [exact castle_grid|].
  assert (E : exists o a ov v l ch nodes, run P given 4 castle_config = Ok (NActor o a (NVisual ov (VisMesh (v :: l)) :: ch) :: nodes) /\ length (s_vertices v) = 24%nat
    /\ s_texture v = Some (lit "brick") /\ exists uvs, s_uvs v = Some uvs /\ nth_error (s_vertices v) 0 = Some (fv 16 24 32)
    /\ nth_error uvs 0 = Some (V2 (f32_div (fz 24) (fz 64)) (f32_div (fz (-32)) (fz 64))))
    by (do 7 eexists; split; [vm_compute; reflexivity|split; [reflexivity|split; [reflexivity|eexists; split; [reflexivity|split; vm_compute; reflexivity]]]]).
  destruct E as (o & a & ov & v & l & ch & nodes & E & L & T & uvs & U & V). do 6 eexists. split; [exact E|]. split; [now left|].
  split; [apply WithinChild with (NVisual ov (VisMesh (v :: l))); [now left|apply Within]|]. split; [exact L|]. split; [exact T|]. split; [exact U|exact V].
Qed.
