(** A map to try C97 on. *)
From Coq Require Import Reals ZArith Lia Permutation.
From Verif Require Import Prelude F32 Text MapModel GeoModel LayerModel GameDataModel SceneModel RunModel
  Witness GatherSpec GeoSpec LayerSpec SurfaceSpec TreeSpec GameDataSpec PropertySpec SceneWitness GeoWitness MapSpec Utf8Spec RunSpec
  InvarianceSpec BoxSpec RealSpec ErrorSpec PointsSpec BaseProofs TokenProofs PlaneProofs MapProofs RunProofs PrintProofs RunWitness ErrorProofs ErrorWitness.

Local Notation P := (polar true).

Lemma crate_grid : forall pl, In pl (crate standard_uv) -> grid_plane pl.
Proof.
  assert (H : forall q, In q (crate standard_uv) -> exists a b c, q = tri a b c /\ on_grid a /\ on_grid b /\ on_grid c /\ (0 < zinner (zfacing a b c) (zfacing a b c))%Z
    /\ BoxSpec.coords (fun k => Z.abs k <= 8)%Z (zminus c a) /\ BoxSpec.coords (fun k => Z.abs k <= 8)%Z (zminus b a)).
  { intros q H. unfold crate, box_planes in H. cbn [In] in H.
    repeat (destruct H as [<-|H]; [do 3 eexists (V3 _ _ _); split; [reflexivity|]; repeat split; vm_compute; solve [reflexivity|discriminate]|]). destruct H. }
  intros q I. destruct (H q I) as (a & b & c & -> & A & B & C & N & M1 & M2). apply (tri_grid a b c 8 8); auto. lia.
Qed.

Lemma printed_reads : forall p m, printable p m -> forall e b pl q, In e m -> In (MBrush b) e -> In pl b -> reads_as p (plane_line p pl) q ->
  bp_v0 q = bp_v0 pl /\ bp_v1 q = bp_v1 pl /\ bp_v2 q = bp_v2 pl.
Proof.
  intros p m H e b pl q Hx Hb Hp (ws & Wq & Pq).
  pose proof (H e (MBrush b) Hx Hb pl Hp) as (G & W & S). pose proof (plane_line_written p pl W S) as Wr.
  assert (R : parse_plane (f32_num p) (to_lowercase p) (plane_line p pl)
    = Ok (BrushPlane (bp_v0 pl) (bp_v1 pl) (bp_v2 pl) (to_lowercase p (bp_texture pl)) (bp_uv pl) (bp_rotation pl) (bp_scale pl) (bp_extra pl)))
    by (apply plane_round_trip_f32; [now apply exact_good|exact Wr]).
  apply written_iff in Wq. subst ws. apply (parse_plane_ok (f32_num p)) in Pq. rewrite R in Pq. injection Pq as <-. auto.
Qed.
Lemma grid_points : forall pl q, bp_v0 q = bp_v0 pl -> bp_v1 q = bp_v1 pl -> bp_v2 q = bp_v2 pl -> grid_plane pl -> grid_plane q.
Proof. intros pl q E0 E1 E2. unfold grid_plane, plane_of. rewrite E0, E1, E2. auto. Qed.

Lemma castle_grid : grid_document P (source_doc P castle).
Proof.
  intros e b He Hb. assert (K : b = map (plane_line P) (crate standard_uv)).
  { unfold source_doc, castle in He. cbn [map item_doc In] in He. repeat (destruct He as [<-|He]; [cbn [doc_brushes In] in Hb; try contradiction; destruct Hb as [<-|[]]; reflexivity|]). destruct He. }
  subst b. split; [rewrite map_length; vm_compute; discriminate|]. intros l q Hl R. apply in_map_iff in Hl. destruct Hl as (pl & <- & Hp).
  destruct (printed_reads P castle castle_printable [MProp (lit "classname") (lit "worldspawn"); MBrush (crate standard_uv)] (crate standard_uv) pl q) as (E0 & E1 & E2); auto;
    [unfold castle; cbn [In]; auto|cbn [In]; auto|]. eapply grid_points; eauto. now apply crate_grid.
Qed.

Lemma castle_points : exists text, file_text (cf_map castle_config) text /\ text_document P text (source_doc P castle)
  /\ grid_document P (source_doc P castle) /\ exists nodes m n l, run P given 4 castle_config = Ok nodes
     /\ In m nodes /\ InvarianceSpec.within n m /\ In l (point_lists n) /\ length l = 24.
Proof.
  exists (map_text P castle). split; [eexists; split; [reflexivity|apply printed_encodes, castle_printable]|]. split; [apply printed_document, castle_printable|].
  split; [exact castle_grid|].
  assert (E : exists o a ov v l ch nodes, run P given 4 castle_config = Ok (NActor o a (NVisual ov (VisMesh (v :: l)) :: ch) :: nodes) /\ length (s_vertices v) = 24)
    by (do 7 eexists; split; [vm_compute; reflexivity|vm_compute; reflexivity]).
  destruct E as (o & a & ov & v & l & ch & nodes & E & L). do 4 eexists. split; [exact E|]. split; [now left|].
  split; [apply WithinChild with (NVisual ov (VisMesh (v :: l))); [now left|apply Within]|]. split; [cbn [point_lists map]; left; reflexivity|exact L].
Qed.
