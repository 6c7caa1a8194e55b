(** A box as a convex collision shape, to try C108 on. *)
From Coq Require Import Reals Lra Lia ZArith Permutation.
From Flocq Require Import Core.
From Verif Require Import Prelude F32 Text MapModel GeoModel LayerModel GameDataModel SceneModel RunModel Witness SceneWitness
  MapSpec Utf8Spec RunSpec InvarianceSpec LayerSpec TreeSpec NumberSpec KeptSpec RealSpec WindSpec ErrorSpec PointsSpec CornerSpec MeanSpec SolidSpec WoundSpec MeshSpec TriangleSpec CoverSpec FillSpec
  BaseProofs BoxSpec ErrorProofs ErrorFinal GeoWitness RunWitness PointsWitness ErrorWitness CornerWitness WindWitness WoundWitness KeptWitness TriangleWitness CoverWitness.
Local Open Scope R_scope.

Lemma box_plain : plain_brush box6 haze.
Proof.
  split; [exact box_bounded|]. intros pl H. apply in_box6 in H. destruct H as (a & ->). split; [apply box_clear|].
  intros p1 p2 x I1 I2 X _. apply in_box6 in I1, I2. destruct I1 as (b & ->). destruct I2 as (c & ->). apply (box_blur a b c x X).
Qed.
Lemma flood_plain : plain_brush flood haze.
Proof.
  split; [replace (map plane_of flood) with (map plane_of box6) by reflexivity; exact box_bounded|].
  intros pl H. unfold flood in H. apply in_map_iff in H. destruct H as (q & <- & H).
  assert (GS : good_side squared (map (paint water) box6) (paint water q) haze) by (apply good_paint; apply in_box6 in H; destruct H as (a & ->); apply box_good).
  split; [apply GS|]. destruct GS as (_ & _ & _ & d & s & r & _ & _ & BL & _). exact BL.
Qed.

Local Notation P := (polar true).
Theorem moat_filled : let d := source_doc P moat in exists e nodes,
  file_text (cf_map moat_config) moat_text /\ text_document P moat_text d /\ grid_document P d /\ run P given 4 moat_config = Ok nodes
  /\ in_tree d e /\ In e d /\ doc_brushes e = [map (plane_line P) box6; map (plane_line P) flood]
  /\ Forall2 (reads_as P) (map (plane_line P) box6) box6 /\ Forall2 (reads_as P) (map (plane_line P) flood) flood
  /\ brush_class (cf_game moat_config) e (BrushData VMesh CConvex) /\ stays (cf_textures moat_config) e box6 /\ plain_brush box6 haze
  /\ flood <> [] /\ moved (cf_textures moat_config) e flood (wl_texture moat_layer)
  /\ only_one (fun l => wl_texture l = wl_texture moat_layer) (gd_layers (cf_game moat_config)) moat_layer /\ wl_collision moat_layer = CConvex /\ plain_brush flood haze
  /\ allowance haze <= / 1000.
Proof.
  cbn zeta. destruct moat_run as (nodes & Er). destruct moat_file as (F & T & G). assert (Ie : In (plane_at East) box6) by (rewrite box6_dirs; now left).
  exists (map (item_doc P) [MProp (lit "classname") (lit "worldspawn"); MBrush stone; MBrush flood]), nodes.
  split; [exact F|]. split; [exact T|]. split; [exact G|]. split; [exact Er|]. split.
  { apply TreeWorld; [right; now left|reflexivity]. }
  split; [right; now left|]. split; [reflexivity|]. split; [exact (lines_read stone (or_introl eq_refl))|]. split; [apply lines_read; now right|].
  split. { exists (lit "worldspawn"), wall_def. eexists. split; [reflexivity|]. split; [|reflexivity]. now apply first_here. }
  split; [right; split; exists (plane_at East); (split; [exact Ie|discriminate])|]. split; [exact box_plain|]. split; [discriminate|].
  split. { split; [reflexivity|]. split; [now left|]. intros q H. unfold flood in H. apply in_map_iff in H. destruct H as (q' & <- & _). reflexivity. }
  split. { exists [], []. split; [reflexivity|]. split; [reflexivity|]. split; intros y []. }
  split; [reflexivity|]. split; [exact flood_plain|].
  unfold allowance, haze. replace (10 ^ 20) with 100000000000000000000 by ring. lra.
Qed.

(** One brush of it. *)
Theorem box_filled : exists g k, build_brush (f32_num P) textures (world []) box6 = Ok g /\ (forall q, In q box6 -> grid_plane q) /\ (Z.of_nat (length box6) <= 4000)%Z
  /\ plain_brush box6 haze /\ nth_error [g; g] 1 = Some g /\ collision_of (f32_num P) CConvex (EntityGeo (bg_center g) [g; g]) = Ok k /\ solid (map plane_of box6) (V3 3 5 7).
Proof.
  assert (E : exists g, build_brush (f32_num P) textures (world []) box6 = Ok g) by (eexists; vm_compute; reflexivity). destruct E as (g & E).
  exists g. eexists. split; [exact E|]. split; [exact crate_grid|]. split; [vm_compute; discriminate|]. split; [exact box_plain|]. split; [reflexivity|]. split; [reflexivity|].
  intros q H. apply in_map_iff in H. destruct H as (q' & <- & H). apply in_box6 in H. destruct H as (d & ->). replace (V3 3 5 7) with (reals (V3 3 5 7)%Z) by reflexivity.
  destruct d; cbn [plane_at]; sides; apply tri_within; [grid|grid|grid|znum..].
Qed.
