(** A map with a moat, to try C148 on. *)
From Coq Require Import Reals Lra Lia ZArith Permutation.
From Verif Require Import Prelude F32 Text MapModel GeoModel LayerModel GameDataModel SceneModel RunModel Witness SceneWitness
  MapSpec Utf8Spec RunSpec InvarianceSpec LayerSpec TreeSpec KeptSpec RealSpec ErrorSpec PointsSpec BoxSpec BoxEdgeSpec BrickSpec CartonSpec
  BaseProofs GeoWitness RunWitness KeptWitness TriangleWitness CoverWitness BrickWitness.
Local Open Scope R_scope.
Local Notation P := squared.

Lemma block_brush : forall p r lo hi planes, block p r (lo, hi) planes -> box lo hi /\ box_brush p lo hi planes.
Proof.
  intros p r lo hi planes (Bx & _ & _ & sides & Q & F). split; [exact Bx|]. split.
  - intros pl Hpl. destruct (Forall2_in_l _ _ _ _ _ _ F Hpl) as (s & _ & k & H). eauto.
  - intros s. assert (Hs : In s sides) by (apply (Permutation_in _ (Permutation_sym Q)); destruct s; cbn; tauto).
    destruct (Forall2_in_r _ _ _ _ _ _ F Hs) as (pl & Hpl & k & H). exists pl, k. tauto.
Qed.
Lemma moat_boxes : boxes_document P moat_doc.
Proof.
  intros e lines planes He Hl F. destruct (moat_blocks e lines planes He Hl F) as ((lo & hi) & B). exists lo, hi. exact (block_brush P 1 lo hi planes B).
Qed.
Lemma stone_brush : forall p, box_brush p (V3 (-16) (-8) 0)%Z (V3 16 24 32)%Z stone.
Proof.
  intros p. pose proof (crate_ok standard_uv) as F. fold stone in F.
  assert (E : exact_length p 64) by (right; exists 6%Z; split; [lia|reflexivity]). split.
  - intros pl Hpl. destruct (Forall2_in_l _ _ _ _ _ _ F Hpl) as (s & _ & H). eauto.
  - intros s. assert (Hs : In s all_sides) by (destruct s; cbn; tauto). destruct (Forall2_in_r _ _ _ _ _ _ F Hs) as (pl & Hpl & H). exists pl, 64%Z. auto.
Qed.

Theorem moat_packed : exists e b nodes, file_text (cf_map moat_config) moat_text /\ text_document P moat_text moat_doc /\ boxes_document P moat_doc
  /\ run P given 4 moat_config = Ok nodes
  /\ (exists n0 o shape shapes, In n0 nodes /\ InvarianceSpec.within (NCollision o (ColConvex (shape :: shapes))) n0)
  /\ in_tree moat_doc e /\ In b (doc_brushes e) /\ Forall2 (reads_as P) b stone /\ brush_class (cf_game moat_config) e (BrushData VMesh CConvex)
  /\ stays (cf_textures moat_config) e stone /\ box (V3 (-16) (-8) 0)%Z (V3 16 24 32)%Z /\ box_brush P (V3 (-16) (-8) 0)%Z (V3 16 24 32)%Z stone.
Proof.
  destruct moat_read as (F & T & _). assert (Ie : In (plane_at East) box6) by (rewrite box6_dirs; now left).
  assert (E : exists o a v oc s ss ch nodes, run P given 4 moat_config = Ok (NActor o a (v :: NCollision oc (ColConvex (s :: ss)) :: ch) :: nodes)).
  { do 8 eexists. vm_compute. reflexivity. }
  destruct E as (o & a & v & oc & s & ss & ch & nodes & E).
  exists (map (item_doc P) [MProp (lit "classname") (lit "worldspawn"); MBrush stone; MBrush flood]), (map (plane_line P) stone). eexists.
  split; [exact F|]. split; [exact T|]. split; [exact moat_boxes|]. split; [exact E|]. split.
  { do 4 eexists. split; [left; reflexivity|]. eapply WithinChild; [right; left; reflexivity|]. constructor. }
  split. { apply TreeWorld; [right; now left|reflexivity]. }
  split; [left; reflexivity|]. split; [exact (lines_read stone (or_introl eq_refl))|].
  split. { exists (lit "worldspawn"), wall_def. eexists. split; [reflexivity|]. split; [|reflexivity]. now apply first_here. }
  split; [right; split; exists (plane_at East); (split; [exact Ie|discriminate])|]. split; [exact crate_box|apply stone_brush].
Qed.

(** One brush of it. *)
Theorem stone_packed : exists g k, box (V3 (-16) (-8) 0)%Z (V3 16 24 32)%Z /\ box_brush P (V3 (-16) (-8) 0)%Z (V3 16 24 32)%Z stone
  /\ build_brush (f32_num P) textures (world []) stone = Ok g /\ nth_error [g; g] 1 = Some g /\ collision_of (f32_num P) CConvex (EntityGeo (bg_center g) [g; g]) = Ok k
  /\ in_box (V3 (-16) (-8) 0)%Z (V3 16 24 32)%Z (V3 3 5 7).
Proof.
  destruct box_built as (g & E & _). exists g. eexists. split; [exact crate_box|]. split; [apply stone_brush|]. split; [exact E|]. split; [reflexivity|]. split; [reflexivity|].
  unfold in_box. cbn [vx vy vz]. lra.
Qed.
