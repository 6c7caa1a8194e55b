(** A map with a moat, to try C132 on. *)
From Coq Require Import Reals Lra Lia ZArith Permutation.
From Verif Require Import Prelude F32 Text MapModel GeoModel LayerModel GameDataModel SceneModel RunModel
  Witness GatherSpec GeoSpec LayerSpec SurfaceSpec TreeSpec GameDataSpec PropertySpec SceneWitness GeoWitness MapSpec Utf8Spec RunSpec
  InvarianceSpec BoxSpec RealSpec ErrorSpec PointsSpec WoundSpec BoxEdgeSpec ShellSpec BrickSpec BaseProofs TokenProofs PlaneProofs MapProofs RunProofs PrintProofs RunWitness ErrorProofs ErrorWitness PointsWitness KeptWitness TriangleWitness CoverWitness.
Local Open Scope R_scope.
Local Notation P := squared.

Lemma moat_brushes : forall e lines, In e moat_doc -> In lines (doc_brushes e) -> exists items b, In items moat /\ In (MBrush b) items /\ lines = map (plane_line P) b /\ (b = stone \/ b = flood).
Proof.
  intros e b He Hb. unfold moat_doc, source_doc, moat in He. cbn [map item_doc In] in He.
  destruct He as [<-|[<-|[<-|[]]]]; cbn [doc_brushes In] in Hb.
  - destruct Hb as [<-|[]]. do 2 eexists. split; [left; reflexivity|]. split; [right; right; left; reflexivity|]. auto.
  - destruct Hb as [<-|[<-|[]]]; do 2 eexists; (split; [right; left; reflexivity|]).
    + split; [right; left; reflexivity|]. auto.
    + split; [right; right; left; reflexivity|]. auto.
  - destruct Hb.
Qed.
Lemma moat_blocks : block_document P 1 moat_doc.
Proof.
  intros e lines planes He Hl F. destruct (moat_brushes e lines He Hl) as (items & b & Ii & Ib & -> & Eb). exists (V3 (-16) (-8) 0, V3 16 24 32)%Z.
  assert (V : Forall2 (fun pl q => bp_v0 q = bp_v0 pl /\ bp_v1 q = bp_v1 pl /\ bp_v2 q = bp_v2 pl) (crate standard_uv) planes).
  { assert (Q : forall l, incl l b -> Forall2 (reads_as P) (map (plane_line P) l) planes -> Forall2 (fun pl q => bp_v0 q = bp_v0 pl /\ bp_v1 q = bp_v1 pl /\ bp_v2 q = bp_v2 pl) l planes).
    { clear - Ii Ib. intros l I F. remember (map (plane_line P) l) as ls. revert l Heqls I. induction F as [|x q ls qs H F IH]; intros l E I; destruct l as [|pl l]; try discriminate; constructor.
      - injection E as -> ->. exact (printed_reads P moat moat_printable items b pl q Ii Ib (I pl (or_introl eq_refl)) H).
      - injection E as _ ->. apply IH; [reflexivity|]. intros z Hz. apply I. now right. }
    pose proof (Q b (incl_refl _) F) as K. destruct Eb as [->| ->]; [exact K|]. clear - K. unfold flood in K. remember (crate standard_uv) as l. clear Heql. revert planes K.
    induction l as [|pl l IH]; intros planes K; inv K; constructor; [assumption|]. now apply IH. }
  split; [exact crate_box|]. split; [unfold slender; cbn [vx vy vz]; lia|]. split.
  { intros q Hq. destruct (Forall2_in_r _ _ _ _ _ _ V Hq) as (pl & Hp & E0 & E1 & E2). exact (grid_points pl q E0 E1 E2 (crate_grid pl Hp)). }
  exists all_sides. split; [reflexivity|]. pose proof (crate_ok standard_uv) as K. revert planes V K F. generalize all_sides (crate standard_uv). clear. intros sides pls planes V K _.
  revert sides K. induction V as [|pl q pls qs (E0 & E1 & E2) V IH]; intros sides K; inv K; constructor; [|now apply IH]. exists 64%Z. split; [|right; exists 6%Z; split; [lia|reflexivity]].
  unfold box_plane in *. rewrite E0, E1, E2. assumption.
Qed.

Theorem moat_wrapped : exists nodes, file_text (cf_map moat_config) moat_text /\ text_document P moat_text moat_doc /\ block_document P 1 moat_doc
  /\ accurate_angle (/ 3) (p_atan2 P) /\ / 3 <= / (3 * IZR 1) /\ run P given 4 moat_config = Ok nodes
  /\ (forall e lines ln pl, In e moat_doc -> In lines (doc_brushes e) -> In ln lines -> reads_as P ln pl -> ~ In (bp_texture pl) (bl_plane (cf_blacklist moat_config)))
  /\ (exists n0 o k T, In n0 nodes /\ InvarianceSpec.within (NCollision o k) n0 /\ In T (shells32 (NCollision o k)))
  /\ exists n0 o v T, In n0 nodes /\ InvarianceSpec.within (NVisual o v) n0 /\ In T (shells32 (NVisual o v)).
Proof.
  destruct moat_read as (F & T & _).
  assert (E : exists o a ov v vs ch nodes o1 a1 o2 a2 x y oc cs z rest, run P given 4 moat_config = Ok (NActor o a (NVisual ov (VisMesh (v :: vs)) :: ch) :: nodes)
    /\ nodes = x :: NActor o1 a1 (NActor o2 a2 (y :: NCollision oc (ColConcave (z :: cs)) :: rest) :: []) :: []).
  { do 17 eexists. split; [vm_compute; reflexivity|reflexivity]. }
  destruct E as (o & a & ov & v & vs & ch & nodes & o1 & a1 & o2 & a2 & x & y & oc & cs & z & rest & E & En).
  eexists. split; [exact F|]. split; [exact T|]. split; [exact moat_blocks|]. split; [exact diagonal_accurate|]. split; [lra|]. split; [exact E|]. split; [intros e ls ln pl _ _ _ _ H; exact H|]. subst nodes. split.
  - eexists. exists oc, (ColConcave (z :: cs)). eexists. split; [right; right; left; reflexivity|]. split; [|cbn [shells32 map]; left; reflexivity].
    eapply WithinChild; [left; reflexivity|]. eapply WithinChild; [right; left; reflexivity|]. constructor.
  - eexists. exists ov, (VisMesh (v :: vs)). eexists. split; [left; reflexivity|]. split; [|cbn [shells32]; left; reflexivity]. eapply WithinChild; [left; reflexivity|]. constructor.
Qed.
