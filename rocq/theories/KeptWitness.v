(** A map to try C98 and C99 on. *)
From Coq Require Import Reals Lra ZArith Lia Permutation.
From Verif Require Import Prelude F32 Text MapModel GeoModel LayerModel GameDataModel SceneModel RunModel
  Witness GatherSpec GeoSpec LayerSpec SurfaceSpec TreeSpec GameDataSpec PropertySpec SceneWitness GeoWitness MapSpec Utf8Spec RunSpec
  InvarianceSpec BoxSpec RealSpec ErrorSpec PointsSpec KeptSpec BaseProofs TokenProofs PlaneProofs MapProofs RunProofs PrintProofs RunWitness ErrorProofs ErrorWitness PointsWitness.
Local Open Scope R_scope.

Local Notation P := (polar true).

Definition paint (t : str) (pl : brush_plane f32) : brush_plane f32 :=
  BrushPlane (bp_v0 pl) (bp_v1 pl) (bp_v2 pl) t (bp_uv pl) (bp_rotation pl) (bp_scale pl) (bp_extra pl).
Definition stone : list (brush_plane f32) := crate standard_uv.
Definition flood : list (brush_plane f32) := map (paint water) (crate standard_uv).

(** A world with a solid and a water brush, and a handle with a brush in the group of a door. *)
Definition moat : map_source :=
  [ [MProp (lit "classname") (lit "handle"); MProp (lit "_tb_group") (lit "7"); MBrush stone];
    [MProp (lit "classname") (lit "worldspawn"); MBrush stone; MBrush flood];
    [MProp (lit "classname") (lit "door"); MProp (lit "_tb_id") (lit "7")] ].
Definition handle_def : entity_def f32 :=
  EntityDef (lit "handle") (GameDataModel.DBrush (PointData (EClass (lit "Static")) CompNone ADictionary []) (BrushData VMesh CConcave)).
Definition moat_layer : worldspawn_layer := WorldspawnLayer (lit "Water") water (EClass (lit "Area")) CompNone VMesh CConvex.
Definition moat_config : config :=
  Config (Contents (map_bytes P moat)) [(lit "brick", (64, 64)%N); (water, (16, 16)%N)] (Blacklist [] []) no_fd (GameData [wall_def; handle_def] [moat_layer]).

Lemma flood_exact : forall pl, In pl flood -> exact_plane P pl /\ word (bp_texture pl) /\ Forall scalar (bp_texture pl).
Proof.
  intros pl H. unfold flood, crate, box_planes in H. cbn [map In] in H.
  repeat (destruct H as [<-|H]; [split; [vm_compute; repeat split; intros; discriminate|split; [split; [discriminate|reflexivity]|
    repeat (apply Forall_cons; [unfold scalar; vm_compute; intuition discriminate|]); apply Forall_nil]]|]).
  destruct H.
Qed.
Lemma moat_printable : printable P moat.
Proof.
  intros e i He Hi. cbn [moat In] in He. repeat (destruct He as [<-|He]; [cbn [In] in Hi; repeat (destruct Hi as [<-|Hi]; [|]); try contradiction; cbn [printable_item]|]);
    try contradiction; try (split; plainly).
  1, 2: intros pl Hp; destruct (crate_exact pl Hp) as (A & B & C & _); auto.
  exact flood_exact.
Qed.

Lemma moat_brushes : forall e b, In e (source_doc P moat) -> In b (doc_brushes e) -> exists planes, (planes = stone \/ planes = flood) /\ b = map (plane_line P) planes.
Proof.
  intros e b He Hb. unfold source_doc, moat in He. cbn [map item_doc In] in He.
  repeat (destruct He as [<-|He]; [cbn [doc_brushes In] in Hb; repeat (destruct Hb as [<-|Hb]; [eexists; split; [|reflexivity]; auto|]); contradiction|]). destruct He.
Qed.
Lemma stone_grid : forall planes pl, planes = stone \/ planes = flood -> In pl planes -> grid_plane pl.
Proof.
  intros planes pl [->| ->] H; [now apply crate_grid|]. unfold flood in H. apply in_map_iff in H. destruct H as (q & <- & H).
  apply (grid_points q); try reflexivity. now apply crate_grid.
Qed.
Lemma line_reads : forall planes, planes = stone \/ planes = flood -> forall pl, In pl planes -> reads_as P (plane_line P pl) pl.
Proof.
  intros planes H pl I.
  assert (K : exact_plane P pl /\ word (bp_texture pl) /\ Forall scalar (bp_texture pl) /\ to_lowercase P (bp_texture pl) = bp_texture pl).
  { destruct H as [->| ->].
    - destruct (crate_exact pl I) as (A & B & C & _). split; [exact A|]. split; [exact B|]. split; [exact C|].
      unfold stone, crate, box_planes in I. cbn [In] in I. repeat (destruct I as [<-|I]; [reflexivity|]). destruct I.
    - destruct (flood_exact pl I) as (A & B & C). split; [exact A|]. split; [exact B|]. split; [exact C|].
      unfold flood, crate, box_planes in I. cbn [map In] in I. repeat (destruct I as [<-|I]; [reflexivity|]). destruct I. }
  destruct K as (A & B & C & Lw). pose proof (plane_line_written P pl B C) as W.
  assert (R : parse_plane (f32_num P) (to_lowercase P) (plane_line P pl) = Ok pl).
  { rewrite <- Lw in W at 1 || idtac. rewrite (plane_round_trip_f32 P pl); [rewrite Lw; destruct pl; reflexivity|now apply exact_good|exact W]. }
  exists (show_plane (show_f32 (p_neg_zero P)) pl). split; [exact W|]. apply (plane_read_iff _ (f32_num P) (to_lowercase P) _ _ pl W). exact R.
Qed.
Lemma lines_read : forall planes, planes = stone \/ planes = flood -> Forall2 (reads_as P) (map (plane_line P) planes) planes.
Proof.
  intros planes H. assert (K : forall pl, In pl planes -> reads_as P (plane_line P pl) pl) by now apply line_reads. clear H.
  induction planes as [|pl planes IH]; constructor; [apply K; now left|]. apply IH. intros q I. apply K. now right.
Qed.
Lemma moat_grid : grid_document P (source_doc P moat).
Proof.
  intros e b He Hb. destruct (moat_brushes e b He Hb) as (planes & H & ->).
  split; [rewrite map_length; destruct H as [->| ->]; vm_compute; discriminate|]. intros l q Hl (ws & W & R). apply in_map_iff in Hl. destruct Hl as (pl & <- & Hp).
  destruct (line_reads planes H pl Hp) as (ws' & W' & R').
  apply (plane_read_iff _ (f32_num P) (to_lowercase P) _ _ q W) in R. apply (plane_read_iff _ (f32_num P) (to_lowercase P) _ _ pl W') in R'.
  assert (q = pl) by congruence. subst q. eapply stone_grid; eauto.
Qed.

(** The corner (16, 24, 32) of the box. *)
Definition tip : vec3 Z := V3 16%Z 24%Z 32%Z.
Definition east : brush_plane f32 := tri (V3 16 (-8) 0)%Z (V3 16 (-8) 8)%Z (V3 16 0 0)%Z.
Definition north : brush_plane f32 := tri (V3 (-16) 24 0)%Z (V3 (-8) 24 0)%Z (V3 (-16) 24 8)%Z.
Definition above : brush_plane f32 := tri (V3 (-16) (-8) 32)%Z (V3 (-16) 0 32)%Z (V3 (-8) (-8) 32)%Z.

Lemma stone_corner : exists g, g <= 170 /\ clear_corner (map plane_of stone) (plane_of east) (reals tip) g.
Proof.
  assert (N : forall k, on_grid k -> (zinner k k <= 2500)%Z -> norm (point_of (fvz k)) <= 50).
  { intros k G K. destruct (point_fvz k G) as [_ ->]. apply (norm_reals k 50); lia. }
  assert (OP : 1 <= openness (plane_of east) (plane_of north) (plane_of above)).
  { apply (tri_open _ _ _ _ _ _ _ _ _ 64 64 64); try grid; try lia; try (vm_compute; split; reflexivity || discriminate); [lra|].
    match goal with |- _ <= IZR ?z => replace z with (64 * 64 * 64)%Z by (vm_compute; reflexivity) end. lra. }
  set (o := openness _ _ _) in *. set (d := distances (plane_of east) (plane_of north) (plane_of above) (reals tip)).
  assert (D : d <= 170).
  { unfold d, distances. cbn [plane_of bp_v0 east north above tri wall_at].
    assert (A : norm (point_of (fvz (V3 16 (-8) 0)%Z)) <= 18) by (destruct (point_fvz (V3 16 (-8) 0)%Z ltac:(grid)) as [_ ->]; apply (norm_reals _ 18); [lia|znum]).
    assert (B : norm (point_of (fvz (V3 (-16) 24 0)%Z)) <= 29) by (destruct (point_fvz (V3 (-16) 24 0)%Z ltac:(grid)) as [_ ->]; apply (norm_reals _ 29); [lia|znum]).
    assert (C : norm (point_of (fvz (V3 (-16) (-8) 32)%Z)) <= 37) by (destruct (point_fvz (V3 (-16) (-8) 32)%Z ltac:(grid)) as [_ ->]; apply (norm_reals _ 37); [lia|znum]).
    pose proof (norm_reals tip 44 ltac:(lia) ltac:(znum)). lra. }
  assert (D0 : d / o <= 170) by (apply Rmult_le_reg_r with o; [lra|]; unfold Rdiv; rewrite Rmult_assoc, Rinv_l, Rmult_1_r by lra; lra).
  exists (d / o). split; [exact D0|]. exists (plane_of north), (plane_of above).
  split; [apply in_map; unfold stone, crate, box_planes; cbn [In]; right; right; left; reflexivity|].
  split; [apply in_map; unfold stone, crate, box_planes; cbn [In]; do 4 right; left; reflexivity|].
  split; [apply tri_on; [grid|grid|grid|reflexivity]|]. split; [apply tri_on; [grid|grid|grid|reflexivity]|]. split; [apply tri_on; [grid|grid|grid|reflexivity]|].
  split; [fold o; lra|]. split; [reflexivity|]. intros q' H. apply in_map_iff in H. destruct H as (q & <- & H).
  assert (W : exists a b c, q = tri a b c /\ on_grid a /\ on_grid b /\ on_grid c /\ (zinner (zfacing a b c) (zminus tip a) <= 0)%Z /\ (zinner a a <= 2500)%Z).
  { unfold stone, crate, box_planes in H. cbn [In] in H.
    repeat (destruct H as [<-|H]; [do 3 eexists (V3 _ _ _); split; [reflexivity|]; repeat split; vm_compute; discriminate|]). destruct H. }
  destruct W as (a & b & c & -> & A & B & C & W & Z). split; [now apply tri_within|]. cbn [plane_of bp_v0 tri wall_at]. pose proof (N a A Z).
  replace (2 ^ 19) with 524288 by ring. replace (2 ^ 20) with 1048576 by ring. lra.
Qed.

Lemma moat_run : exists nodes, run P given 4 moat_config = Ok nodes.
Proof. eexists. vm_compute. reflexivity. Qed.

Definition moat_text : str := map_text P moat.
Lemma moat_file : file_text (cf_map moat_config) moat_text /\ text_document P moat_text (source_doc P moat) /\ grid_document P (source_doc P moat).
Proof.
  split; [eexists; split; [reflexivity|apply printed_encodes, moat_printable]|]. split; [apply printed_document, moat_printable|exact moat_grid].
Qed.

Lemma first_here : forall A (Q : A -> Prop) x l, Q x -> first_with Q (x :: l) x.
Proof. intros A Q x l H. exists [], l. split; [reflexivity|]. split; [exact H|]. intros y []. Qed.

(** The handle's brush: in the tree by way of the door. *)
Lemma moat_handle : let d := source_doc P moat in exists e b nodes g, (exists h, In h d /\ doc_value h (lit "_tb_id") = doc_value e (lit "_tb_group")
     /\ doc_value e (lit "_tb_group") <> None)
  /\ file_text (cf_map moat_config) moat_text /\ text_document P moat_text d /\ grid_document P d /\ run P given 4 moat_config = Ok nodes
  /\ in_tree d e /\ In b (doc_brushes e) /\ Forall2 (reads_as P) b stone /\ In east stone
  /\ brush_class (cf_game moat_config) e (BrushData VMesh CConcave) /\ stays (cf_textures moat_config) e stone
  /\ visible (cf_textures moat_config) (cf_blacklist moat_config) stone east /\ clear_corner (map plane_of stone) (plane_of east) (reals tip) g /\ g <= 170.
Proof.
  cbn zeta. destruct moat_run as (nodes & Er). destruct stone_corner as (g & Gb & Cc). destruct moat_file as (F & T & G).
  assert (Ie : In east stone) by (unfold stone, crate, box_planes; cbn [In]; left; reflexivity).
  exists (map (item_doc P) [MProp (lit "classname") (lit "handle"); MProp (lit "_tb_group") (lit "7"); MBrush stone]), (map (plane_line P) stone), nodes, g.
  assert (Id : In (map (item_doc P) [MProp (lit "classname") (lit "door"); MProp (lit "_tb_id") (lit "7")]) (source_doc P moat)) by (right; right; now left).
  split; [eexists; split; [exact Id|]; split; [reflexivity|discriminate]|].
  split; [exact F|]. split; [exact T|]. split; [exact G|]. split; [exact Er|]. split.
  { eapply TreeMember with (g := lit "7"); [apply TreeTop; [exact Id|reflexivity]|now left|reflexivity|reflexivity]. }
  split; [cbn; auto|]. split; [apply lines_read; now left|]. split; [exact Ie|].
  split. { exists (lit "handle"), handle_def. eexists. split; [reflexivity|]. split; [|reflexivity]. exists [wall_def], []. split; [reflexivity|]. split; [reflexivity|]. intros y [<-|[]]. discriminate. }
  split; [left; discriminate|]. split; [split; [exists east; split; [exact Ie|intros t _ []]|intros t _ []]|]. auto.
Qed.

(** The world's brushes. *)
Lemma moat_world : let d := source_doc P moat in exists e nodes g,
  file_text (cf_map moat_config) moat_text /\ text_document P moat_text d /\ grid_document P d /\ run P given 4 moat_config = Ok nodes
  /\ in_tree d e /\ doc_brushes e = [map (plane_line P) stone; map (plane_line P) flood]
  /\ Forall2 (reads_as P) (map (plane_line P) stone) stone /\ Forall2 (reads_as P) (map (plane_line P) flood) flood
  /\ brush_class (cf_game moat_config) e (BrushData VMesh CConvex) /\ stays (cf_textures moat_config) e stone
  /\ moved (cf_textures moat_config) e flood (wl_texture moat_layer)
  /\ only_one (fun l => wl_texture l = wl_texture moat_layer) (gd_layers (cf_game moat_config)) moat_layer
  /\ In east stone /\ In (paint water east) flood
  /\ clear_corner (map plane_of stone) (plane_of east) (reals tip) g /\ clear_corner (map plane_of flood) (plane_of (paint water east)) (reals tip) g /\ g <= 170.
Proof.
  cbn zeta. destruct moat_run as (nodes & Er). destruct stone_corner as (g & Gb & Cc). destruct moat_file as (F & T & G).
  assert (Ie : In east stone) by (unfold stone, crate, box_planes; cbn [In]; left; reflexivity).
  exists (map (item_doc P) [MProp (lit "classname") (lit "worldspawn"); MBrush stone; MBrush flood]), nodes, g.
  split; [exact F|]. split; [exact T|]. split; [exact G|]. split; [exact Er|]. split.
  { apply TreeWorld; [right; now left|reflexivity]. }
  split; [reflexivity|]. split; [apply lines_read; now left|]. split; [apply lines_read; now right|].
  split. { exists (lit "worldspawn"), wall_def. eexists. split; [reflexivity|]. split; [|reflexivity]. now apply first_here. }
  split; [right; split; exists east; (split; [exact Ie|discriminate])|].
  split. { split; [reflexivity|]. split; [now left|]. intros q H. unfold flood in H. apply in_map_iff in H. destruct H as (q' & <- & _). reflexivity. }
  split. { exists [], []. split; [reflexivity|]. split; [reflexivity|]. split; intros y []. }
  split; [exact Ie|]. split; [apply in_map; exact Ie|]. split; [exact Cc|]. split; [|exact Gb].
  replace (map plane_of flood) with (map plane_of stone) by reflexivity. exact Cc.
Qed.
