(** A box with a plane above it, to try C115 on. *)
From Coq Require Import Reals Lra Lia ZArith Permutation.
From Flocq Require Import Core.
From Verif Require Import Prelude F32 Text MapModel GeoModel LayerModel GameDataModel SceneModel RunModel Witness SceneWitness
  MapSpec Utf8Spec RunSpec InvarianceSpec TreeSpec NumberSpec RealSpec ErrorSpec PointsSpec CornerSpec GeoSpec IdleSpec
  BaseProofs PlaneProofs MapProofs RunProofs PrintProofs FloatProofs ArithProofs ExactProofs BoxSpec ErrorProofs ErrorFinal RealProofs IdleFinal
  GeoWitness RunWitness PointsWitness ErrorWitness CornerWitness WindWitness WoundWitness KeptWitness TriangleWitness CoverWitness.
Local Open Scope R_scope.

Definition sky := tri (V3 (-16) (-8) 48)%Z (V3 (-16) 0 48)%Z (V3 (-8) (-8) 48)%Z.
Lemma box7_grid : forall r, In r (sky :: box6) -> grid_plane r.
Proof. intros r H. rewrite <- box6_crate in H. destruct H as [<-|H]; [|now apply crate_grid]. apply (tri_grid _ _ _ 8 8); znum. Qed.

(** ** No close calls *)
Definition plane7 (d : option dir) : brush_plane f32 := match d with Some d => plane_at d | None => sky end.
Definition out7 (d : option dir) : vec3 Z := match d with Some d => out d | None => out Top end.
Definition turn7 (a b c : option dir) : Z := zinner (zouter (out7 a) (out7 b)) (out7 c).
Definition place7 (d : option dir) : vec3 Z := match d with Some d => place d | None => V3 0%Z 0%Z 48%Z end.
Definition corner7 (a b c : option dir) : vec3 Z :=
  V3 (vx (place7 a) + vx (place7 b) + vx (place7 c))%Z (vy (place7 a) + vy (place7 b) + vy (place7 c))%Z (vz (place7 a) + vz (place7 b) + vz (place7 c))%Z.
Definition high (a b c : option dir) : bool := match a, b, c with Some _, Some _, Some _ => false | _, _, _ => true end.
Lemma in_box7 : forall pl, In pl (sky :: box6) -> exists d, pl = plane7 d.
Proof. intros pl [<-|H]; [exists None; reflexivity|]. apply in_box6 in H. destruct H as (d & ->). exists (Some d). reflexivity. Qed.

Lemma high_cases : forall a b c x, crossing (plane7 a) (plane7 b) (plane7 c) x -> high a b c = true -> turn7 a b c = 1%Z /\ x = reals (corner7 a b c).
Proof.
  intros a b c x (A & B & C & D) H.
  destruct a as [[]|], b as [[]|], c as [[]|]; try discriminate H; clear H; cbn [plane7 plane_at] in *; unfold sky in *; sides; turning D; try discriminate D; clear D; equations; (split; [reflexivity|]);
  (apply vec_eq; unfold reals; cbn [vx vy vz]; match goal with |- _ = IZR ?k => let n := eval vm_compute in k in change k with n end; lra).
Qed.
Lemma high_far : forall a b c, high a b c = true -> turn7 a b c = 1%Z -> 1 <= openness (plane_of (plane7 a)) (plane_of (plane7 b)) (plane_of (plane7 c))
  /\ distances (plane_of (plane7 a)) (plane_of (plane7 b)) (plane_of (plane7 c)) (reals (corner7 a b c)) <= 240 /\ vz (reals (corner7 a b c)) = 48.
Proof.
  intros a b c H T. split; [|split].
  - destruct a as [[]|], b as [[]|], c as [[]|]; try discriminate H; try discriminate T; cbn [plane7 plane_at]; unfold sky; sides; (apply (tri_open _ _ _ _ _ _ _ _ _ 64 64 64); try grid; try lia; try (vm_compute; split; reflexivity || discriminate); [lra|];
     match goal with |- _ <= IZR ?z => replace z with 262144%Z by (vm_compute; reflexivity) end; replace (64 * 64 * 64)%Z with 262144%Z by reflexivity; lra).
  - assert (N : forall k, on_grid k -> (zinner k k <= 60 * 60)%Z -> norm (point_of (fvz k)) <= 60).
    { intros j G0 Hj. destruct (point_fvz j G0) as [_ ->]. apply (norm_reals j 60); lia. }
    assert (NP : forall d, norm (bp_v0 (plane_of (plane7 d))) <= 60) by (intros d; destruct d as [[]|]; cbn [plane7 plane_at]; unfold sky; sides; cbn [plane_of bp_v0 tri wall_at]; apply N; [grid|znum..]).
    assert (NC : norm (reals (corner7 a b c)) <= 60) by (apply (norm_reals _ 60); [lia|]; destruct a as [[]|], b as [[]|], c as [[]|]; try discriminate H; try discriminate T; znum).
    unfold distances. pose proof (NP a). pose proof (NP b). pose proof (NP c). lra.
  - destruct a as [[]|], b as [[]|], c as [[]|]; try discriminate H; try discriminate T; reflexivity.
Qed.
Lemma slack7 : forall q, In q (sky :: box6) -> slack q <= / 10000.
Proof.
  intros q H. assert (N : forall k, on_grid k -> (zinner k k <= 60 * 60)%Z -> norm (point_of (fvz k)) <= 60).
  { intros j G0 Hj. destruct (point_fvz j G0) as [_ ->]. apply (norm_reals j 60); lia. }
  assert (Q : norm (bp_v0 (plane_of q)) <= 60) by (apply in_box7 in H; destruct H as (d & ->); destruct d as [[]|]; cbn [plane7 plane_at]; unfold sky; sides; cbn [plane_of bp_v0 tri wall_at]; apply N; [grid|znum..]).
  unfold slack. replace (2 ^ 20) with 1048576 by ring. lra.
Qed.

Lemma lid_height : forall d x, 0 <= d -> within d (plane_of lid) x -> vz x <= 32 + d.
Proof.
  intros d x D H. unfold within, lid in H. rewrite tri_facing in H by grid. cbn [plane_of bp_v0 tri wall_at] in H. destruct (point_fvz (V3 (-16) (-8) 32)%Z) as [_ E]; [grid|]. rewrite E in H.
  assert (Nf : norm (reals (zfacing (V3 (-16) (-8) 32) (V3 (-16) 0 32) (V3 (-8) (-8) 32))%Z) <= 64) by (apply (norm_reals _ 64); [lia|znum]).
  set (m := norm _) in *. clearbody m. change (zfacing (V3 (-16) (-8) 32) (V3 (-16) 0 32) (V3 (-8) (-8) 32))%Z with (V3 0 0 64)%Z in H. unfold inner, minus, reals in H. cbn [vx vy vz] in H.
  apply (Rmult_le_compat_l d) in Nf; [|exact D]. lra.
Qed.
Lemma sky_clear : forall r, In r (sky :: box6) -> clear (sky :: box6) r.
Proof.
  intros r I0 p1 p2 x I1 I2 X. apply in_box7 in I0, I1, I2. destruct I0 as (a & ->), I1 as (b & ->), I2 as (c & ->).
  destruct (high a b c) eqn:H.
  - right. destruct (high_cases a b c x X H) as (T & ->). destruct (high_far a b c H T) as (OP & DI & Z). exists lid.
    assert (Hl : In lid (sky :: box6)) by (cbn; tauto). split; [exact Hl|]. split.
    + intros W. apply lid_height in W; [|lra]. lra.
    + right. intros W. pose proof (slack7 lid Hl) as SL. assert (SP : 0 <= slack lid) by (unfold slack; apply Rmult_le_pos; [|apply sqrt_pos]; apply Rlt_le, Rinv_0_lt_compat; replace (2 ^ 20) with 1048576 by ring; lra).
      assert (B : 0 <= blur (plane7 a) (plane7 b) (plane7 c) (reals (corner7 a b c)) <= / 1000).
      { unfold blur. set (o := openness _ _ _) in *. assert (D0 : 0 <= distances (plane_of (plane7 a)) (plane_of (plane7 b)) (plane_of (plane7 c)) (reals (corner7 a b c))).
        { unfold distances. pose proof (sqrt_pos (inner (bp_v0 (plane_of (plane7 a))) (bp_v0 (plane_of (plane7 a))))). pose proof (sqrt_pos (inner (bp_v0 (plane_of (plane7 b))) (bp_v0 (plane_of (plane7 b))))).
          pose proof (sqrt_pos (inner (bp_v0 (plane_of (plane7 c))) (bp_v0 (plane_of (plane7 c))))). pose proof (sqrt_pos (inner (reals (corner7 a b c)) (reals (corner7 a b c)))). unfold norm. lra. }
        set (d := distances _ _ _ _) in *. assert (D1 : 0 <= d / o <= 240).
        { split; [apply Rmult_le_pos; [exact D0|apply Rlt_le, Rinv_0_lt_compat; lra]|]. apply Rmult_le_reg_r with o; [lra|]. unfold Rdiv. rewrite Rmult_assoc, Rinv_l, Rmult_1_r by lra. nra. }
        replace (2 ^ 19) with 524288 by ring. lra. }
      apply lid_height in W; [|lra]. lra.
  - destruct a as [a|], b as [b|], c as [c|]; try discriminate H. left. cbn [plane7] in *. destruct (box_blur a b c x X) as (OP & BL & T).
    assert (Z : vz x <= 32) by (pose proof (lid_height 0 x (Rle_refl 0) (T lid (box6_in Top))); lra).
    split; [|split; [lra|]].
    + intros q [<-|Hq]; [|now apply T]. unfold within, sky. rewrite tri_facing by grid. cbn [plane_of bp_v0 tri wall_at]. destruct (point_fvz (V3 (-16) (-8) 48)%Z) as [_ E]; [grid|]. rewrite E.
      change (zfacing (V3 (-16) (-8) 48) (V3 (-16) 0 48) (V3 (-8) (-8) 48))%Z with (V3 0 0 64)%Z. unfold inner, minus, reals. cbn [vx vy vz]. lra.
    + intros q Hq. pose proof (slack7 q Hq). unfold haze in BL. lra.
Qed.
Lemma sky_beyond : forall x, in_solid box6 x -> inner (facing (plane_of sky)) (minus x (bp_v0 (plane_of sky))) < 0.
Proof.
  intros x T. assert (Z : vz x <= 32) by (pose proof (lid_height 0 x (Rle_refl 0) (T lid (box6_in Top))); lra).
  unfold sky. rewrite tri_facing by grid. cbn [plane_of bp_v0 tri wall_at]. destruct (point_fvz (V3 (-16) (-8) 48)%Z) as [_ E]; [grid|]. rewrite E.
  change (zfacing (V3 (-16) (-8) 48) (V3 (-16) 0 48) (V3 (-8) (-8) 48))%Z with (V3 0 0 64)%Z. unfold inner, minus, reals. cbn [vx vy vz]. lra.
Qed.
Lemma box6_clear : forall r, In r box6 -> clear box6 r.
Proof. intros r H. apply in_box6 in H. destruct H as (d & ->). apply box_clear. Qed.
Lemma sky_idle : forall p, idle (f32_num p) box6 sky.
Proof. intros p. exact (float_idle p box6 sky box7_grid box6_clear sky_clear sky_beyond). Qed.
Lemma sky_front : forall x, (forall r, In r (map plane_of box6) -> within (/ 1000) r x) -> inner (facing (plane_of sky)) (minus x (bp_v0 (plane_of sky))) < 0.
Proof.
  intros x T. assert (Z : vz x <= 33) by (pose proof (lid_height (/ 1000) x ltac:(lra) (T (plane_of lid) (in_map _ _ _ (box6_in Top)))); lra).
  unfold sky. rewrite tri_facing by grid. cbn [plane_of bp_v0 tri wall_at]. destruct (point_fvz (V3 (-16) (-8) 48)%Z) as [_ E]; [grid|]. rewrite E.
  change (zfacing (V3 (-16) (-8) 48) (V3 (-16) 0 48) (V3 (-8) (-8) 48))%Z with (V3 0 0 64)%Z. unfold inner, minus, reals. cbn [vx vy vz]. lra.
Qed.

(** ** The map *)
Local Close Scope R_scope.
Definition box7 : list (brush_plane f32) := [east; west; sky; north; south; lid; ground].
Lemma box7_padded : forall p, padded (f32_num p) box6 box7.
Proof. intros p. apply (PaddedIdle _ _ [east; west] [north; south; lid; ground] sky); [constructor|exact (sky_idle p)|left; reflexivity]. Qed.
Theorem exact_padded : forall parse cosine radians atan2 quat mat2 e, let O := real_num parse cosine radians atan2 quat mat2 in
  padded O (map plane_of box6) (map plane_of box7) /\ exists g g', build_brush O textures e (map plane_of box6) = Ok g /\ build_brush O textures e (map plane_of box7) = Ok g'.
Proof.
  intros parse cosine radians atan2 quat mat2 e O. split.
  - apply (PaddedIdle _ _ (map plane_of [east; west]) (map plane_of [north; south; lid; ground]) (plane_of sky)); [constructor|apply real_idle; exact sky_front|left; reflexivity].
  - assert (B : forall b, exists g, build_brush O textures e b = Ok g).
    { intros b. unfold build_brush. destruct (mapM_total _ _ (build_face O textures e b) b) as (l & E); [intros pl _; apply real_total|]. rewrite E. eexists. reflexivity. }
    destruct (B (map plane_of box6)) as (g & E), (B (map plane_of box7)) as (g' & E'). eauto.
Qed.

Definition house : map_source := [ [MProp (lit "classname") (lit "worldspawn"); MBrush box6] ].
Definition roofed : map_source := [ [MProp (lit "classname") (lit "worldspawn"); MBrush box7] ].
Definition house_config (m : map_source) : config := Config (Contents (map_bytes (polar true) m)) textures (Blacklist [] []) no_fd yard_gd.

Lemma box7_exact : forall pl, In pl box7 -> exact_plane (polar true) pl /\ word (bp_texture pl) /\ Forall scalar (bp_texture pl) /\ to_lowercase (polar true) (bp_texture pl) = bp_texture pl.
Proof.
  intros pl H. unfold box7 in H. cbn [In] in H.
  repeat (destruct H as [<-|H]; [split; [vm_compute; repeat split; intros; discriminate|split; [split; [discriminate|reflexivity]|split; [
    repeat (apply Forall_cons; [unfold scalar; vm_compute; intuition discriminate|]); apply Forall_nil|reflexivity]]]|]). destruct H.
Qed.
Lemma box6_7 : forall pl, In pl box6 -> In pl box7.
Proof. intros pl H. unfold box6, box7 in *. cbn [In] in *. tauto. Qed.
Lemma house_printable : printable (polar true) house /\ printable (polar true) roofed.
Proof.
  split; intros e i He Hi; cbn [house roofed In] in He; (destruct He as [<-|[]]); cbn [In] in Hi; (destruct Hi as [<-|[<-|[]]]); cbn [printable_item]; try (split; plainly).
  - intros pl Hp. destruct (box7_exact pl (box6_7 pl Hp)) as (A & B & C & _). auto.
  - intros pl Hp. destruct (box7_exact pl Hp) as (A & B & C & _). auto.
Qed.
Lemma house_reads : forall pl, In pl box7 -> reads_as (polar true) (plane_line (polar true) pl) pl.
Proof.
  intros pl I. set (P := polar true) in *. destruct (box7_exact pl I) as (A & B & C & Lw). pose proof (plane_line_written P pl B C) as W.
  assert (R : parse_plane (f32_num P) (to_lowercase P) (plane_line P pl) = Ok pl).
  { rewrite (plane_round_trip_f32 P pl); [fold P in Lw; rewrite Lw; destruct pl; reflexivity|now apply exact_good|exact W]. }
  exists (show_plane (show_f32 (p_neg_zero P)) pl). split; [exact W|]. apply (plane_read_iff _ (f32_num P) (to_lowercase P) _ _ pl W). exact R.
Qed.
Lemma house_lines : forall l, (forall pl, In pl l -> In pl box7) -> Forall2 (reads_as (polar true)) (map (plane_line (polar true)) l) l.
Proof. induction l as [|a l IH]; intros H; constructor; [apply house_reads, H; now left|]. apply IH. intros pl Hp. apply H. now right. Qed.

Definition heights (ns : list (node f32)) : list f32 := flat_map (fun n => match n with NActor o _ _ => [vz o] | _ => [] end) ns.
Theorem house_roofed : exists text text' d d' nodes nodes' h, same_but_map (house_config house) (house_config roofed)
  /\ file_text (cf_map (house_config house)) text /\ file_text (cf_map (house_config roofed)) text'
  /\ text_document (polar true) text d /\ text_document (polar true) text' d' /\ Forall2 (padded_entity (polar true)) d d'
  /\ run (polar true) given 4 (house_config house) = Ok nodes /\ heights nodes = [fz 16]
  /\ run (polar true) given 4 (house_config roofed) = Ok nodes' /\ heights nodes' = [h] /\ f32_cmp h (fz 14) = Some Lt.
Proof.
  set (P := polar true) in *. exists (map_text P house), (map_text P roofed), (source_doc P house), (source_doc P roofed). destruct house_printable as (H1 & H2).
  destruct (shown _ _ heights (run P given 4 (house_config house)) [fz 16]) as (nodes & R & B); [vm_compute; reflexivity|].
  destruct (shown _ _ (fun ns => match heights ns with [h] => f32_cmp h (fz 14) | _ => None end) (run P given 4 (house_config roofed)) (Some Lt)) as (nodes' & R' & B'); [vm_compute; reflexivity|].
  cbv beta in B'. destruct (heights nodes') as [|h [|]] eqn:E; try discriminate B'. exists nodes, nodes', h.
  split; [exact (conj eq_refl (conj eq_refl (conj eq_refl eq_refl)))|].
  split; [eexists; split; [reflexivity|apply printed_encodes, H1]|]. split; [eexists; split; [reflexivity|apply printed_encodes, H2]|].
  split; [apply printed_document, H1|]. split; [apply printed_document, H2|]. split; [|exact (conj R (conj B (conj R' (conj E B'))))].
  unfold source_doc, house, roofed. cbn [map item_doc]. constructor; [|constructor]. split; [reflexivity|]. cbn [doc_brushes]. constructor; [|constructor].
  exists box6, box7. split; [apply house_lines, box6_7|]. split; [apply house_lines; auto|]. apply box7_padded.
Qed.
