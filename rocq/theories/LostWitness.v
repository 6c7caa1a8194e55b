(** A world with a stray plane, to try C137 on. *)
From Coq Require Import SpecFloat Permutation.
From Verif Require Import Prelude F32 Text MapModel GeoModel LayerModel GameDataModel SceneModel RunModel Witness SceneWitness
  GatherSpec GeoSpec GameDataSpec MapSpec Utf8Spec TreeSpec InvarianceSpec RunSpec PointsSpec PlaceSpec LostSpec
  BaseProofs PlaneProofs MapProofs TextProofs RunProofs PrintProofs GeoWitness RunWitness.

Definition stray : brush_plane f32 := wall_at (fv 4 4 4) (fv 4 4 4) (fv 8 4 4) (UVValve (fv 1 0 0) (fz 0) (fv 0 1 0) (fz 0)).
Definition ruin : map_source :=
  [ [MProp (lit "classname") (lit "worldspawn"); MProp (lit "_tb_id") (lit "7"); MBrush (crate standard_uv); MBrush (stray :: crate standard_uv)];
    [MProp (lit "classname") (lit "lamp"); MProp (lit "_tb_group") (lit "7"); MProp (lit "origin") (lit "1 2 3")] ].
Definition ruin_config : config := Config (Contents (map_bytes (polar true) ruin)) textures (Blacklist [] []) no_fd yard_gd.
Definition ruin_world : doc_entity := nth 0 (source_doc (polar true) ruin) [].
Definition ruin_lamp : doc_entity := nth 1 (source_doc (polar true) ruin) [].

Lemma ruin_printable : printable (polar true) ruin.
Proof.
  intros e i He Hi. cbn [ruin In] in He. repeat (destruct He as [<-|He]; [cbn [In] in Hi; repeat (destruct Hi as [<-|Hi]; [|]); try contradiction; cbn [printable_item]|]);
    try contradiction; try (split; plainly).
  - apply (castle_printable [MProp (lit "classname") (lit "worldspawn"); MBrush (crate standard_uv)] (MBrush (crate standard_uv))); cbn; auto.
  - intros pl [<-|Hp].
    + split; [vm_compute; repeat split; intros; discriminate|]. split; [split; [discriminate|reflexivity]|].
      repeat (apply Forall_cons; [unfold scalar; vm_compute; intuition discriminate|]); apply Forall_nil.
    + destruct (crate_exact pl Hp) as (A & B & C & _). auto.
Qed.
Lemma stray_unfit : forall p, unfit p stray.
Proof. intros p. left. vm_compute. auto. Qed.
Lemma stray_read : reads_as (polar true) (plane_line (polar true) stray) stray.
Proof.
  set (P := polar true). destruct (ruin_printable _ (MBrush (stray :: crate standard_uv)) (or_introl eq_refl) ltac:(cbn; auto) stray (or_introl eq_refl)) as (X & W & S).
  pose proof (plane_line_written P stray W S) as Ww. assert (Lw : to_lowercase P (bp_texture stray) = bp_texture stray) by reflexivity.
  assert (R : parse_plane (f32_num P) (to_lowercase P) (plane_line P stray) = Ok stray).
  { rewrite (plane_round_trip_f32 P stray); [rewrite Lw; reflexivity|now apply exact_good|exact Ww]. }
  exists (show_plane (show_f32 (p_neg_zero P)) stray). split; [exact Ww|]. apply (plane_read_iff _ (f32_num P) (to_lowercase P) _ _ stray Ww). exact R.
Qed.
Lemma ruin_marred : marred (polar true) ruin_world.
Proof.
  split; [reflexivity|]. exists (map (plane_line (polar true)) (stray :: crate standard_uv)), (plane_line (polar true) stray), stray.
  split; [right; left; reflexivity|]. split; [left; reflexivity|]. split; [exact stray_read|apply stray_unfit].
Qed.
Lemma ruin_doc : doc_world (source_doc (polar true) ruin) [ruin_lamp] ruin_world.
Proof.
  exists [], [ruin_lamp]. split; [reflexivity|]. split; [reflexivity|]. split; [reflexivity|].
  intros e [<-|[]]. vm_compute. discriminate.
Qed.

(** Every coordinate of every node, and of every point it holds. *)
Definition is_lost (v : vec3 f32) : bool := match vx v, vy v, vz v with S754_nan, S754_nan, S754_nan => true | _, _, _ => false end.
Lemma is_lost_ok : forall v, is_lost v = true -> lost v.
Proof. intros [x y z]. unfold is_lost, lost. cbn [vx vy vz]. destruct x, y, z; intros H; try discriminate; auto. Qed.

Lemma ruin_nodes : exists o a ov v ok k ol lamp, run (polar true) given 4 ruin_config = Ok [NActor o a [NVisual ov v; NCollision ok k; NActor ol lamp []]]
  /\ a_name lamp = lit "lamp" /\ lost ol
  /\ (exists l x, In l (point_lists (NVisual ov v)) /\ In x l /\ lost x) /\ (exists l x, In l (point_lists (NCollision ok k)) /\ In x l /\ lost x).
Proof.
  assert (C : match run (polar true) given 4 ruin_config with
    | Ok [NActor o a [NVisual ov v; NCollision ok k; NActor ol lamp []]] => a_name lamp = lit "lamp" /\ is_lost ol = true
        /\ existsb (existsb is_lost) (point_lists (NVisual ov v)) = true /\ existsb (existsb is_lost) (point_lists (NCollision ok k)) = true
    | _ => False end) by (vm_compute; repeat split).
  destruct (run (polar true) given 4 ruin_config) as [[|[o a [|[| ov v|] [|[| |ok k] [|[ol lamp [|]| |] [|]]]]| |] [|]]| | |] eqn:E; try contradiction.
  destruct C as (N & L & V & K). exists o, a, ov, v, ok, k, ol, lamp. split; [reflexivity|]. split; [exact N|]. split; [now apply is_lost_ok|].
  assert (Q : forall ls, existsb (existsb is_lost) ls = true -> exists l x, In l ls /\ In x l /\ lost x).
  { intros ls H. apply existsb_exists in H. destruct H as (l & Il & H). apply existsb_exists in H. destruct H as (x & Ix & H). exists l, x. auto using is_lost_ok. }
  split; apply Q; assumption.
Qed.
Theorem ruin_run : let d := source_doc (polar true) ruin in exists text o a ov v ok k ol lamp, file_text (cf_map ruin_config) text /\ text_document (polar true) text d
  /\ run (polar true) given 4 ruin_config = Ok [NActor o a [NVisual ov v; NCollision ok k; NActor ol lamp []]]
  /\ doc_world d [ruin_lamp] ruin_world /\ marred (polar true) ruin_world
  /\ a_name lamp = lit "lamp" /\ doc_value ruin_lamp (lit "origin") = Some (lit "1 2 3") /\ lost ol
  /\ (exists l x, In l (point_lists (NVisual ov v)) /\ In x l /\ lost x) /\ (exists l x, In l (point_lists (NCollision ok k)) /\ In x l /\ lost x).
Proof.
  cbv zeta. exists (map_text (polar true) ruin). destruct ruin_nodes as (o & a & ov & v & ok & k & ol & lamp & E & N & L & V & K). exists o, a, ov, v, ok, k, ol, lamp.
  split; [eexists; split; [reflexivity|apply printed_encodes, ruin_printable]|]. split; [apply printed_document, ruin_printable|].
  split; [exact E|]. split; [exact ruin_doc|]. split; [exact ruin_marred|]. split; [exact N|]. split; [reflexivity|]. split; [exact L|]. split; assumption.
Qed.
Theorem ruin_not_finite : exists p order fuel c nodes, (forall m, Permutation (order m) m) /\ run p order fuel c = Ok nodes
  /\ exists n0 n l x, In n0 nodes /\ within n n0 /\ In l (point_lists n) /\ In x l /\ ~ finite_vec x.
Proof.
  destruct ruin_nodes as (o & a & ov & v & ok & k & ol & lamp & E & _ & _ & (l & x & Il & Ix & Lx) & _).
  exists (polar true), given, 4, ruin_config. eexists. split; [intros m; apply Permutation_refl|]. split; [exact E|].
  eexists _, (NVisual ov v), l, x. split; [left; reflexivity|]. split; [eapply WithinChild; [left; reflexivity|constructor]|]. split; [exact Il|]. split; [exact Ix|].
  intros (F & _). destruct Lx as (X & _). unfold finite in F. rewrite X in F. discriminate.
Qed.
