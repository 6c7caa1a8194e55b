(** A house with other wallpaper, to try C116 on. *)
From Coq Require Import Permutation.
From Verif Require Import Prelude F32 Text MapModel GeoModel LayerModel GameDataModel SceneModel RunModel Witness SceneWitness
  GatherSpec SurfaceSpec MapSpec Utf8Spec RunSpec InvarianceSpec TreeSpec PointsSpec AlignSpec
  BaseProofs PlaneProofs MapProofs RunProofs PrintProofs GeoWitness RunWitness ErrorWitness TriangleWitness IdleWitness.

(** ** Another offset, angle and scale *)
Definition papered (pl : brush_plane f32) : brush_plane f32 :=
  BrushPlane (bp_v0 pl) (bp_v1 pl) (bp_v2 pl) (bp_texture pl) (UVQuake (fz 5) (fz 7)) (fz 90) (V2 (fz 2) (fz 4)) (bp_extra pl).
Lemma papered_realigned : forall l, (forall pl, In pl l -> bp_uv pl = standard_uv) -> Forall2 realigned l (map papered l).
Proof.
  intros l H. induction l as [|pl l IH]; constructor; [|apply IH; intros q Hq; apply H; now right]. unfold realigned, papered. cbn [bp_v0 bp_v1 bp_v2 bp_texture bp_extra bp_uv].
  rewrite (H pl (or_introl eq_refl)). repeat split; reflexivity.
Qed.
Lemma box6_standard : forall pl, In pl box6 -> bp_uv pl = standard_uv.
Proof. intros pl H. unfold box6 in H. cbn [In] in H. repeat (destruct H as [<-|H]; [reflexivity|]). destruct H. Qed.
Definition large : texture_info := [(lit "brick", (128, 256)%N)].
Lemma large_resized : resized textures large.
Proof. intros t. unfold textures, large. cbn [hget]. match goal with |- context [str_eqb ?a ?b] => destruct (str_eqb a b) end; split; intros H; (reflexivity || discriminate H). Qed.

(** ** The run *)
Definition papered_house : map_source := [ [MProp (lit "classname") (lit "worldspawn"); MBrush (map papered box6)] ].
Definition papered_config : config := Config (Contents (map_bytes (polar true) papered_house)) large (Blacklist [] []) no_fd yard_gd.
Lemma papered_exact : forall pl, In pl (map papered box6) -> exact_plane (polar true) pl /\ word (bp_texture pl) /\ Forall scalar (bp_texture pl) /\ to_lowercase (polar true) (bp_texture pl) = bp_texture pl.
Proof.
  intros pl H. unfold box6 in H. cbn [map In] in H.
  repeat (destruct H as [<-|H]; [split; [vm_compute; repeat split; intros; discriminate|split; [split; [discriminate|reflexivity]|split; [
    repeat (apply Forall_cons; [unfold scalar; vm_compute; intuition discriminate|]); apply Forall_nil|reflexivity]]]|]). destruct H.
Qed.
Lemma papered_printable : printable (polar true) papered_house.
Proof.
  intros e i He Hi. cbn [papered_house In] in He. destruct He as [<-|[]]. cbn [In] in Hi. destruct Hi as [<-|[<-|[]]]; cbn [printable_item]; [split; plainly|].
  intros pl Hp. destruct (papered_exact pl Hp) as (A & B & C & _). auto.
Qed.
Lemma papered_reads : forall pl, In pl (map papered box6) -> reads_as (polar true) (plane_line (polar true) pl) pl.
Proof.
  intros pl I. set (P := polar true) in *. destruct (papered_exact pl I) as (A & B & C & Lw). pose proof (plane_line_written P pl B C) as W.
  assert (R : parse_plane (f32_num P) (to_lowercase P) (plane_line P pl) = Ok pl).
  { rewrite (plane_round_trip_f32 P pl); [fold P in Lw; rewrite Lw; destruct pl; reflexivity|now apply exact_good|exact W]. }
  exists (show_plane (show_f32 (p_neg_zero P)) pl). split; [exact W|]. apply (plane_read_iff _ (f32_num P) (to_lowercase P) _ _ pl W). exact R.
Qed.
Lemma papered_lines : forall l, (forall pl, In pl l -> In pl box6) ->
  Forall2 (realigned_line (polar true)) (map (plane_line (polar true)) l) (map (plane_line (polar true)) (map papered l)).
Proof.
  intros l H. induction l as [|pl l IH]; constructor; [|apply IH; intros q Hq; apply H; now right]. exists pl, (papered pl). pose proof (H pl (or_introl eq_refl)) as Hp.
  split; [apply house_reads, box6_7, Hp|]. split; [apply papered_reads, in_map, Hp|]. pose proof (papered_realigned [pl]) as R. cbn [map] in R.
  assert (Q : Forall2 realigned [pl] [papered pl]) by (apply R; intros q [<-|[]]; now apply box6_standard). now inversion Q.
Qed.

(** Texture coordinates of the first surface found. *)
Definition first_uv (ns : list (node f32)) : option (vec2 f32) :=
  match ns with
  | NActor _ _ (NVisual _ (VisMesh (s :: _)) :: _) :: _ => match s_uvs s with Some (u :: _) => Some u | _ => None end
  | _ => None
  end.
Theorem house_papered : exists text text' d d' nodes nodes' u u', cf_blacklist (house_config house) = cf_blacklist papered_config /\ cf_forge (house_config house) = cf_forge papered_config
  /\ cf_game (house_config house) = cf_game papered_config /\ resized (cf_textures (house_config house)) (cf_textures papered_config)
  /\ file_text (cf_map (house_config house)) text /\ file_text (cf_map papered_config) text'
  /\ text_document (polar true) text d /\ text_document (polar true) text' d' /\ Forall2 (realigned_entity (polar true)) d d'
  /\ run (polar true) given 4 (house_config house) = Ok nodes /\ first_uv nodes = Some u
  /\ run (polar true) given 4 papered_config = Ok nodes' /\ first_uv nodes' = Some u' /\ v2_eqb (f32_num (polar true)) u u' = false.
Proof.
  set (P := polar true) in *. exists (map_text P house), (map_text P papered_house), (source_doc P house), (source_doc P papered_house). destruct house_printable as (H1 & _). pose proof papered_printable as H2.
  assert (X : exists nodes nodes' u u', run P given 4 (house_config house) = Ok nodes /\ first_uv nodes = Some u /\ run P given 4 papered_config = Ok nodes' /\ first_uv nodes' = Some u'
    /\ v2_eqb (f32_num P) u u' = false).
  { destruct (shown _ _ (fun ns => match first_uv ns with Some _ => true | None => false end) (run P given 4 (house_config house)) true) as (nodes & R & B); [vm_compute; reflexivity|].
    destruct (shown _ _ (fun ns => match run P given 4 (house_config house) with Ok ms => match first_uv ms, first_uv ns with Some u, Some u' => negb (v2_eqb (f32_num P) u u') | _, _ => false end | _ => false end)
      (run P given 4 papered_config) true) as (nodes' & R' & B'); [vm_compute; reflexivity|].
    cbv beta in B, B'. rewrite R in B'. destruct (first_uv nodes) as [u|] eqn:U; [|discriminate B]. destruct (first_uv nodes') as [u'|] eqn:U'; [|discriminate B'].
    exists nodes, nodes', u, u'. apply negb_true_iff in B'. exact (conj R (conj U (conj R' (conj U' B')))). }
  destruct X as (nodes & nodes' & u & u' & R & U & R' & U' & B). exists nodes, nodes', u, u'.
  split; [reflexivity|]. split; [reflexivity|]. split; [reflexivity|]. split; [exact large_resized|].
  split; [eexists; split; [reflexivity|apply printed_encodes, H1]|]. split; [eexists; split; [reflexivity|apply printed_encodes, H2]|].
  split; [apply printed_document, H1|]. split; [apply printed_document, H2|]. split; [|exact (conj R (conj U (conj R' (conj U' B))))].
  unfold source_doc, house, papered_house. cbn [map item_doc]. constructor; [|constructor]. split; [reflexivity|]. cbn [doc_brushes]. constructor; [|constructor]. apply papered_lines. auto.
Qed.

(** ** Normals do depend on the alignment if a side is repeated *)
Definition twice : list (brush_plane f32) := box6 ++ [ground].
Definition shifted : list (brush_plane f32) := box6 ++ [papered ground].
Theorem normals_differ : let O := f32_num (polar true) in exists tx e b b' g g' t s s' k i i' n n', Forall2 realigned b b'
  /\ build_brush O tx e b = Ok g /\ build_brush O tx e b' = Ok g'
  /\ texture_surface O (EntityGeo (v3_zero O) [g]) blacklist_default t = Ok (Some s) /\ texture_surface O (EntityGeo (v3_zero O) [g']) blacklist_default t = Ok (Some s')
  /\ nth_error (s_indices s) k = Some i /\ nth_error (s_indices s') k = Some i' /\ nth_error (s_normals s) i = Some n /\ nth_error (s_normals s') i' = Some n' /\ ~ pos_eq O n n'.
Proof.
  intros O. exists textures, (world []), twice, shifted.
  set (drawn := fun b => match build_brush O textures (world []) b with
    | Ok g => match texture_surface O (EntityGeo (v3_zero O) [g]) blacklist_default (Some (lit "brick")) with
              | Ok (Some s) => match nth_error (s_indices s) 36 with Some i => nth_error (s_normals s) i | None => None end | _ => None end | _ => None end).
  assert (G : forall b n, drawn b = Some n -> exists g s i, build_brush O textures (world []) b = Ok g
    /\ texture_surface O (EntityGeo (v3_zero O) [g]) blacklist_default (Some (lit "brick")) = Ok (Some s) /\ nth_error (s_indices s) 36 = Some i /\ nth_error (s_normals s) i = Some n).
  { intros b n H. unfold drawn in H. destruct (build_brush O textures (world []) b) as [g| | |]; try discriminate H.
    destruct (texture_surface O (EntityGeo (v3_zero O) [g]) blacklist_default (Some (lit "brick"))) as [[s|]| | |] eqn:E; try discriminate H. destruct (nth_error (s_indices s) 36) as [i|] eqn:N; [|discriminate H]. eauto 8. }
  destruct (G twice (V3 (fz 1) (fz 0) (fz 0))) as (g & s & i & H1 & H2 & H3 & H4); [vm_compute; reflexivity|].
  destruct (G shifted (V3 (fz 0) (fz 0) (fz (-1)))) as (g' & s' & i' & K1 & K2 & K3 & K4); [vm_compute; reflexivity|].
  exists g, g', (Some (lit "brick")), s, s', 36, i, i', (V3 (fz 1) (fz 0) (fz 0)), (V3 (fz 0) (fz 0) (fz (-1))).
  repeat (split; [assumption|]) || split; [|repeat (split; [assumption|]); intros (X & _); vm_compute in X; discriminate X].
  unfold twice, shifted. apply Forall2_app.
  - clear. induction box6 as [|pl l IH]; constructor; [|exact IH]. unfold realigned, same_kind. destruct (bp_uv pl); repeat split.
  - constructor; [|constructor]. pose proof (papered_realigned [ground]) as R. assert (Q : Forall2 realigned [ground] [papered ground]) by (apply R; intros q [<-|[]]; reflexivity). now inversion Q.
Qed.
