(** A house with a glass roof, to try C142 on. *)
From Coq Require Import Permutation.
From Verif Require Import Prelude F32 Text MapModel GeoModel LayerModel GameDataModel SceneModel RunModel Witness SceneWitness
  GatherSpec SurfaceSpec MapSpec Utf8Spec RunSpec InvarianceSpec TreeSpec PointsSpec RetextureSpec
  BaseProofs PlaneProofs MapProofs RunProofs PrintProofs InvarianceProofs GeoWitness RunWitness ErrorWitness TriangleWitness IdleWitness.

Definition swap (t : str) : str := if str_eqb t (lit "brick") then lit "glass" else if str_eqb t (lit "glass") then lit "brick" else t.
Definition glazed : list (brush_plane f32) := [east; west; north; south; recover swap lid; ground].
Definition pavilion (b : list (brush_plane f32)) : map_source := [ [MProp (lit "classname") (lit "worldspawn"); MBrush b]; [MProp (lit "classname") (lit "lamp")] ].
Definition pavilion_config : config :=
  Config (Contents (map_bytes (polar true) (pavilion glazed))) [(lit "brick", (64, 64)%N); (lit "glass", (32, 16)%N)] (Blacklist [] [lit "glass"]) no_fd yard_gd.
Definition swapped_config : config :=
  Config (Contents (map_bytes (polar true) (pavilion (map (recover swap) glazed)))) [(lit "glass", (64, 64)%N); (lit "brick", (32, 16)%N)] (Blacklist [] [lit "brick"]) no_fd yard_gd.

Lemma both_exact : forall pl, In pl (glazed ++ map (recover swap) glazed) -> exact_plane (polar true) pl /\ word (bp_texture pl) /\ Forall scalar (bp_texture pl) /\ to_lowercase (polar true) (bp_texture pl) = bp_texture pl.
Proof.
  intros pl H. unfold glazed in H. cbn [map app In] in H.
  repeat (destruct H as [<-|H]; [split; [vm_compute; repeat split; intros; discriminate|split; [split; [discriminate|reflexivity]|split; [
    repeat (apply Forall_cons; [unfold scalar; vm_compute; intuition discriminate|]); apply Forall_nil|reflexivity]]]|]). destruct H.
Qed.
Lemma both_read : forall pl, In pl (glazed ++ map (recover swap) glazed) -> reads_as (polar true) (plane_line (polar true) pl) pl.
Proof.
  intros pl I. set (P := polar true) in *. destruct (both_exact pl I) as (A & B & C & Lw). pose proof (plane_line_written P pl B C) as W.
  assert (R : parse_plane (f32_num P) (to_lowercase P) (plane_line P pl) = Ok pl).
  { rewrite (plane_round_trip_f32 P pl); [fold P in Lw; rewrite Lw; destruct pl; reflexivity|now apply exact_good|exact W]. }
  exists (show_plane (show_f32 (p_neg_zero P)) pl). split; [exact W|]. apply (plane_read_iff _ (f32_num P) (to_lowercase P) _ _ pl W). exact R.
Qed.
Lemma pavilion_printable : forall b, (forall pl, In pl b -> In pl (glazed ++ map (recover swap) glazed)) -> printable (polar true) (pavilion b).
Proof.
  intros b H e i He Hi. cbn [pavilion In] in He. destruct He as [<-|[<-|[]]]; cbn [In] in Hi; [destruct Hi as [<-|[<-|[]]]|destruct Hi as [<-|[]]]; cbn [printable_item]; try (split; plainly).
  intros pl Hp. destruct (both_exact pl (H pl Hp)) as (A & B & C & _). auto.
Qed.
Lemma glazed_printable : printable (polar true) (pavilion glazed) /\ printable (polar true) (pavilion (map (recover swap) glazed)).
Proof. split; apply pavilion_printable; intros pl Hp; apply in_or_app; auto. Qed.

Lemma swapped_lines : forall l, (forall pl, In pl l -> In pl glazed) -> Forall2 (renamed_line (polar true) swap) (map (plane_line (polar true)) l) (map (plane_line (polar true)) (map (recover swap) l)).
Proof.
  intros l H. induction l as [|pl l IH]; constructor; [|apply IH; intros q Hq; apply H; now right]. exists pl. pose proof (H pl (or_introl eq_refl)) as Hp.
  split; apply both_read; apply in_or_app; [now left|right; now apply in_map].
Qed.
Lemma pavilion_names : forall t, texture_name (polar true) (source_doc (polar true) (pavilion glazed)) t -> t = lit "*water0" \/ t = lit "*slime0" \/ t = lit "brick" \/ t = lit "glass".
Proof.
  intros t [->|[->|(e & b & l & pl & Ie & Ib & Il & R & <-)]]; auto. unfold source_doc, pavilion in Ie. cbn [map item_doc In] in Ie. destruct Ie as [<-|[<-|[]]]; cbn [doc_brushes] in Ib; [|destruct Ib].
  destruct Ib as [<-|[]]. apply in_map_iff in Il. destruct Il as (q & <- & Iq). rewrite <- (read_unique _ _ _ _ (both_read q (in_or_app _ _ _ (or_introl Iq))) R).
  unfold glazed in Iq. cbn [In] in Iq. repeat (destruct Iq as [<-|Iq]; [vm_compute; tauto|]). destruct Iq.
Qed.
Lemma swapped_carries : carries swap (texture_name (polar true) (source_doc (polar true) (pavilion glazed))) pavilion_config swapped_config.
Proof.
  constructor; try reflexivity.
  - intros s t Hs Ht. apply pavilion_names in Hs, Ht. destruct Hs as [->|[->|[->| ->]]], Ht as [->|[->|[->| ->]]]; intros E; try reflexivity; vm_compute in E; discriminate.
  - intros t Ht. apply pavilion_names in Ht. destruct Ht as [->|[->|[->| ->]]]; reflexivity.
  - intros t Ht. apply pavilion_names in Ht. destruct Ht as [->|[->|[->| ->]]]; vm_compute; split; intros [E|[]]; try discriminate E; now left.
Qed.

Definition drawn_textures (ns : list (node f32)) : list (option str) :=
  flat_map (fun n => match n with NActor _ _ ch => flat_map (fun m => match m with NVisual _ (VisMesh l) => map s_texture l | _ => [] end) ch | _ => [] end) ns.
Theorem pavilion_swapped : exists c c' text text' d d' nodes nodes', file_text (cf_map c) text /\ file_text (cf_map c') text' /\ text_document (polar true) text d /\ text_document (polar true) text' d'
  /\ Forall2 (renamed_entity (polar true) swap) d d' /\ carries swap (texture_name (polar true) d) c c'
  /\ run (polar true) given 4 c = Ok nodes /\ drawn_textures nodes = [Some (lit "brick")] /\ run (polar true) given 4 c' = Ok nodes' /\ drawn_textures nodes' = [Some (lit "glass")].
Proof.
  exists pavilion_config, swapped_config, (map_text (polar true) (pavilion glazed)), (map_text (polar true) (pavilion (map (recover swap) glazed))),
    (source_doc (polar true) (pavilion glazed)), (source_doc (polar true) (pavilion (map (recover swap) glazed))).
  destruct (shown _ _ drawn_textures (run (polar true) given 4 pavilion_config) [Some (lit "brick")]) as (nodes & E & D); [vm_compute; reflexivity|].
  destruct (shown _ _ drawn_textures (run (polar true) given 4 swapped_config) [Some (lit "glass")]) as (nodes' & E' & D'); [vm_compute; reflexivity|].
  exists nodes, nodes'. destruct glazed_printable as (P1 & P2). split; [eexists; split; [reflexivity|apply printed_encodes, P1]|]. split; [eexists; split; [reflexivity|apply printed_encodes, P2]|].
  split; [apply printed_document, P1|]. split; [apply printed_document, P2|]. split; [|split; [exact swapped_carries|exact (conj E (conj D (conj E' D')))]].
  unfold source_doc, pavilion. cbn [map item_doc]. constructor; [|constructor; [|constructor]]; (split; [reflexivity|]); cbn [doc_brushes]; constructor; [|constructor]. apply swapped_lines. auto.
Qed.
