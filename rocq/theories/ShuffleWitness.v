(** A large brush and two small ones, to try C117 on. *)
From Coq Require Import Reals Permutation SpecFloat.
From Verif Require Import Prelude F32 Text MapModel GeoModel LayerModel GameDataModel SceneModel RunModel Witness SceneWitness
  GatherSpec SurfaceSpec MapSpec Utf8Spec RunSpec InvarianceSpec TreeSpec PointsSpec RealSpec ErrorSpec IdleSpec ShuffleSpec
  BaseProofs PlaneProofs MapProofs RunProofs PrintProofs RealProofs GeoWitness RunWitness ErrorWitness TriangleWitness IdleWitness.

Definition hall : list (brush_plane f32) := box_planes 0 0 0 16777216 16777216 16777216 8 8 standard_uv.
Definition brick : list (brush_plane f32) := box_planes 0 0 0 1 1 1 1 1 standard_uv.
Definition piled (o : bool) (l : list (list (brush_plane f32))) : map_source :=
  [ MProp (lit "classname") (lit "worldspawn") :: (if o then [MProp (lit "origin") (lit "0 0 0")] else []) ++ map MBrush l ].
Definition piled_config (m : map_source) : config := Config (Contents (map_bytes (polar true) m)) textures (Blacklist [] []) no_fd yard_gd.
Definition places (ns : list (node f32)) : list f32 := flat_map (fun n => match n with NActor o _ _ => [vx o] | _ => [] end) ns.

Lemma pile_exact : forall pl, In pl (hall ++ brick) -> exact_plane (polar true) pl /\ word (bp_texture pl) /\ Forall scalar (bp_texture pl) /\ to_lowercase (polar true) (bp_texture pl) = bp_texture pl.
Proof.
  intros pl H. unfold hall, brick, box_planes in H. cbn [app In] in H.
  repeat (destruct H as [<-|H]; [split; [vm_compute; repeat split; intros; discriminate|split; [split; [discriminate|reflexivity]|split; [
    repeat (apply Forall_cons; [unfold scalar; vm_compute; intuition discriminate|]); apply Forall_nil|reflexivity]]]|]). destruct H.
Qed.
Lemma piled_printable : forall o l, (forall b, In b l -> b = hall \/ b = brick) -> printable (polar true) (piled o l).
Proof.
  intros o l H e i He Hi. cbn [piled In] in He. destruct He as [<-|[]]. destruct Hi as [<-|Hi]; [split; plainly|]. apply in_app_or in Hi. destruct Hi as [Hi|Hi].
  - destruct o; [|destruct Hi]. destruct Hi as [<-|[]]. split; plainly.
  - apply in_map_iff in Hi. destruct Hi as (b & <- & Hb). cbn [printable_item]. intros pl Hp. destruct (pile_exact pl) as (A & B & C & _); [|auto].
    apply in_or_app. destruct (H b Hb) as [-> | ->]; auto.
Qed.
Definition upwards := [hall; brick; brick].
Definition downwards := [brick; brick; hall].
Lemma pile_moved : Permutation upwards downwards.
Proof. unfold upwards, downwards. apply (Permutation_cons_append [brick; brick] hall). Qed.
Lemma piles_differ : map (map (plane_line (polar true))) upwards <> map (map (plane_line (polar true))) downwards.
Proof. intros X. apply (f_equal (fun l => match l with b :: _ => length (concat b) | [] => O end)) in X. vm_compute in X. discriminate X. Qed.
Lemma brushes_piled : forall p o l, map doc_brushes (source_doc p (piled o l)) = [map (map (plane_line p)) l].
Proof.
  intros p o l. unfold source_doc, piled. cbn [map item_doc doc_brushes]. f_equal. rewrite map_app.
  assert (X : forall r, doc_brushes (map (item_doc p) (map MBrush r)) = map (map (plane_line p)) r) by (intros r; induction r as [|b r IH]; cbn [map item_doc doc_brushes]; [reflexivity|now rewrite IH]).
  destruct o; cbn [map app item_doc doc_brushes]; apply X.
Qed.
Lemma value_piled : forall p o l l' d d', source_doc p (piled o l) = [d] -> source_doc p (piled o l') = [d'] -> forall k, doc_value d k = doc_value d' k.
Proof.
  intros p o l l' d d' E E' k. assert (X : forall r, doc_value (map (item_doc p) (map MBrush r)) k = None) by (intros r; induction r as [|b r IH]; [reflexivity|exact IH]).
  unfold source_doc, piled in E, E'. cbn [map] in E, E'. injection E as <-. injection E' as <-. cbn [item_doc]. rewrite !map_app. destruct o; cbn [map app item_doc doc_value]; rewrite !X; reflexivity.
Qed.
Lemma origin_piled : forall p l d, source_doc p (piled true l) = [d] -> doc_value d (lit "origin") <> None.
Proof.
  intros p l d E. assert (X : forall r, doc_value (map (item_doc p) (map MBrush r)) (lit "origin") = None) by (intros r; induction r as [|b r IH]; [reflexivity|exact IH]).
  unfold source_doc, piled in E. cbn [map] in E. injection E as <-. cbn [item_doc map app doc_value]. rewrite X. discriminate.
Qed.

(** The same brushes in two orders, with an origin or without one. *)
Theorem piles : forall o, let P := polar true in let m := piled o upwards in let m' := piled o downwards in let c := piled_config m in let c' := piled_config m' in
  exists text text' d d' nodes nodes', same_but_map c c' /\ file_text (cf_map c) text /\ file_text (cf_map c') text'
  /\ text_document P text d /\ text_document P text' d' /\ Forall2 reshuffled d d' /\ (o = true -> Forall2 anchored d d') /\ d <> d'
  /\ run P given 4 c = Ok nodes /\ run P given 4 c' = Ok nodes'
  /\ places nodes = [if o then S754_zero false else S754_finite false 11184811 (-2)] /\ places nodes' = [if o then S754_zero false else S754_finite false 11184812 (-2)].
Proof.
  intros o P m m' c c'. exists (map_text P m), (map_text P m'), (source_doc P m), (source_doc P m').
  assert (H1 : printable P m) by (apply piled_printable; intros b [<-|[<-|[<-|[]]]]; auto).
  assert (H2 : printable P m') by (apply piled_printable; intros b [<-|[<-|[<-|[]]]]; auto).
  destruct (shown _ _ places (run P given 4 c) [if o then S754_zero false else S754_finite false 11184811 (-2)]) as (nodes & R & B); [destruct o; vm_compute; reflexivity|].
  destruct (shown _ _ places (run P given 4 c') [if o then S754_zero false else S754_finite false 11184812 (-2)]) as (nodes' & R' & B'); [destruct o; vm_compute; reflexivity|].
  exists nodes, nodes'. split; [repeat split|].
  split; [eexists; split; [reflexivity|apply printed_encodes, H1]|]. split; [eexists; split; [reflexivity|apply printed_encodes, H2]|].
  split; [apply printed_document, H1|]. split; [apply printed_document, H2|].
  assert (X : exists d d', source_doc P m = [d] /\ source_doc P m' = [d'] /\ doc_brushes d = map (map (plane_line P)) upwards /\ doc_brushes d' = map (map (plane_line P)) downwards).
  { pose proof (brushes_piled P o upwards) as E. pose proof (brushes_piled P o downwards) as E'. unfold m, m'. destruct (source_doc P (piled o upwards)) as [|d [|]]; try discriminate E.
    destruct (source_doc P (piled o downwards)) as [|d' [|]]; try discriminate E'. injection E as E. injection E' as E'. exists d, d'. auto. }
  destruct X as (d & d' & E & E' & F & F'). rewrite E, E'.
  split. { constructor; [|constructor]. split; [exact (value_piled P o upwards downwards d d' E E')|]. rewrite F, F'. apply Permutation_map, pile_moved. }
  split. { intros ->. constructor; [|constructor]. right. exact (origin_piled P upwards d E). }
  split; [|exact (conj R (conj R' (conj B B')))].
  intros X. injection X as <-. rewrite F in F'. exact (piles_differ F').
Qed.


(** Two brushes in exact arithmetic. *)
Theorem exact_pile : forall parse cosine radians atan2 quat mat2, let O := real_num parse cosine radians atan2 quat mat2 in
  let b := [map plane_of box6; map plane_of box7] in let b' := [map plane_of box7; map plane_of box6] in
  Permutation b b' /\ b <> b' /\ exists g, build_entity_geo O textures (Entity [] b) = Ok g.
Proof.
  intros parse cosine radians atan2 quat mat2 O b b'. destruct (exact_padded parse cosine radians atan2 quat mat2 (Entity [] b)) as (_ & g & g' & E & E').
  split; [apply perm_swap|]. split; [intros X; apply (f_equal (fun l => match l with q :: _ => length q | [] => 0 end)) in X; discriminate X|].
  unfold build_entity_geo. cbn [e_brushes]. unfold b at 2. cbn [mapM]. fold O in E, E'. rewrite E. cbn [bind]. rewrite E'. cbn [bind]. eexists. reflexivity.
Qed.
