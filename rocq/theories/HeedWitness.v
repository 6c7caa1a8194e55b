(** The porch with remarks no one reads, to try C143 on. *)
From Verif Require Import Prelude F32 Text MapModel GeoModel LayerModel GameDataModel SceneModel RunModel Witness SceneWitness
  GatherSpec GeoSpec TextSpec GameDataSpec MapSpec Utf8Spec TreeSpec PropertySpec RunSpec InvarianceSpec ActorSpec HeedSpec
  BaseProofs PlaneProofs MapProofs TextProofs RunProofs PrintProofs InvarianceProofs PropertyWitness GeoWitness RunWitness ActorWitness HeedProofs.

Definition chatty : map_source :=
  [ [MProp (lit "classname") (lit "lamp"); MProp (lit "_phong") (lit "1"); MProp (lit "range") (lit "far"); MProp (lit "_tb_group") (lit "7"); MProp (lit "bits") (lit "6"); MProp (lit "power") (lit "+7"); MProp (lit "hue") (lit "9")];
    [MProp (lit "classname") (lit "door"); MProp (lit "_tb_id") (lit "7"); MProp (lit "power") (lit "3")];
    [MProp (lit "classname") (lit "worldspawn"); MProp (lit "_phong_angle") (lit "30"); MProp (lit "_tb_name") (lit "yard"); MBrush (crate standard_uv)] ].
Definition chatty_config : config := Config (Contents (map_bytes (polar true) chatty)) textures (Blacklist [] []) lamp_fd yard_gd.
Lemma chatty_printable : printable (polar true) chatty.
Proof.
  intros e i He Hi. cbn [chatty In] in He. repeat (destruct He as [<-|He]; [cbn [In] in Hi; repeat (destruct Hi as [<-|Hi]; [|]); try contradiction; cbn [printable_item]|]);
    try contradiction; try (split; plainly).
  apply (castle_printable [MProp (lit "classname") (lit "worldspawn"); MBrush (crate standard_uv)] (MBrush (crate standard_uv))); cbn; auto.
Qed.
Lemma porch_planes : forall e l, In e (source_doc (polar true) porch) -> In l (doc_planes e) -> plane_readable (polar true) l.
Proof.
  intros e l He Hl. unfold source_doc, porch in He. cbn [map item_doc In] in He. destruct He as [<-|[<-|[<-|[]]]]; try (vm_compute in Hl; contradiction).
  assert (W : In [MProp (lit "classname") (lit "worldspawn"); MBrush (crate standard_uv)] castle) by (cbn; auto).
  pose proof (in_map (map (item_doc (polar true))) castle _ W) as J.
  exact (proj1 (printed_sound (polar true) castle castle_printable castle_normals _ l J Hl)).
Qed.

Lemma declared_lamp : forall e fe, class_declaration lamp_fd e fe -> exists c, doc_class e = Some c /\ fe_name fe = c /\ In fe (fd_definitions lamp_fd).
Proof. intros e fe (c & C & l1 & l2 & E & N & _). exists c. split; [exact C|]. split; [exact N|]. rewrite E. apply in_or_app. right. now left. Qed.

Lemma chatty_heard : Forall2 (heard_alike lamp_fd) (source_doc (polar true) porch) (source_doc (polar true) chatty).
Proof.
  unfold source_doc, porch, chatty. cbn [map item_doc]. generalize (map (plane_line (polar true)) (crate standard_uv)). intros ls.
  repeat apply Forall2_cons; [| | |constructor]; (split; [reflexivity|]); intros k H;
    (destruct H as [| | | |B|B Sm|fe k D I|fe fp D I]; try reflexivity; try (exfalso; apply B; reflexivity); try discriminate Sm).
  all: apply declared_lamp in D; destruct D as (c & C & N & D); injection C as <-; cbn [fd_definitions lamp_fd In] in D; repeat (destruct D as [<-|D]; [try discriminate N|]); try contradiction.
  all: try (destruct I as [->| ->]; reflexivity).
  all: cbn in I; repeat (destruct I as [<-|I]; [reflexivity|]); contradiction.
Qed.

Theorem porch_chatty : exists text text' d d' nodes, same_but_map porch_config chatty_config /\ file_text (cf_map porch_config) text /\ file_text (cf_map chatty_config) text'
  /\ text_document (polar true) text d /\ text_document (polar true) text' d' /\ (forall e l, In e d -> In l (doc_planes e) -> plane_readable (polar true) l)
  /\ Forall2 (heard_alike lamp_fd) d d' /\ ~ Forall2 doc_alike d d' /\ run (polar true) given 4 porch_config = Ok nodes.
Proof.
  exists (map_text (polar true) porch), (map_text (polar true) chatty), (source_doc (polar true) porch), (source_doc (polar true) chatty).
  destruct (shown _ _ (fun _ => true) (run (polar true) given 4 porch_config) true) as (nodes & E & _); [vm_compute; reflexivity|]. exists nodes.
  split; [exact (conj eq_refl (conj eq_refl (conj eq_refl eq_refl)))|].
  split; [eexists; split; [reflexivity|apply printed_encodes, porch_printable]|]. split; [eexists; split; [reflexivity|apply printed_encodes, chatty_printable]|].
  split; [apply printed_document, porch_printable|]. split; [apply printed_document, chatty_printable|]. split; [exact porch_planes|]. split; [exact chatty_heard|]. split; [|exact E].
  intros F. inversion F as [|? ? ? ? (_ & V) _]. specialize (V (lit "hue")). vm_compute in V. discriminate.
Qed.

(** Each kind of key that is heeded does matter: what a lamp is told to be, against the same words for something no declaration knows. *)
Definition shout (k v : str) : map_source := [ [MProp (lit "classname") (lit "lamp"); MProp k v]; [MProp (lit "classname") (lit "worldspawn"); MBrush (crate standard_uv)] ].
Definition shout_config (k v : str) : config := Config (Contents (map_bytes (polar true) (shout k v))) textures (Blacklist [] []) lamp_fd yard_gd.
Theorem shouts_matter : forall k v, In (k, v) [(lit "classname", lit "door"); (lit "origin", lit "1 2 3"); (lit "_tb_id", lit "4"); (lit "_tb_group", lit "4"); (lit "_tb_type", lit "x"); (lit "power", lit "9")] ->
  run (polar true) given 4 (shout_config k v) <> run (polar true) given 4 (shout_config (lit "remark") v).
Proof. intros k v I. cbn [In] in I. repeat (destruct I as [E|I]; [injection E as <- <-; intros X; vm_compute in X; discriminate X|]). contradiction. Qed.
