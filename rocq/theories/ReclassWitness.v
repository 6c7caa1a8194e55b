(** The porch with lamps called doors and doors called lamps, to try C146 on. *)
From Verif Require Import Prelude F32 Text MapModel GeoModel LayerModel GameDataModel SceneModel RunModel Witness SceneWitness
  GatherSpec GeoSpec TextSpec GameDataSpec MapSpec Utf8Spec TreeSpec PropertySpec RunSpec InvarianceSpec ReclassSpec
  BaseProofs PlaneProofs MapProofs TextProofs RunProofs PrintProofs PropertyWitness GeoWitness RunWitness ActorWitness.

Definition exchange (s : str) : str := if str_eqb s (lit "lamp") then lit "door" else if str_eqb s (lit "door") then lit "lamp" else s.
Lemma exchange_twice : forall s, exchange (exchange s) = s.
Proof.
  intros s. unfold exchange. destruct (str_eqb s (lit "lamp")) eqn:A; [apply str_eqb_eq in A; now subst|]. destruct (str_eqb s (lit "door")) eqn:B; [apply str_eqb_eq in B; now subst|].
  now rewrite A, B.
Qed.
Definition swapped : map_source :=
  [ [MProp (lit "classname") (lit "door"); MProp (lit "power") (lit "2"); MProp (lit "range") (lit "far"); MProp (lit "_tb_group") (lit "7"); MProp (lit "bits") (lit "6"); MProp (lit "power") (lit "+7"); MProp (lit "hue") (lit "1")];
    [MProp (lit "classname") (lit "lamp"); MProp (lit "_tb_id") (lit "7")];
    [MProp (lit "classname") (lit "worldspawn"); MBrush (crate standard_uv)] ].
Definition swapped_fd : forge_data f32 :=
  ForgeData (lit "g") [] [ForgeEntity PointClass [] (lit "lamp") [] []; ForgeEntity PointClass [] (lit "door") (lit "A lamp") lamp_properties; ForgeEntity SolidClass [] (lit "door") [] []].
Definition swapped_gd : game_data f32 := GameData (map (fun k => EntityDef (exchange (ed_classname k)) (ed_data k)) (gd_entities yard_gd)) (gd_layers yard_gd).
Definition swapped_config : config := Config (Contents (map_bytes (polar true) swapped)) textures (Blacklist [] []) swapped_fd swapped_gd.
Lemma swapped_printable : printable (polar true) swapped.
Proof.
  intros e i He Hi. cbn [swapped In] in He. repeat (destruct He as [<-|He]; [cbn [In] in Hi; repeat (destruct Hi as [<-|Hi]; [|]); try contradiction; cbn [printable_item]|]);
    try contradiction; try (split; plainly).
  apply (castle_printable [MProp (lit "classname") (lit "worldspawn"); MBrush (crate standard_uv)] (MBrush (crate standard_uv))); cbn; auto.
Qed.
Lemma other_than_class : forall k, k <> lit "classname" -> str_eqb k (lit "classname") = false /\ str_eqb (lit "classname") k = false.
Proof. intros k H. split; [destruct (str_eqb k (lit "classname")) eqn:E|destruct (str_eqb (lit "classname") k) eqn:E]; try reflexivity; apply str_eqb_eq in E; congruence. Qed.
Lemma porch_reclassed : Forall2 (reclassed exchange) (source_doc (polar true) porch) (source_doc (polar true) swapped).
Proof.
  unfold source_doc, porch, swapped. cbn [map item_doc]. generalize (map (plane_line (polar true)) (crate standard_uv)). intros ls.
  repeat apply Forall2_cons; [| | |constructor]; (split; [reflexivity|split; [reflexivity|]]); intros k H; destruct (other_than_class k H) as (A & B); cbn [doc_value]; rewrite ?A, ?B; reflexivity.
Qed.

Definition actor_names (nodes : list (node f32)) : option (str * str * str) :=
  match nodes with
  | [NActor _ w _; NActor _ d ch] => match filter (fun n => match n with NActor _ _ _ => true | _ => false end) ch with [NActor _ l _] => Some (a_name w, a_name d, a_name l) | _ => None end
  | _ => None
  end.

Theorem porch_swapped : exists text text' d d' nodes nodes', file_text (cf_map porch_config) text /\ file_text (cf_map swapped_config) text'
  /\ text_document (polar true) text d /\ text_document (polar true) text' d' /\ renaming porch_config d exchange /\ discreet porch_config /\ reclassed_config exchange porch_config swapped_config
  /\ Forall2 (reclassed exchange) d d' /\ run (polar true) given 4 porch_config = Ok nodes /\ actor_names nodes = Some (lit "worldspawn", lit "door", lit "lamp")
  /\ run (polar true) given 4 swapped_config = Ok nodes' /\ actor_names nodes' = Some (lit "worldspawn", lit "lamp", lit "door").
Proof.
  exists (map_text (polar true) porch), (map_text (polar true) swapped), (source_doc (polar true) porch), (source_doc (polar true) swapped).
  destruct (shown _ _ actor_names (run (polar true) given 4 porch_config) (Some (lit "worldspawn", lit "door", lit "lamp"))) as (nodes & E & L); [vm_compute; reflexivity|].
  destruct (shown _ _ actor_names (run (polar true) given 4 swapped_config) (Some (lit "worldspawn", lit "lamp", lit "door"))) as (nodes' & E' & L'); [vm_compute; reflexivity|].
  exists nodes, nodes'. split; [eexists; split; [reflexivity|apply printed_encodes, porch_printable]|]. split; [eexists; split; [reflexivity|apply printed_encodes, swapped_printable]|].
  split; [apply printed_document, porch_printable|]. split; [apply printed_document, swapped_printable|].
  split; [split; [reflexivity|]; intros s t _ _ H; rewrite <- (exchange_twice s), H; apply exchange_twice|].
  split; [intros k q Ik Iq; cbn in Ik; destruct Ik as [<-|[<-|[<-|[]]]]; cbn in Iq; repeat (destruct Iq as [<-|Iq]; [discriminate|]); contradiction|].
  split; [repeat split; try reflexivity; repeat (apply Forall2_cons; [split; reflexivity|]); apply Forall2_nil|].
  split; [exact porch_reclassed|]. exact (conj E (conj L (conj E' L'))).
Qed.

(** A class that declares its own name as a property shows it. *)
Definition telling_fd (n : str) : forge_data f32 := ForgeData (lit "g") [] [ForgeEntity PointClass [] n [] [prop (lit "classname") (FString [])]].
Definition telling_config : config := Config (cf_map porch_config) textures (Blacklist [] []) (telling_fd (lit "lamp")) yard_gd.
Definition told_config : config := Config (cf_map swapped_config) textures (Blacklist [] []) (telling_fd (lit "door")) swapped_gd.
Definition lamp_told (nodes : list (node f32)) : option (option (property f32)) :=
  match nodes with
  | [w; NActor _ d ch] => match filter (fun n => match n with NActor _ _ _ => true | _ => false end) ch with [NActor _ l _] => Some (hget (a_properties l) (lit "classname")) | _ => None end
  | _ => None
  end.
Theorem porch_told : exists text text' d d' nodes nodes', file_text (cf_map telling_config) text /\ file_text (cf_map told_config) text'
  /\ text_document (polar true) text d /\ text_document (polar true) text' d' /\ renaming telling_config d exchange /\ reclassed_config exchange telling_config told_config
  /\ Forall2 (reclassed exchange) d d' /\ run (polar true) given 4 telling_config = Ok nodes /\ lamp_told nodes = Some (Some (PrString (lit "lamp")))
  /\ run (polar true) given 4 told_config = Ok nodes' /\ lamp_told nodes' = Some (Some (PrString (lit "door"))).
Proof.
  exists (map_text (polar true) porch), (map_text (polar true) swapped), (source_doc (polar true) porch), (source_doc (polar true) swapped).
  destruct (shown _ _ lamp_told (run (polar true) given 4 telling_config) (Some (Some (PrString (lit "lamp"))))) as (nodes & E & L); [vm_compute; reflexivity|].
  destruct (shown _ _ lamp_told (run (polar true) given 4 told_config) (Some (Some (PrString (lit "door"))))) as (nodes' & E' & L'); [vm_compute; reflexivity|].
  exists nodes, nodes'. split; [eexists; split; [reflexivity|apply printed_encodes, porch_printable]|]. split; [eexists; split; [reflexivity|apply printed_encodes, swapped_printable]|].
  split; [apply printed_document, porch_printable|]. split; [apply printed_document, swapped_printable|].
  split; [split; [reflexivity|]; intros s t _ _ H; rewrite <- (exchange_twice s), H; apply exchange_twice|].
  split; [repeat split; try reflexivity; repeat (apply Forall2_cons; [split; reflexivity|]); apply Forall2_nil|].
  split; [exact porch_reclassed|]. exact (conj E (conj L (conj E' L'))).
Qed.
