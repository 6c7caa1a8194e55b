(** A lamp on a door, to try C111 on. *)
From Coq Require Import Permutation.
From Verif Require Import Prelude F32 Text MapModel GeoModel LayerModel GameDataModel SceneModel RunModel Witness SceneWitness
  GeoSpec GameDataSpec MapSpec Utf8Spec TreeSpec PropertySpec RunSpec PlaceSpec ActorSpec
  BaseProofs PlaneProofs MapProofs TextProofs RunProofs PrintProofs PropertyWitness GeoWitness RunWitness.

Definition porch : map_source :=
  [ [MProp (lit "classname") (lit "lamp"); MProp (lit "power") (lit "2"); MProp (lit "range") (lit "far"); MProp (lit "_tb_group") (lit "7"); MProp (lit "bits") (lit "6"); MProp (lit "power") (lit "+7"); MProp (lit "hue") (lit "1")];
    [MProp (lit "classname") (lit "door"); MProp (lit "_tb_id") (lit "7")];
    [MProp (lit "classname") (lit "worldspawn"); MBrush (crate standard_uv)] ].
Definition porch_config : config := Config (Contents (map_bytes (polar true) porch)) textures (Blacklist [] []) lamp_fd yard_gd.
Definition porch_lamp : doc_entity := nth 0 (source_doc (polar true) porch) [].

Lemma porch_printable : printable (polar true) porch.
Proof.
  intros e i He Hi. cbn [porch In] in He. repeat (destruct He as [<-|He]; [cbn [In] in Hi; repeat (destruct Hi as [<-|Hi]; [|]); try contradiction; cbn [printable_item]|]);
    try contradiction; try (split; plainly).
  apply (castle_printable [MProp (lit "classname") (lit "worldspawn"); MBrush (crate standard_uv)] (MBrush (crate standard_uv))); cbn; auto.
Qed.

Theorem porch_built : let d := source_doc (polar true) porch in exists text world door o lamp ch, file_text (cf_map porch_config) text /\ text_document (polar true) text d
  /\ run (polar true) given 4 porch_config = Ok [world; door] /\ In (NActor o lamp ch) (children door) /\ In porch_lamp d
  /\ class_declaration lamp_fd porch_lamp lamp_class /\ a_name lamp = lit "lamp"
  /\ hget (a_properties lamp) (lit "power") = Some (PrInteger 7) /\ hget (a_properties lamp) (lit "range") = Some (PrFloat f2)
  /\ hget (a_properties lamp) (lit "bits") = Some (PrChoices 6) /\ hget (a_properties lamp) (lit "hue") = None
  /\ hget (a_properties lamp) (lit "_tb_group") = Some (PrInteger 7).
Proof.
  cbv zeta. set (P := polar true) in *. exists (map_text P porch).
  assert (E : exists world door o lamp ch, run P given 4 porch_config = Ok [world; door] /\ In (NActor o lamp ch) (children door) /\ a_name lamp = lit "lamp"
    /\ hget (a_properties lamp) (lit "power") = Some (PrInteger 7) /\ hget (a_properties lamp) (lit "range") = Some (PrFloat f2)
    /\ hget (a_properties lamp) (lit "bits") = Some (PrChoices 6) /\ hget (a_properties lamp) (lit "hue") = None
    /\ hget (a_properties lamp) (lit "_tb_group") = Some (PrInteger 7)).
  { assert (C : match run P given 4 porch_config with
      | Ok [world; door] => match children door with
        | NActor o lamp ch :: _ => a_name lamp = lit "lamp"
            /\ hget (a_properties lamp) (lit "power") = Some (PrInteger 7) /\ hget (a_properties lamp) (lit "range") = Some (PrFloat f2)
            /\ hget (a_properties lamp) (lit "bits") = Some (PrChoices 6) /\ hget (a_properties lamp) (lit "hue") = None
            /\ hget (a_properties lamp) (lit "_tb_group") = Some (PrInteger 7)
        | _ => False end
      | _ => False end) by (vm_compute; repeat split).
    destruct (run P given 4 porch_config) as [[|world [|door [|]]]| | |] eqn:E; try contradiction. destruct (children door) as [|[o lamp ch| |] l] eqn:D; try contradiction.
    exists world, door, o, lamp, ch. split; [reflexivity|]. split; [rewrite D; left; reflexivity|exact C]. }
  destruct E as (world & door & o & lamp & ch & E1 & E2 & E3 & E4). exists world, door, o, lamp, ch.
  split; [eexists; split; [reflexivity|apply printed_encodes, porch_printable]|]. split; [apply printed_document, porch_printable|]. split; [exact E1|]. split; [exact E2|].
  split; [left; reflexivity|]. split; [|auto]. exists (lit "lamp"). split; [reflexivity|].
  exists [ForgeEntity PointClass [] (lit "door") [] []], [ForgeEntity SolidClass [] (lit "lamp") [] []].
  split; [reflexivity|]. split; [reflexivity|]. intros y [<-|[]]. discriminate.
Qed.
