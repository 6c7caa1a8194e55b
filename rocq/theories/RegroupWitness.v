(** The porch with another number for its group, to try C141 on. *)
From Verif Require Import Prelude F32 Text MapModel GeoModel LayerModel GameDataModel SceneModel RunModel Witness SceneWitness
  GatherSpec GeoSpec TextSpec GameDataSpec MapSpec Utf8Spec TreeSpec PropertySpec RunSpec InvarianceSpec PlaceSpec RegroupSpec
  BaseProofs PlaneProofs MapProofs TextProofs RunProofs PrintProofs RegroupProofs PropertyWitness GeoWitness RunWitness ActorWitness.

Definition lamp_in (g : str) : list map_item :=
  [MProp (lit "classname") (lit "lamp"); MProp (lit "power") (lit "2"); MProp (lit "range") (lit "far"); MProp (lit "_tb_group") g; MProp (lit "bits") (lit "6"); MProp (lit "power") (lit "+7"); MProp (lit "hue") (lit "1")].
Definition porch_with (g i : str) : map_source :=
  [ lamp_in g; [MProp (lit "classname") (lit "door"); MProp (lit "_tb_id") i]; [MProp (lit "classname") (lit "worldspawn"); MBrush (crate standard_uv)] ].
Definition porch_config_with (g i : str) : config := Config (Contents (map_bytes (polar true) (porch_with g i))) textures (Blacklist [] []) lamp_fd yard_gd.
Lemma porch_with_printable : forall g i, printable_item (polar true) (MProp (lit "_tb_group") g) -> printable_item (polar true) (MProp (lit "_tb_id") i) -> printable (polar true) (porch_with g i).
Proof.
  intros g i Hg Hi e x He Hx. cbn [porch_with lamp_in In] in He. repeat (destruct He as [<-|He]; [cbn [In lamp_in] in Hx; repeat (destruct Hx as [<-|Hx]; [|]); try contradiction|]);
    try contradiction; try assumption; try (cbn [printable_item]; split; plainly).
  apply (castle_printable [MProp (lit "classname") (lit "worldspawn"); MBrush (crate standard_uv)] (MBrush (crate standard_uv))); cbn; auto.
Qed.
Lemma porch_twelve : printable (polar true) (porch_with (lit "12") (lit "12")).
Proof. apply porch_with_printable; cbn [printable_item]; split; plainly. Qed.
Lemma porch_plus : printable (polar true) (porch_with (lit "+7") (lit "7")).
Proof. apply porch_with_printable; cbn [printable_item]; split; plainly. Qed.

Definition to_twelve (s : str) : str := if str_eqb s (lit "7") then lit "12" else s.
Lemma integer_read : forall s z, parse_i32 s = Some z -> exists z, integer_text s z.
Proof. intros s z H. exists z. now apply parse_i32_iff. Qed.

Lemma other_key : forall k, ~ internal_integer k -> str_eqb k (lit "_tb_id") = false /\ str_eqb k (lit "_tb_group") = false.
Proof. intros k H. split; [destruct (str_eqb k (lit "_tb_id")) eqn:E|destruct (str_eqb k (lit "_tb_group")) eqn:E]; try reflexivity; apply str_eqb_eq in E; destruct H; [now left|now right]. Qed.
Lemma porch_others : forall g i g' i' n k, ~ internal_integer k ->
  doc_value (nth n (source_doc (polar true) (porch_with g i)) []) k = doc_value (nth n (source_doc (polar true) (porch_with g' i')) []) k.
Proof.
  intros g i g' i' n k H. destruct (other_key k H) as (A & B). unfold source_doc, porch_with, lamp_in. cbn [map item_doc]. generalize (map (plane_line (polar true)) (crate standard_uv)). intros ls.
  destruct n as [|[|[|[|]]]]; cbn [nth doc_value]; rewrite ?A, ?B; reflexivity.
Qed.
Lemma porch_groups : forall g i k, internal_integer k -> map (fun e => doc_value e k) (source_doc (polar true) (porch_with g i)) =
  [if str_eqb k (lit "_tb_group") then Some g else None; if str_eqb k (lit "_tb_id") then Some i else None; None].
Proof. intros g i k [->| ->]; unfold porch_with, source_doc, lamp_in; cbn [map item_doc]; generalize (map (plane_line (polar true)) (crate standard_uv)); intros ls; reflexivity. Qed.
Lemma porch_brushes : forall g i g' i' n, doc_brushes (nth n (source_doc (polar true) (porch_with g i)) []) = doc_brushes (nth n (source_doc (polar true) (porch_with g' i')) []).
Proof.
  intros g i g' i' n. unfold source_doc, porch_with, lamp_in. cbn [map item_doc]. generalize (map (plane_line (polar true)) (crate standard_uv)). intros ls. destruct n as [|[|[|[|]]]]; reflexivity.
Qed.
Lemma three : forall g i, source_doc (polar true) (porch_with g i) = [nth 0 (source_doc (polar true) (porch_with g i)) []; nth 1 (source_doc (polar true) (porch_with g i)) []; nth 2 (source_doc (polar true) (porch_with g i)) []].
Proof. reflexivity. Qed.

Lemma porch_renamed : let d := source_doc (polar true) (porch_with (lit "7") (lit "7")) in Forall2 (renamed to_twelve) d (source_doc (polar true) (porch_with (lit "12") (lit "12")))
  /\ (forall s t, group_name d s -> group_name d t -> to_twelve s = to_twelve t -> s = t)
  /\ (forall s, group_name d s -> ((exists z, integer_text s z) <-> (exists z, integer_text (to_twelve s) z))).
Proof.
  cbv zeta. pose proof (porch_others (lit "7") (lit "7") (lit "12") (lit "12")) as V. pose proof (porch_groups (lit "7") (lit "7")) as G. pose proof (porch_groups (lit "12") (lit "12")) as G'.
  pose proof (porch_brushes (lit "7") (lit "7") (lit "12") (lit "12")) as B. rewrite (three (lit "7")), (three (lit "12")) in *. 
  revert V G G' B. cbn [nth map]. generalize (nth 0 (source_doc (polar true) (porch_with (lit "7") (lit "7"))) []) (nth 1 (source_doc (polar true) (porch_with (lit "7") (lit "7"))) [])
    (nth 2 (source_doc (polar true) (porch_with (lit "7") (lit "7"))) []) (nth 0 (source_doc (polar true) (porch_with (lit "12") (lit "12"))) []) (nth 1 (source_doc (polar true) (porch_with (lit "12") (lit "12"))) [])
    (nth 2 (source_doc (polar true) (porch_with (lit "12") (lit "12"))) []).
  intros a b c a' b' c' V G G' B.
  assert (U : forall s, group_name [a; b; c] s -> s = lit "7").
  { intros s (e & k & I & K & E). specialize (G k K). injection G as Ga Gb Gc. cbn [In] in I.
    destruct I as [<-|[<-|[<-|[]]]]; rewrite ?Ga, ?Gb, ?Gc in E; destruct (str_eqb k (lit "_tb_group")), (str_eqb k (lit "_tb_id")); congruence. }
  split; [|split].
  - repeat apply Forall2_cons; [| | |constructor].
    + split; [exact (B 0)|]. split; [exact (V 0)|]. intros k K. specialize (G k K). specialize (G' k K). injection G as Ga Gb Gc. injection G' as Ga' Gb' Gc'. rewrite Ga, Ga'. destruct (str_eqb k (lit "_tb_group")); reflexivity.
    + split; [exact (B 1)|]. split; [exact (V 1)|]. intros k K. specialize (G k K). specialize (G' k K). injection G as Ga Gb Gc. injection G' as Ga' Gb' Gc'. rewrite Gb, Gb'. destruct (str_eqb k (lit "_tb_id")); reflexivity.
    + split; [exact (B 2)|]. split; [exact (V 2)|]. intros k K. specialize (G k K). specialize (G' k K). injection G as Ga Gb Gc. injection G' as Ga' Gb' Gc'. rewrite Gc, Gc'. reflexivity.
  - intros s t Hs Ht _. now rewrite (U s Hs), (U t Ht).
  - intros s Hs. rewrite (U s Hs). split; intros _; [apply (integer_read _ 12)|apply (integer_read _ 7)]; reflexivity.
Qed.

Definition lamp_group (nodes : list (node f32)) : option (option (property f32)) :=
  match nodes with
  | [_; door] => match children door with [NActor _ lamp _] => Some (hget (a_properties lamp) (lit "_tb_group")) | _ => None end
  | _ => None
  end.
Definition door_children (nodes : list (node f32)) : option nat := match nodes with [_; door] => Some (length (children door)) | _ => None end.

Theorem porch_regrouped : exists c c' text text' d d' nodes nodes', same_but_map c c' /\ file_text (cf_map c) text /\ file_text (cf_map c') text'
  /\ text_document (polar true) text d /\ text_document (polar true) text' d' /\ Forall2 (renamed to_twelve) d d'
  /\ (forall s t, group_name d s -> group_name d t -> to_twelve s = to_twelve t -> s = t)
  /\ (forall s, group_name d s -> ((exists z, integer_text s z) <-> (exists z, integer_text (to_twelve s) z)))
  /\ run (polar true) given 4 c = Ok nodes /\ lamp_group nodes = Some (Some (PrInteger 7))
  /\ run (polar true) given 4 c' = Ok nodes' /\ lamp_group nodes' = Some (Some (PrInteger 12)).
Proof.
  exists porch_config, (porch_config_with (lit "12") (lit "12")), (map_text (polar true) porch), (map_text (polar true) (porch_with (lit "12") (lit "12"))),
    (source_doc (polar true) porch), (source_doc (polar true) (porch_with (lit "12") (lit "12"))).
  destruct (shown _ _ lamp_group (run (polar true) given 4 porch_config) (Some (Some (PrInteger 7)))) as (nodes & E & L); [vm_compute; reflexivity|].
  destruct (shown _ _ lamp_group (run (polar true) given 4 (porch_config_with (lit "12") (lit "12"))) (Some (Some (PrInteger 12)))) as (nodes' & E' & L'); [vm_compute; reflexivity|].
  exists nodes, nodes'. split; [exact (conj eq_refl (conj eq_refl (conj eq_refl eq_refl)))|].
  split; [eexists; split; [reflexivity|apply printed_encodes, porch_printable]|]. split; [eexists; split; [reflexivity|apply printed_encodes, porch_twelve]|].
  split; [apply printed_document, porch_printable|]. split; [apply printed_document, porch_twelve|].
  destruct porch_renamed as (A & B & C). exact (conj A (conj B (conj C (conj E (conj L (conj E' L')))))).
Qed.

Lemma porch_same_numbers : let d := source_doc (polar true) (porch_with (lit "7") (lit "7")) in let d' := source_doc (polar true) (porch_with (lit "+7") (lit "7")) in Forall2 renumbered d d'
  /\ Forall2 (fun e e' => forall k s, internal_integer k -> doc_value e k = Some s -> exists s' z, doc_value e' k = Some s' /\ integer_text s z /\ integer_text s' z) d d'.
Proof.
  cbv zeta.
  assert (Seven : integer_text (lit "7") 7) by (apply parse_i32_iff; reflexivity). assert (Plus : integer_text (lit "+7") 7) by (apply parse_i32_iff; reflexivity).
  pose proof (porch_others (lit "7") (lit "7") (lit "+7") (lit "7")) as V. pose proof (porch_groups (lit "7") (lit "7")) as G. pose proof (porch_groups (lit "+7") (lit "7")) as G'.
  pose proof (porch_brushes (lit "7") (lit "7") (lit "+7") (lit "7")) as B. rewrite (three (lit "7")), (three (lit "+7")) in *.
  revert V G G' B. cbn [nth map]. generalize (nth 0 (source_doc (polar true) (porch_with (lit "7") (lit "7"))) []) (nth 1 (source_doc (polar true) (porch_with (lit "7") (lit "7"))) [])
    (nth 2 (source_doc (polar true) (porch_with (lit "7") (lit "7"))) []) (nth 0 (source_doc (polar true) (porch_with (lit "+7") (lit "7"))) []) (nth 1 (source_doc (polar true) (porch_with (lit "+7") (lit "7"))) [])
    (nth 2 (source_doc (polar true) (porch_with (lit "+7") (lit "7"))) []).
  intros a b x a' b' x' V G G' B. split.
  - repeat apply Forall2_cons; [| | |constructor]; (split; [first [exact (B 0)|exact (B 1)|exact (B 2)]|]; split; [first [exact (V 0)|exact (V 1)|exact (V 2)]|]);
      intros k K; specialize (G k K); specialize (G' k K); injection G as Ga Gb Gc; injection G' as Ga' Gb' Gc'; rewrite ?Ga, ?Gb, ?Gc, ?Ga', ?Gb', ?Gc'; destruct (str_eqb k (lit "_tb_group")), (str_eqb k (lit "_tb_id"));
      (split; [split; congruence|]); intros s s' Es Es'; try discriminate; injection Es as <-; injection Es' as <-; split; eauto.
  - repeat apply Forall2_cons; [| | |constructor]; intros k s K Es; specialize (G k K); specialize (G' k K); injection G as Ga Gb Gc; injection G' as Ga' Gb' Gc';
      rewrite ?Ga, ?Gb, ?Gc in Es; rewrite ?Ga', ?Gb', ?Gc'; destruct (str_eqb k (lit "_tb_group")), (str_eqb k (lit "_tb_id")); try discriminate; injection Es as <-; eauto.
Qed.

(** A group written as the same number in another way is another group. *)
Theorem porch_signed : exists c c' text text' d d' nodes nodes', same_but_map c c' /\ file_text (cf_map c) text /\ file_text (cf_map c') text'
  /\ text_document (polar true) text d /\ text_document (polar true) text' d' /\ Forall2 renumbered d d'
  /\ Forall2 (fun e e' => forall k s, internal_integer k -> doc_value e k = Some s -> exists s' z, doc_value e' k = Some s' /\ integer_text s z /\ integer_text s' z) d d'
  /\ run (polar true) given 4 c = Ok nodes /\ run (polar true) given 4 c' = Ok nodes' /\ ~ Forall2 relabelled nodes nodes'.
Proof.
  exists porch_config, (porch_config_with (lit "+7") (lit "7")), (map_text (polar true) porch), (map_text (polar true) (porch_with (lit "+7") (lit "7"))),
    (source_doc (polar true) porch), (source_doc (polar true) (porch_with (lit "+7") (lit "7"))).
  destruct (shown _ _ door_children (run (polar true) given 4 porch_config) (Some 1)) as (nodes & E & L); [vm_compute; reflexivity|].
  destruct (shown _ _ door_children (run (polar true) given 4 (porch_config_with (lit "+7") (lit "7"))) (Some 0)) as (nodes' & E' & L'); [vm_compute; reflexivity|].
  exists nodes, nodes'. split; [exact (conj eq_refl (conj eq_refl (conj eq_refl eq_refl)))|].
  split; [eexists; split; [reflexivity|apply printed_encodes, porch_printable]|]. split; [eexists; split; [reflexivity|apply printed_encodes, porch_plus]|].
  split; [apply printed_document, porch_printable|]. split; [apply printed_document, porch_plus|].
  destruct porch_same_numbers as (A & B). split; [exact A|]. split; [exact B|]. split; [exact E|]. split; [exact E'|].
  intros F. clear - F L L'. destruct nodes as [|w [|dr [|]]]; try discriminate. destruct nodes' as [|w' [|dr' [|]]]; try discriminate. cbn [door_children] in L, L'. injection L as L. injection L' as L'.
  inversion F as [|? ? ? ? _ F2]; subst. inversion F2 as [|? ? ? ? H _]; subst. destruct H as [o v|o k|o a1 a2 ch ch' _ _ _ _ _ _ Fc]; cbn [children] in *; [cbn in L; discriminate L|cbn in L; discriminate L|].
  apply Forall2_length in Fc. congruence.
Qed.
