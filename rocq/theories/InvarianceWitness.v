(** Variants of a map and its configuration (C76 to C79). *)
From Coq Require Import SpecFloat Permutation.
From Verif Require Import Prelude F32 Text MapModel GeoModel LayerModel GameDataModel SceneModel RunModel
  Witness GatherSpec GeoSpec LayerSpec SurfaceSpec TreeSpec GameDataSpec PropertySpec SceneWitness GeoWitness MapSpec Utf8Spec RunSpec
  InvarianceSpec BaseProofs TokenProofs RunProofs PrintProofs RunWitness InvarianceProofs.

Local Notation P := (polar true).

(** With a comment, an empty line and other line ends. *)
Definition noted_text : str := lit "// note" ++ [13; 10; 10]%N ++ flat_map (fun l => l ++ [13; 10]%N) (map_lines P castle).
Definition noted_config : config := Config (Contents noted_text) textures (Blacklist [] []) no_fd yard_gd.
Lemma noted_lines : exists text text' ls ls', same_but_map castle_config noted_config
  /\ file_text (cf_map castle_config) text /\ file_text (cf_map noted_config) text'
  /\ lines_spec (p_keep_bare_cr P) text ls /\ lines_spec (p_keep_bare_cr P) text' ls' /\ length ls = 22 /\ length ls' = 24
  /\ filter (fun l => negb (inert_line l)) ls = filter (fun l => negb (inert_line l)) ls'.
Proof.
  exists (map_text P castle), noted_text, (str_lines (p_keep_bare_cr P) (map_text P castle)), (str_lines (p_keep_bare_cr P) noted_text).
  split; [exact (conj eq_refl (conj eq_refl (conj eq_refl eq_refl)))|].
  split; [apply read_ok; vm_compute; reflexivity|]. split; [apply read_ok; vm_compute; reflexivity|].
  split; [now apply lines_spec_iff|]. split; [now apply lines_spec_iff|].
  split; [vm_compute; reflexivity|]. split; vm_compute; reflexivity.
Qed.

(** With more in the configuration. *)
Definition unused_def : entity_def f32 := EntityDef (lit "unused") (DPoint (PointData EPlaceholder CompNone AProperties [])).
Definition larger_config : config := Config (cf_map castle_config) ((lit "unused", (8, 8)%N) :: textures) (Blacklist [lit "unused"] [lit "unused"])
  (ForgeData [] [] [ForgeEntity PointClass [] (lit "unused") [] []])
  (GameData (unused_def :: gd_entities yard_gd) (WorldspawnLayer (lit "x") (lit "unused") EPlaceholder CompNone VNone CNone :: gd_layers yard_gd)).

Lemma first_skip : forall A (P : A -> Prop) x l y, ~ P x -> first_with P (x :: l) y <-> first_with P l y.
Proof.
  intros A P x l y N. split.
  - intros ([|a l1] & l2 & E & Py & F); cbn in E; injection E as -> E; [contradiction|]. exists l1, l2. repeat split; auto. intros; apply F; now right.
  - intros (l1 & l2 & -> & Py & F). exists (x :: l1), l2. repeat split; auto. intros z [<-|I]; auto.
Qed.
Lemma only_skip : forall A (P : A -> Prop) x l y, ~ P x -> only_one P (x :: l) y <-> only_one P l y.
Proof.
  intros A P x l y N. split.
  - intros ([|a l1] & l2 & E & Py & F & G); cbn in E; injection E as -> E; [contradiction|]. exists l1, l2. repeat split; auto. intros; apply F; now right.
  - intros (l1 & l2 & -> & Py & F & G). exists (x :: l1), l2. repeat split; auto. intros z [<-|I]; auto.
Qed.

Lemma larger_agrees : cf_map castle_config = cf_map larger_config
  /\ (forall text ps es, file_text (cf_map castle_config) text -> load P text = Ok (ps, es) -> agree_on es castle_config larger_config)
  /\ length (cf_textures castle_config) < length (cf_textures larger_config)
  /\ length (gd_entities (cf_game castle_config)) < length (gd_entities (cf_game larger_config))
  /\ bl_brush (cf_blacklist larger_config) = [lit "unused"].
Proof.
  split; [reflexivity|]. split; [|repeat split; vm_compute; lia].
  intros text ps es F L. apply read_ok in F.
  assert (X : (t <- read_to_string (cf_map castle_config) ;; load P t) = Ok (ps, es)) by (rewrite F; exact L). clear F L.
  assert (C : map (fun e => hget (e_props e) (lit "classname")) es = map Some [lit "lamp"; lit "worldspawn"; lit "door"; lit "handle"]
    /\ flat_map (fun e => flat_map (map bp_texture) (e_brushes e)) es = repeat (lit "brick") 6).
  { assert (K : match (t <- read_to_string (cf_map castle_config) ;; load P t) with
                | Ok (_, es) => (map (fun e => hget (e_props e) (lit "classname")) es, flat_map (fun e => flat_map (map bp_texture) (e_brushes e)) es)
                | _ => ([], []) end = (map Some [lit "lamp"; lit "worldspawn"; lit "door"; lit "handle"], repeat (lit "brick") 6)) by (vm_compute; reflexivity).
    rewrite X in K. injection K as K1 K2. split; assumption. }
  clear X. destruct C as (C & N).
  assert (Nm : forall t, named es t -> t <> lit "unused").
  { intros t (e & b & pl & Ie & Ib & Ip & <-). assert (J : In (bp_texture pl) (repeat (lit "brick") 6)); [rewrite <- N|apply repeat_spec in J; rewrite J; discriminate].
    apply in_flat_map. exists e. split; [exact Ie|]. apply in_flat_map. exists b. split; [exact Ib|]. now apply in_map. }
  assert (Cl : forall e c, In e es -> hget (e_props e) (lit "classname") = Some c -> lit "unused" <> c).
  { intros e c I E K. subst c. assert (J : In (Some (lit "unused")) (map (fun e => hget (e_props e) (lit "classname")) es)) by (rewrite <- E; apply in_map_iff; eauto).
    rewrite C in J. cbn in J. repeat destruct J as [J|J]; try discriminate. contradiction. }
  clear C N. constructor.
  - intros t Ht. apply Nm in Ht. unfold larger_config, castle_config. cbn [cf_textures hget]. destruct (str_eqb t (lit "unused")) eqn:E; [|reflexivity].
    apply str_eqb_eq in E. congruence.
  - intros t Ht. apply Nm in Ht. cbn [cf_blacklist bl_brush castle_config larger_config In]. split; [tauto|intros [K|[]]; congruence].
  - intros t Ht. apply Nm in Ht. cbn [cf_blacklist bl_plane castle_config larger_config In]. split; [tauto|intros [K|[]]; congruence].
  - intros e fe I. unfold forge_by, class_of. split; intros (c & E & K).
    + destruct K as ([|] & l2 & K & _); discriminate.
    + cbn [cf_forge larger_config fd_definitions] in K. apply first_skip in K; [|exact (Cl e c I E)].
      destruct K as ([|] & l2 & K & _); discriminate.
  - intros e d I. unfold defined_by. split; intros (c & E & K); exists c; (split; [exact E|]).
    + cbn [cf_game larger_config gd_entities]. apply first_skip; [exact (Cl e c I E)|exact K].
    + cbn [cf_game larger_config gd_entities] in K. apply first_skip in K; [exact K|exact (Cl e c I E)].
  - intros t l T. cbn [cf_game larger_config castle_config gd_layers]. symmetry. apply only_skip. destruct T as [-> | ->]; discriminate.
Qed.

(** With lines in another order, and a value given twice. *)
Definition shuffled : map_source :=
  [ [MProp (lit "classname") (lit "lamp")];
    [MBrush (crate standard_uv); MProp (lit "classname") (lit "info"); MProp (lit "classname") (lit "worldspawn")];
    [MProp (lit "_tb_id") (lit "7"); MProp (lit "classname") (lit "door")];
    [MProp (lit "_tb_group") (lit "7"); MProp (lit "classname") (lit "handle")] ].
Definition shuffled_config : config := Config (Contents (map_bytes P shuffled)) textures (Blacklist [] []) no_fd yard_gd.
Lemma shuffled_printable : printable P shuffled.
Proof.
  intros e i He Hi. simpl in He. repeat (destruct He as [<-|He]; [simpl in Hi; repeat (destruct Hi as [<-|Hi]; [|]); try contradiction; simpl|]);
    try contradiction; try (split; plainly).
  intros pl Hp. destruct (crate_exact pl Hp) as (A & B & C & _). auto.
Qed.
Lemma shuffled_alike : exists text text' d d', same_but_map castle_config shuffled_config
  /\ file_text (cf_map castle_config) text /\ file_text (cf_map shuffled_config) text'
  /\ text_document P text d /\ text_document P text' d'
  /\ (forall e l, In e d -> In l (doc_planes e) -> plane_readable P l) /\ Forall2 doc_alike d d' /\ d <> d'.
Proof.
  exists (map_text P castle), (map_text P shuffled), (source_doc P castle), (source_doc P shuffled).
  split; [exact (conj eq_refl (conj eq_refl (conj eq_refl eq_refl)))|]. split; [eexists; split; [reflexivity|apply printed_encodes, castle_printable]|].
  split; [eexists; split; [reflexivity|apply printed_encodes, shuffled_printable]|].
  split; [apply printed_document, castle_printable|]. split; [apply printed_document, shuffled_printable|].
  split; [intros e l He Hl; exact (proj1 (printed_sound P castle castle_printable castle_normals e l He Hl))|].
  unfold source_doc, castle, shuffled. cbn [map item_doc]. generalize (map (plane_line P) (crate standard_uv)). intros ls.
  split; [|discriminate].
  assert (V : forall (k a b : str), a <> b -> str_eqb k a = true -> str_eqb k b = true -> False).
  { intros k a b N E1 E2. apply str_eqb_eq in E1, E2. congruence. }
  assert (Ne : lit "classname" <> lit "_tb_id") by discriminate. assert (Ne' : lit "classname" <> lit "_tb_group") by discriminate.
  generalize dependent (lit "classname"). generalize (lit "_tb_id") (lit "_tb_group"). intros i g c Ni Ng.
  repeat apply Forall2_cons; try constructor; try reflexivity; intros k; cbn [doc_value];
    destruct (str_eqb k i) eqn:Ei, (str_eqb k g) eqn:Eg, (str_eqb k c) eqn:Ec; try reflexivity; exfalso; eauto.
Qed.
