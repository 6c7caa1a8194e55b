(** Concrete definitions and entities for C36, C37, C53, C54, C62, and the refutations. *)
From Coq Require Import SpecFloat.
From Verif Require Import Prelude F32 Text MapModel GeoModel GameDataModel SceneModel GameDataSpec TreeSpec PropertySpec
  BaseProofs NodeProofs PropertyProofs DefaultProofs.

Definition prop (k : str) (d : property_data f32) : forge_property f32 := ForgeProperty k (lit "short") (lit "long") d.
Definition f2 : f32 := dec_to_f32 false 25 (-1).
Definition lamp_properties : list (forge_property f32) :=
  [ prop (lit "power") (FInteger 3);
    prop (lit "_tb_name") (FString (lit "none"));
    prop (lit "range") (FFloat f2);
    prop (lit "power") (FInteger 5);
    prop (lit "aim") (FVector3 (V3 f32_zero f32_one f2));
    prop (lit "tint") (FColor (Color f32_one f32_one f32_one));
    prop (lit "shade") (FColor (Color f32_zero f32_zero f32_zero));
    prop (lit "mode") (FChoices [Choice (lit "a") (ChInteger 10); Choice (lit "b") (ChInteger 1)] 0);
    prop (lit "level") (FChoices [Choice (lit "a") (ChInteger 10); Choice (lit "b") (ChInteger 1)] 1);
    prop (lit "bits") (FFlags [lit "on"; lit "hot"; lit "loud"] 5) ].
Definition lamp_class : forge_entity f32 := ForgeEntity PointClass [] (lit "lamp") (lit "A lamp") lamp_properties.
Definition lamp_fd : forge_data f32 :=
  ForgeData (lit "g") [] [ForgeEntity PointClass [] (lit "door") [] []; lamp_class; ForgeEntity SolidClass [] (lit "lamp") [] []].
Definition lamp_with (kv : list (str * str)) : entity f32 := Entity ((lit "classname", lit "lamp") :: kv) [].

Lemma lamp_by : forall kv, forge_by lamp_fd (lamp_with kv) lamp_class.
Proof.
  intros kv. exists (lit "lamp"). split; [reflexivity|].
  exists [ForgeEntity PointClass [] (lit "door") [] []], [ForgeEntity SolidClass [] (lit "lamp") [] []].
  split; [reflexivity|]. split; [reflexivity|]. intros y [<-|[]]. discriminate.
Qed.

Ltac last_at n := exists (firstn n lamp_properties), (skipn (S n) lamp_properties); split; [reflexivity|]; split; [reflexivity|];
  cbn [skipn lamp_properties In]; intros y Hy; repeat (destruct Hy as [<-|Hy]; [discriminate|]); destruct Hy.

Lemma lamp_power : last_named (lit "power") lamp_properties (prop (lit "power") (FInteger 5)).
Proof. last_at 3. Qed.
Lemma lamp_aim : last_named (lit "aim") lamp_properties (prop (lit "aim") (FVector3 (V3 f32_zero f32_one f2))).
Proof. last_at 4. Qed.
Lemma lamp_tint : last_named (lit "tint") lamp_properties (prop (lit "tint") (FColor (Color f32_one f32_one f32_one))).
Proof. last_at 5. Qed.
Lemma lamp_mode : last_named (lit "mode") lamp_properties
  (prop (lit "mode") (FChoices [Choice (lit "a") (ChInteger 10); Choice (lit "b") (ChInteger 1)] 0)).
Proof. last_at 7. Qed.
Lemma lamp_level : last_named (lit "level") lamp_properties
  (prop (lit "level") (FChoices [Choice (lit "a") (ChInteger 10); Choice (lit "b") (ChInteger 1)] 1)).
Proof. last_at 8. Qed.
Lemma lamp_bits : last_named (lit "bits") lamp_properties (prop (lit "bits") (FFlags [lit "on"; lit "hot"; lit "loud"] 5)).
Proof. last_at 9. Qed.

Section W.
Context (p : platform).
Local Notation O := (f32_num p).

Theorem actor_properties : forall fuel gd fd bl data origin e g n, build_entity O fuel gd fd bl data origin (e, g) = Ok n ->
  exists o a children, n = NActor o a children /\ get_properties O fd e = Ok (a_properties a).
Proof.
  intros fuel gd fd bl data origin e g n E.
  destruct (build_entity_inv O gd fd bl data _ _ _ _ _ E) as (f & c & v & k & ch & pr & _ & _ & _ & _ & _ & Hp & ->).
  do 3 eexists. split; [reflexivity|exact Hp].
Qed.

Theorem declared_delivered : forall (fd : forge_data f32) e fe m k fp, forge_by fd e fe -> get_properties O fd e = Ok m ->
  last_named k (fe_properties fe) fp -> ~ is_flags (fp_data fp) ->
  exists v, hget m k = Some v /\ delivered p (fp_data fp) (hget (e_props e) k) v.
Proof.
  intros. eexists. split; [eapply properties_declared; eauto|]. now apply property_delivered.
Qed.

Theorem flags_delivered : forall (fd : forge_data f32) e fe m k fp fs d, forge_by fd e fe -> get_properties O fd e = Ok m ->
  last_named k (fe_properties fe) fp -> fp_data fp = FFlags fs d ->
  exists v, hget m k = Some (PrChoices v) /\ read_or integer_text (hget (e_props e) k) d v.
Proof.
  intros fd e fe m k fp fs d F E L D. pose proof (properties_declared p fd e fe m k fp F E L) as H. rewrite D in H.
  destruct (flags_value p fs d (hget (e_props e) k)) as (v & Ev & R). rewrite Ev in H. eauto.
Qed.

Theorem flags_not_flags : exists (fd : forge_data f32) e fe m k fp fs d, forge_by fd e fe
  /\ get_properties O fd e = Ok m /\ last_named k (fe_properties fe) fp /\ fp_data fp = FFlags fs d
  /\ forall v, hget m k = Some v -> forall i, v <> PrFlags i.
Proof.
  exists lamp_fd, (lamp_with []), lamp_class. eexists. exists (lit "bits"). do 3 eexists.
  split; [apply lamp_by|]. split; [vm_compute; reflexivity|]. split; [exact lamp_bits|]. split; [reflexivity|].
  intros v H i. vm_compute in H. injection H as <-. discriminate.
Qed.

Theorem choices_differ : exists (fd : forge_data f32) e1 e2 fe m1 m2 k s fp cs d, forge_by fd e1 fe /\ omits_and_spells e1 e2 k s
  /\ get_properties O fd e1 = Ok m1 /\ get_properties O fd e2 = Ok m2 /\ last_named k (fe_properties fe) fp
  /\ fp_data fp = FChoices cs d /\ wf_data (fp_data fp) /\ fgd_default (visible_body p fp) = Some s /\ hget m1 k <> hget m2 k.
Proof.
  exists lamp_fd, (lamp_with []), (lamp_with [(lit "mode", lit "10")]), lamp_class. do 2 eexists. exists (lit "mode"), (lit "10").
  do 3 eexists. split; [apply lamp_by|]. split; [repeat split|]. split; [vm_compute; reflexivity|]. split; [vm_compute; reflexivity|].
  split; [exact lamp_mode|]. split; [reflexivity|]. split; [|split; [vm_compute; reflexivity|vm_compute; discriminate]].
  split; [|simpl; lia]. repeat constructor; simpl; unfold no_quote; simpl; intros [H|[]]; discriminate.
Qed.

Theorem color_differ : exists (fd : forge_data f32) e1 e2 fe m1 m2 k s fp c c1 c2, forge_by fd e1 fe /\ omits_and_spells e1 e2 k s
  /\ get_properties O fd e1 = Ok m1 /\ get_properties O fd e2 = Ok m2 /\ last_named k (fe_properties fe) fp
  /\ fp_data fp = FColor c /\ unit_color c /\ fgd_default (visible_body p fp) = Some s
  /\ hget m1 k = Some (PrColor c1) /\ hget m2 k = Some (PrColor c2) /\ ~ color_eq c1 c2.
Proof.
  exists lamp_fd, (lamp_with []), (lamp_with [(lit "tint", lit "255 255 255")]), lamp_class. do 2 eexists.
  exists (lit "tint"), (lit "255 255 255").
  do 4 eexists. split; [apply lamp_by|]. split; [repeat split|]. split; [vm_compute; reflexivity|]. split; [vm_compute; reflexivity|].
  split; [exact lamp_tint|]. split; [reflexivity|]. split; [repeat split|]. split; [vm_compute; reflexivity|].
  split; [vm_compute; reflexivity|]. split; [vm_compute; reflexivity|]. intros [H _]. vm_compute in H. discriminate.
Qed.
End W.

(** C60 *)
Theorem brush_listed : forall b t, is_blacklisted_brush b t = true <-> In t (bl_brush b).
Proof.
  intros b t. unfold is_blacklisted_brush. rewrite existsb_exists. split.
  - intros (x & Hx & E). apply str_eqb_eq in E. now subst.
  - intros H. exists t. split; [exact H|]. apply str_eqb_refl.
Qed.
Theorem plane_listed : forall b t, is_blacklisted_plane b t = true <-> In t (bl_plane b).
Proof.
  intros b t. unfold is_blacklisted_plane. rewrite existsb_exists. split.
  - intros (x & Hx & E). apply str_eqb_eq in E. now subst.
  - intros H. exists t. split; [exact H|]. apply str_eqb_refl.
Qed.
Theorem lists_independent : forall bs ps bs' ps' t, is_blacklisted_brush (Blacklist bs ps) t = is_blacklisted_brush (Blacklist bs ps') t
  /\ is_blacklisted_plane (Blacklist bs ps) t = is_blacklisted_plane (Blacklist bs' ps) t.
Proof. intros. split; reflexivity. Qed.
