(** Entity property and default value properties: C36, C37, C53, C54, C60, C62. *)
From Coq Require Import SpecFloat.
From Verif Require Import Prelude F32 Text MapModel GeoModel GameDataModel SceneModel GameDataSpec TreeSpec PropertySpec
  TextProofs PropertyProofs DefaultProofs PropertyWitness.

(** C36 fails for flags (C37); it holds for all other kinds.  When a name is declared twice the last declaration counts. *)
Theorem C36_declared_partial : forall p (fd : forge_data f32) e fe m k fp, forge_by fd e fe ->
  get_properties (f32_num p) fd e = Ok m -> last_named k (fe_properties fe) fp -> ~ is_flags (fp_data fp) ->
  exists v, hget m k = Some v /\ delivered p (fp_data fp) (hget (e_props e) k) v.
Proof. exact declared_delivered. Qed.
Print Assumptions C36_declared_partial.

Theorem C36_undeclared : forall p (fd : forge_data f32) e fe m k, forge_by fd e fe ->
  get_properties (f32_num p) fd e = Ok m -> ~ declares fe k -> undeclared_value (hget (e_props e) k) k (hget m k).
Proof. exact properties_undeclared. Qed.
Print Assumptions C36_undeclared.

Theorem C36_total : forall p (fd : forge_data f32) e fe, forge_by fd e fe ->
  (integral_ids e -> exists m, get_properties (f32_num p) fd e = Ok m)
  /\ (~ integral_ids e -> exists w, get_properties (f32_num p) fd e = Panic w).
Proof. exact properties_total. Qed.
Print Assumptions C36_total.

Theorem C36_no_definition : forall p (fd : forge_data f32) e, forge_none fd e -> get_properties (f32_num p) fd e = Ok [].
Proof. exact properties_none. Qed.
Print Assumptions C36_no_definition.

Theorem C36_actor : forall p fuel gd fd bl data origin e g n,
  build_entity (f32_num p) fuel gd fd bl data origin (e, g) = Ok n ->
  exists o a children, n = NActor o a children /\ get_properties (f32_num p) fd e = Ok (a_properties a).
Proof. exact actor_properties. Qed.
Print Assumptions C36_actor.

Example C36_ex : forall p : platform, exists m,
  forge_by lamp_fd (lamp_with [(lit "_tb_id", lit "12"); (lit "power", lit "+7"); (lit "range", lit "x"); (lit "extra", lit "1")]) lamp_class
  /\ last_named (lit "power") lamp_properties (prop (lit "power") (FInteger 5))
  /\ get_properties (f32_num p) lamp_fd
       (lamp_with [(lit "_tb_id", lit "12"); (lit "power", lit "+7"); (lit "range", lit "x"); (lit "extra", lit "1")]) = Ok m
  /\ hget m (lit "_tb_id") = Some (PrInteger 12) /\ hget m (lit "power") = Some (PrInteger 7)
  /\ hget m (lit "_tb_name") = Some (PrString (lit "none")) /\ hget m (lit "extra") = None.
Proof.
  intros [s [|] z c o co at_ r q m2 l]; eexists; (split; [apply lamp_by|]); (split; [exact lamp_power|]);
    (split; [vm_compute; reflexivity|]); repeat split.
Qed.
Example C36_unreadable_ex : forge_by lamp_fd (lamp_with [(lit "_tb_id", lit "x")]) lamp_class
  /\ ~ integral_ids (lamp_with [(lit "_tb_id", lit "x")]) /\ integral_ids (lamp_with [(lit "_tb_id", lit "-3"); (lit "_tb_name", lit "x")]).
Proof.
  split; [apply lamp_by|]. split.
  - intros H. destruct (H (lit "_tb_id") (lit "x")) as [z Hz]; [left; reflexivity|reflexivity|].
    apply parse_i32_iff in Hz. discriminate.
  - intros k s [-> | ->] E; [|discriminate]. injection E as <-. exists (-3)%Z. apply parse_i32_iff. reflexivity.
Qed.

(** C37 is false: flags arrive as choices; the number is the right one. *)
Theorem C37_refuted : forall p, exists (fd : forge_data f32) e fe m k fp fs d, forge_by fd e fe
  /\ get_properties (f32_num p) fd e = Ok m /\ last_named k (fe_properties fe) fp /\ fp_data fp = FFlags fs d
  /\ forall v, hget m k = Some v -> forall i, v <> PrFlags i.
Proof. exact flags_not_flags. Qed.
Print Assumptions C37_refuted.

Theorem C37_partial : forall p (fd : forge_data f32) e fe m k fp fs d, forge_by fd e fe ->
  get_properties (f32_num p) fd e = Ok m -> last_named k (fe_properties fe) fp -> fp_data fp = FFlags fs d ->
  exists v, hget m k = Some (PrChoices v) /\ read_or integer_text (hget (e_props e) k) d v.
Proof. exact flags_delivered. Qed.
Print Assumptions C37_partial.

Example C37_ex : forall p : platform, exists m, forge_by lamp_fd (lamp_with [(lit "bits", lit "6")]) lamp_class
  /\ get_properties (f32_num p) lamp_fd (lamp_with [(lit "bits", lit "6")]) = Ok m
  /\ last_named (lit "bits") lamp_properties (prop (lit "bits") (FFlags [lit "on"; lit "hot"; lit "loud"] 5))
  /\ hget m (lit "bits") = Some (PrChoices 6).
Proof. intros p. eexists. split; [apply lamp_by|]. split; [vm_compute; reflexivity|]. split; [exact lamp_bits|reflexivity]. Qed.

(** C53 is false: the absent property gets the index of the default, the spelled one the value of the choice. *)
Theorem C53_refuted : forall p, exists (fd : forge_data f32) e1 e2 fe m1 m2 k s fp cs d,
  forge_by fd e1 fe /\ omits_and_spells e1 e2 k s
  /\ get_properties (f32_num p) fd e1 = Ok m1 /\ get_properties (f32_num p) fd e2 = Ok m2
  /\ last_named k (fe_properties fe) fp
  /\ fp_data fp = FChoices cs d /\ wf_data (fp_data fp) /\ fgd_default (visible_body p fp) = Some s /\ hget m1 k <> hget m2 k.
Proof. exact choices_differ. Qed.
Print Assumptions C53_refuted.

(** They agree exactly when the text is the index itself or not an integer. *)
Theorem C53_partial : forall p (fd : forge_data f32) e1 e2 fe m1 m2 k s fp cs d,
  forge_by fd e1 fe -> omits_and_spells e1 e2 k s ->
  get_properties (f32_num p) fd e1 = Ok m1 -> get_properties (f32_num p) fd e2 = Ok m2 ->
  last_named k (fe_properties fe) fp -> fp_data fp = FChoices cs d ->
  (hget m1 k = hget m2 k <-> forall z, integer_text s z -> z = d).
Proof. exact choices_default. Qed.
Print Assumptions C53_partial.

Example C53_ex : forall p : platform, exists m1 m2, forge_by lamp_fd (lamp_with []) lamp_class
  /\ omits_and_spells (lamp_with []) (lamp_with [(lit "level", lit "1")]) (lit "level") (lit "1")
  /\ get_properties (f32_num p) lamp_fd (lamp_with []) = Ok m1
  /\ get_properties (f32_num p) lamp_fd (lamp_with [(lit "level", lit "1")]) = Ok m2
  /\ hget m1 (lit "level") = Some (PrChoices 1) /\ hget m2 (lit "level") = Some (PrChoices 1).
Proof.
  intros p. do 2 eexists. split; [apply lamp_by|]. split; [repeat split|]. split; [vm_compute; reflexivity|].
  split; [vm_compute; reflexivity|]. split; reflexivity.
Qed.

(** C54 is false for white: the FGD writes 0 to 255, the reader takes the numbers as they are. *)
Theorem C54_refuted : forall p, exists (fd : forge_data f32) e1 e2 fe m1 m2 k s fp c c1 c2,
  forge_by fd e1 fe /\ omits_and_spells e1 e2 k s
  /\ get_properties (f32_num p) fd e1 = Ok m1 /\ get_properties (f32_num p) fd e2 = Ok m2
  /\ last_named k (fe_properties fe) fp
  /\ fp_data fp = FColor c /\ unit_color c /\ fgd_default (visible_body p fp) = Some s
  /\ hget m1 k = Some (PrColor c1) /\ hget m2 k = Some (PrColor c2) /\ ~ color_eq c1 c2.
Proof. exact color_differ. Qed.
Print Assumptions C54_refuted.

(** Of all colours with components in [0, 1] it holds for black only. *)
Theorem C54_partial : forall p (fd : forge_data f32) e1 e2 fe m1 m2 k s fp c,
  forge_by fd e1 fe -> omits_and_spells e1 e2 k s ->
  get_properties (f32_num p) fd e1 = Ok m1 -> get_properties (f32_num p) fd e2 = Ok m2 ->
  last_named k (fe_properties fe) fp ->
  fp_data fp = FColor c -> unit_color c -> fgd_default (visible_body p fp) = Some s ->
  exists c2, hget m1 k = Some (PrColor c) /\ hget m2 k = Some (PrColor c2) /\ (color_eq c c2 <-> black c).
Proof. exact color_default. Qed.
Print Assumptions C54_partial.

Example C54_ex : forall p : platform, exists m1 m2, forge_by lamp_fd (lamp_with []) lamp_class
  /\ omits_and_spells (lamp_with []) (lamp_with [(lit "tint", lit "255 255 255")]) (lit "tint") (lit "255 255 255")
  /\ get_properties (f32_num p) lamp_fd (lamp_with []) = Ok m1
  /\ get_properties (f32_num p) lamp_fd (lamp_with [(lit "tint", lit "255 255 255")]) = Ok m2
  /\ last_named (lit "tint") lamp_properties (prop (lit "tint") (FColor (Color f32_one f32_one f32_one)))
  /\ fgd_default (visible_body p (prop (lit "tint") (FColor (Color f32_one f32_one f32_one)))) = Some (lit "255 255 255")
  /\ unit_color (Color f32_one f32_one f32_one).
Proof.
  intros p. do 2 eexists. split; [apply lamp_by|]. split; [repeat split|]. split; [vm_compute; reflexivity|].
  split; [vm_compute; reflexivity|]. split; [exact lamp_tint|]. split; [vm_compute; reflexivity|repeat split].
Qed.

(** C60 *)
Theorem C60_brush : forall b t, is_blacklisted_brush b t = true <-> In t (bl_brush b).
Proof. exact brush_listed. Qed.
Print Assumptions C60_brush.
Theorem C60_plane : forall b t, is_blacklisted_plane b t = true <-> In t (bl_plane b).
Proof. exact plane_listed. Qed.
Print Assumptions C60_plane.
Theorem C60_independent : forall bs ps bs' ps' t,
  is_blacklisted_brush (Blacklist bs ps) t = is_blacklisted_brush (Blacklist bs ps') t
  /\ is_blacklisted_plane (Blacklist bs ps) t = is_blacklisted_plane (Blacklist bs' ps) t.
Proof. exact lists_independent. Qed.
Print Assumptions C60_independent.
Example C60_ex : is_blacklisted_brush (Blacklist [lit "trigger"; lit "clip"] [lit "skip"]) (lit "clip") = true
  /\ is_blacklisted_plane (Blacklist [lit "trigger"; lit "clip"] [lit "skip"]) (lit "clip") = false.
Proof. split; reflexivity. Qed.

(** C62 *)
Theorem C62_defaults : forall p (fd : forge_data f32) e1 e2 fe m1 m2 k s fp,
  forge_by fd e1 fe -> omits_and_spells e1 e2 k s ->
  get_properties (f32_num p) fd e1 = Ok m1 -> get_properties (f32_num p) fd e2 = Ok m2 ->
  last_named k (fe_properties fe) fp ->
  exact_default (fp_data fp) -> fgd_default (visible_body p fp) = Some s ->
  exists v1 v2, hget m1 k = Some v1 /\ hget m2 k = Some v2 /\ same_delivery p v1 v2.
Proof. exact exact_defaults. Qed.
Print Assumptions C62_defaults.

Theorem C62_flags : forall p (fd : forge_data f32) e1 e2 fe m1 m2 k s fp fs d l z,
  forge_by fd e1 fe -> omits_and_spells e1 e2 k s ->
  get_properties (f32_num p) fd e1 = Ok m1 -> get_properties (f32_num p) fd e2 = Ok m2 ->
  last_named k (fe_properties fe) fp ->
  fp_data fp = FFlags fs d -> length fs <= 31 -> visible_body p fp = AFlags l -> flag_sum l z -> integer_text s z ->
  (hget m1 k = hget m2 k <-> (0 <= d < 2 ^ Z.of_nat (length fs))%Z).
Proof. exact flags_default. Qed.
Print Assumptions C62_flags.

Example C62_ex : forall p : platform, exists m1 m2, forge_by lamp_fd (lamp_with []) lamp_class
  /\ omits_and_spells (lamp_with []) (lamp_with [(lit "aim", lit "0 1 2.5")]) (lit "aim") (lit "0 1 2.5")
  /\ get_properties (f32_num p) lamp_fd (lamp_with []) = Ok m1
  /\ get_properties (f32_num p) lamp_fd (lamp_with [(lit "aim", lit "0 1 2.5")]) = Ok m2
  /\ last_named (lit "aim") lamp_properties (prop (lit "aim") (FVector3 (V3 f32_zero f32_one f2)))
  /\ exact_default (FVector3 (V3 f32_zero f32_one f2))
  /\ fgd_default (visible_body p (prop (lit "aim") (FVector3 (V3 f32_zero f32_one f2)))) = Some (lit "0 1 2.5").
Proof.
  intros p. do 2 eexists. split; [apply lamp_by|]. split; [repeat split|]. split; [vm_compute; reflexivity|].
  split; [vm_compute; reflexivity|]. split; [exact lamp_aim|]. split; [repeat split|vm_compute; reflexivity].
Qed.
Example C62_flags_ex : forall p : platform, exists l,
  visible_body p (prop (lit "bits") (FFlags [lit "on"; lit "hot"; lit "loud"] 5)) = AFlags l
  /\ flag_sum l 5 /\ integer_text (lit "5") 5.
Proof.
  intros p. eexists. split; [reflexivity|]. split; [|apply parse_i32_iff; reflexivity].
  exists [1; 0; 4]%Z. split; [|reflexivity].
  do 3 (apply Forall2_cons; [solve [right; split; reflexivity|left; split; [reflexivity|apply parse_i32_iff; reflexivity]]|]).
  constructor.
Qed.
