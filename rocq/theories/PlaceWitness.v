(** A knob on a handle on a door, to try C109 on. *)
From Coq Require Import Reals Lra Lia ZArith Permutation.
From Flocq Require Import Core.
From Verif Require Import Prelude F32 Text MapModel GeoModel LayerModel GameDataModel SceneModel RunModel Witness SceneWitness
  GeoSpec MapSpec Utf8Spec RunSpec InvarianceSpec NumberSpec RealSpec WindSpec ErrorSpec PointsSpec KeptSpec PlaceSpec
  BaseProofs PlaneProofs MapProofs RunProofs PrintProofs FloatProofs NumberProofs ArithProofs ExactProofs BoxSpec ErrorProofs ErrorFinal
  GeoWitness RunWitness ErrorWitness CornerWitness KeptWitness.
Local Open Scope R_scope.

Definition hall : map_source :=
  [ [MProp (lit "classname") (lit "knob"); MProp (lit "_tb_group") (lit "8"); MProp (lit "origin") (lit "20 -9 4.5e1")];
    [MProp (lit "classname") (lit "handle"); MProp (lit "_tb_id") (lit "8"); MProp (lit "_tb_group") (lit "7"); MProp (lit "origin") (lit "18 -9 44")];
    [MProp (lit "classname") (lit "worldspawn")];
    [MProp (lit "classname") (lit "door"); MProp (lit "_tb_id") (lit "7"); MProp (lit "origin") (lit "0 -16 32")] ].
Definition hall_config : config := Config (Contents (map_bytes (polar true) hall)) textures (Blacklist [] []) no_fd yard_gd.
Definition item (i : nat) : doc_entity := nth i (source_doc (polar true) hall) [].
Definition knob_at : vec3 f32 := V3 (fz 20) (fz (-9)) (fz 45).
Definition handle_at : vec3 f32 := V3 (fz 18) (fz (-9)) (fz 44).
Definition door_at : vec3 f32 := V3 (fz 0) (fz (-16)) (fz 32).

Lemma hall_printable : printable (polar true) hall.
Proof.
  intros e i He Hi. cbn [hall In] in He. repeat (destruct He as [<-|He]; [cbn [In] in Hi; repeat (destruct Hi as [<-|Hi]; [|]); try contradiction; cbn [printable_item]|]);
    try contradiction; split; plainly.
Qed.

Lemma origin_by : forall e x y z c, doc_value e (lit "origin") = Some (joined [x; y; z]) -> forallb (fun t => forallb (fun k => negb (k =? 32)%N) t) [x; y; z] = true ->
  parse_f32 true x = Some (vx c) -> parse_f32 true y = Some (vy c) -> parse_f32 true z = Some (vz c) -> origin_at (polar true) e c.
Proof.
  intros e x y z c E N Hx Hy Hz. exists x, y, z. split; [exact E|]. split.
  - intros t I J. rewrite forallb_forall in N. specialize (N t I). rewrite forallb_forall in N. specialize (N _ J). discriminate.
  - split; [|split]; now apply parse_f32_iff.
Qed.
Lemma whole_fz : forall a b k, (Z.abs a < 2 ^ 22 /\ Z.abs b < 2 ^ 22 /\ Z.abs k < 2 ^ 22)%Z -> whole_point (V3 (fz a) (fz b) (fz k)).
Proof.
  intros a b k H. destruct (fz_int a) as [A1 A2]; [lia|]. destruct (fz_int b) as [B1 B2]; [lia|]. destruct (fz_int k) as [K1 K2]; [lia|].
  split; [apply finite_fins; repeat split; first [apply A1|apply B1|apply K1]|]. exists a, b, k. split; [|exact H]. unfold point_of. cbn [vx vy vz]. congruence.
Qed.

Lemma hall_line : lineage (source_doc (polar true) hall) [item 0; item 1; item 3].
Proof.
  assert (I : forall i, (i < 4)%nat -> In (item i) (source_doc (polar true) hall)) by (intros i Hi; apply nth_In; exact Hi).
  eapply LineageBelow; [eapply LineageBelow; [apply LineageTop|..]|..]; try (apply I; lia); try (vm_compute; discriminate); [right| | | |]; vm_compute; reflexivity.
Qed.
Lemma hall_origins : Forall2 (origin_at (polar true)) [item 0; item 1; item 3] [knob_at; handle_at; door_at].
Proof.
  constructor; [apply origin_by with (lit "20") (lit "-9") (lit "4.5e1"); vm_compute; reflexivity|].
  constructor; [apply origin_by with (lit "18") (lit "-9") (lit "44"); vm_compute; reflexivity|].
  constructor; [apply origin_by with (lit "0") (lit "-16") (lit "32"); vm_compute; reflexivity|]. constructor.
Qed.
Lemma hall_whole : Forall whole_point [knob_at; handle_at; door_at].
Proof. repeat constructor; apply whole_fz; lia. Qed.

Theorem hall_placed : let d := source_doc (polar true) hall in exists text nodes, file_text (cf_map hall_config) text /\ text_document (polar true) text d
  /\ run (polar true) given 4 hall_config = Ok nodes /\ lineage d [item 0; item 1; item 3]
  /\ Forall2 (origin_at (polar true)) [item 0; item 1; item 3] [knob_at; handle_at; door_at] /\ Forall whole_point [knob_at; handle_at; door_at]
  /\ exists path x, stands nodes path x /\ length path = 3%nat.
Proof.
  cbv zeta. set (P := polar true) in *. exists (map_text P hall). destruct (shown _ _ (fun ns => match ns with _ :: NActor _ _ (NActor _ _ (NActor _ _ _ :: _) :: _) :: _ => true | _ => false end) (run P given 4 hall_config) true)
    as (nodes & E & N); [vm_compute; reflexivity|].
  exists nodes. split; [eexists; split; [reflexivity|apply printed_encodes, hall_printable]|]. split; [apply printed_document, hall_printable|]. split; [exact E|].
  split; [exact hall_line|]. split; [exact hall_origins|]. split; [exact hall_whole|].
  destruct nodes as [|w [|[o0 a0 [|[o1 a1 [|[o2 a2 c2| |] l2]| |] l1]| |] l0]]; try discriminate N.
  do 2 eexists. split; [eapply StandsBelow; [eapply StandsBelow; [apply StandsTop; right; left; reflexivity|left; reflexivity]|left; reflexivity]|reflexivity].
Qed.

(** Half a unit is lost so far away. *)
Definition half_unit : f32 := f32_div (fz 1) (fz 2).
Theorem far_child : forall p, let a := V3 (fz 16777215) f32_zero f32_zero in let b := V3 half_unit f32_zero f32_zero in tame a /\ tame b
  /\ shift (point_of a) (point_of (v3_add (f32_num p) (v3_neg (f32_num p) a) b)) <> point_of b.
Proof.
  intros p. cbn zeta. destruct (fz_int 16777215) as [A1 A2]; [lia|]. destruct (fz_int 1) as [B1 B2]; [lia|].
  assert (H : val half_unit = / 2).
  { replace half_unit with (SpecFloat.S754_finite false 8388608 (-24)) by (vm_compute; reflexivity). rewrite val_small. cbn [cond_Zopp]. change (2 ^ 24)%Z with 16777216%Z. lra. }
  assert (V0 : val f32_zero = 0) by reflexivity.
  assert (S : val (f32_add (n_vneg (f32_num p) (fz 16777215)) half_unit) = IZR (-16777214)).
  { replace (f32_add (n_vneg (f32_num p) (fz 16777215)) half_unit) with (fz (-16777214)) by (cbn [n_vneg f32_num]; destruct (p_simd p); vm_compute; reflexivity).
    now destruct (fz_int (-16777214)) as [_ V]; [lia|]. }
  assert (P60 : 2 ^ 60 = 1152921504606846976) by (rewrite pow_IZR; reflexivity).
  split; [|split].
  - split; [repeat split; vm_compute; reflexivity|]. unfold point_of. cbn [vx vy vz]. rewrite A2, V0, P60, Rabs_R0, Rabs_pos_eq; lra.
  - split; [repeat split; vm_compute; reflexivity|]. unfold point_of. cbn [vx vy vz]. rewrite H, V0, P60, Rabs_R0, Rabs_pos_eq; lra.
  - unfold shift, point_of. cbn [vx vy vz v3_add v3_neg n_add f32_num]. intros K. injection K as K _ _.
    change (val (fz 16777215) + val (f32_add (n_vneg (f32_num p) (fz 16777215)) half_unit) = val half_unit) in K. rewrite A2, S, H in K. lra.
Qed.
