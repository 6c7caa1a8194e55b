(** A cube, and a cube with one side given twice, to try C123 and C124 on. *)
From Coq Require Import Reals Lra Psatz Lia.
From Verif Require Import Prelude F32 Text MapModel GeoModel GeoSpec RealSpec WindSpec SolidSpec EdgeSpec BaseProofs RealProofs WindProofs WindWitness SolidProofs SolidWitness EdgeProofs.
Local Open Scope R_scope.

Definition middle : vec3 R := V3 (/ 2) (/ 2) (/ 2).
Lemma cube_deep : deep cube middle.
Proof. intros q I. destruct (cube_reads q I) as [(F & E)|[(F & E)|[(F & E)|[(F & E)|[(F & E)|(F & E)]]]]]; unfold middle; rewrite E; lra. Qed.
Lemma cube_facings : map facing cube = [V3 0 0 1; V3 0 0 (-1); V3 1 0 0; V3 (-1) 0 0; V3 0 1 0; V3 0 (-1) 0].
Proof. unfold cube. cbn [map]. do 5 (f_equal; [numbers; f_equal; ring|]). f_equal. numbers. f_equal; ring. Qed.
Lemma six : forall (A : Type) i (x : A) a0 a1 a2 a3 a4 a5, nth_error [a0; a1; a2; a3; a4; a5] i = Some x ->
  (i = 0 /\ x = a0 \/ i = 1 /\ x = a1 \/ i = 2 /\ x = a2 \/ i = 3 /\ x = a3 \/ i = 4 /\ x = a4 \/ i = 5 /\ x = a5)%nat.
Proof.
  intros A i x a0 a1 a2 a3 a4 a5 H. do 6 (destruct i as [|i]; [injection H as <-; tauto|]). cbn in H. destruct i; discriminate.
Qed.
Lemma cube_once : no_repeats cube.
Proof.
  intros i j P Q Hi Hj ((k & Pk & E) & _). apply (map_nth_error facing) in Hi, Hj. rewrite cube_facings in Hi, Hj. apply six in Hi, Hj.
  destruct Hi as [(-> & Hi)|[(-> & Hi)|[(-> & Hi)|[(-> & Hi)|[(-> & Hi)|(-> & Hi)]]]]]; rewrite Hi in E; clear Hi; cbn [vx vy vz] in E;
  (destruct Hj as [(-> & Hj)|[(-> & Hj)|[(-> & Hj)|[(-> & Hj)|[(-> & Hj)|(-> & Hj)]]]]]; rewrite Hj in E; clear Hj; [..|]; try reflexivity; exfalso; injection E; intros; lra).
Qed.

(** The lid given twice. *)
Definition doubled : list (brush_plane R) := lid :: cube.
Lemma in_doubled : forall p, In p doubled <-> In p cube.
Proof. intros p. split; [intros [<-|I]; [now left|exact I]|now right]. Qed.
Lemma doubled_solid : forall x, solid doubled x <-> solid cube x.
Proof. intros x. split; intros S q I; apply S; now apply in_doubled. Qed.

Section Doubled.
Context (parse : str -> option R) (cosine radians : R -> R) (quat : vec3 R -> R -> vec3 R -> vec3 R) (mat2 : R -> vec2 R -> vec2 R).
Local Notation O := (real_num parse cosine radians real_atan2 quat mat2).
Lemma doubled_crisp : forall tx e plane f, In plane doubled -> build_face O tx e doubled plane = Ok f -> crisp doubled f.
Proof.
  intros tx e plane f I E v q Iv. revert q. change (solid doubled (vt_pos v)). destruct (real_corners _ _ _ _ _ _ _ _ _ _ _ E) as (_ & C).
  assert (K := proj1 (C _) (in_map vt_pos _ _ Iv)). clear C E Iv. destruct K as (p1 & p2 & I1 & I2 & _ & _ & _ & S & A & B & C & _). apply in_doubled in I, I1, I2.
  unfold spans in S. rewrite !cube_norm in S by assumption. apply doubled_solid. destruct (vt_pos v) as [x y z]. apply cube_solid.
  apply (cube_meet plane p1 p2 x y z I I1 I2 A B C). lra.
Qed.
Lemma doubled_has : forall tx e plane f, In plane doubled -> build_face O tx e doubled plane = Ok f ->
  forall p1 p2 x y z, In p1 cube -> In p2 cube -> 0 < inner (outer (facing plane) (facing p1)) (facing p2) ->
  on_plane plane (V3 x y z) -> on_plane p1 (V3 x y z) -> on_plane p2 (V3 x y z) -> In (V3 x y z) (map vt_pos (f_vertices f)).
Proof.
  intros tx e plane f I E p1 p2 x y z I1 I2 D O0 O1 O2. apply in_doubled in I. destruct (cube_meet plane p1 p2 x y z I I1 I2 O0 O1 O2 D) as (D' & So).
  apply (real_corners _ _ _ _ _ _ _ _ _ _ _ E). exists p1, p2.
  repeat (split; [(apply in_doubled; assumption) || assumption || (apply cube_proper; assumption)|]). split.
  - unfold spans. rewrite !cube_norm, D' by assumption. lra.
  - repeat (split; [assumption|]). intros q Iq. apply in_doubled in Iq. apply cube_solid in So. pose proof (So q Iq) as W. unfold within in *.
    rewrite cube_norm in * by assumption. lra.
Qed.
Theorem doubled_twice : forall tx e, exists b, build_brush O tx e doubled = Ok b /\ polar_angle real_atan2
  /\ (forall plane f, In plane doubled -> In f (bg_faces b) -> build_face O tx e doubled plane = Ok f -> proper plane /\ crisp doubled f /\ sharp doubled plane)
  /\ bounded (solid doubled) /\ deep doubled middle
  /\ exists f p q, nth_error (bg_faces b) 0 = Some f /\ nth_error (bg_faces b) 1 = Some f /\ (3 <= length (f_vertices f))%nat /\ edge f p q.
Proof.
  intros tx e. destruct (mapM_all (build_face O tx e doubled) doubled (real_total _ _ _ _ _ _ _ _ _)) as (fs & E & L).
  unfold build_brush. rewrite E. cbn [bind]. eexists. split; [reflexivity|]. cbn [bg_faces]. split; [exact real_polar|]. split; [|split; [|split]].
  - intros plane f I _ Ef. split; [apply cube_proper; now apply in_doubled|]. split; [exact (doubled_crisp _ _ _ _ I Ef)|].
    apply in_doubled in I. intros p1 p2 x I1 I2 D A B (C & S). apply in_doubled in I1, I2. apply doubled_solid in S. exact (cube_sharp plane I p1 p2 x I1 I2 D A B (conj C S)).
  - destruct cube_bounded as (r & Br). exists r. intros x S. apply Br. now apply doubled_solid.
  - intros q I. apply cube_deep. now apply in_doubled.
  - apply mapM_ok in E. unfold doubled in E at 2. inversion E as [|p1 f1 l1 l2 E1 F1 X1 Y1]; subst. unfold cube in F1. inversion F1 as [|p2 f2 l3 l4 E2 F2 X2 Y2]; subst.
    rewrite E1 in E2. injection E2 as <-. exists f1.
    assert (L3 : (3 <= length (f_vertices f1))%nat).
    { rewrite <- (map_length vt_pos). assert (I : In lid doubled) by now left. pose proof (doubled_has _ _ _ _ I E1) as Hs.
      apply (three_points _ (V3 0 0 1) (V3 0 1 1) (V3 1 0 1)); try near.
      - (apply (Hs (panel o0 e3 e2) (panel o0 e1 e3)); [cbn; auto 10|cbn; auto 10|numbers; lra..]) || (apply (Hs (panel o0 e1 e3) (panel o0 e3 e2)); [cbn; auto 10|cbn; auto 10|numbers; lra..]).
      - (apply (Hs (panel o0 e3 e2) (panel e2 e3 e1)); [cbn; auto 10|cbn; auto 10|numbers; lra..]) || (apply (Hs (panel e2 e3 e1) (panel o0 e3 e2)); [cbn; auto 10|cbn; auto 10|numbers; lra..]).
      - (apply (Hs (panel e1 e2 e3) (panel o0 e1 e3)); [cbn; auto 10|cbn; auto 10|numbers; lra..]) || (apply (Hs (panel o0 e1 e3) (panel e1 e2 e3)); [cbn; auto 10|cbn; auto 10|numbers; lra..]). }
    destruct (f_vertices f1) as [|u [|v l]] eqn:Ev; [cbn in L3; lia..|]. exists (vt_pos u), (vt_pos v). split; [reflexivity|]. split; [reflexivity|]. split; [exact L3|].
    exists 0%nat, u, v. rewrite Ev. split; [reflexivity|]. split; [|now split]. replace (1 mod length (u :: v :: l))%nat with 1%nat; [reflexivity|]. symmetry. apply Nat.mod_small. cbn [length]. lia.
Qed.
End Doubled.

Theorem cube_closed : forall parse cosine radians quat mat2 tx e, let O := real_num parse cosine radians real_atan2 quat mat2 in exists b f p q,
  build_brush O tx e cube = Ok b /\ polar_angle real_atan2
  /\ (forall plane f, In plane cube -> In f (bg_faces b) -> build_face O tx e cube plane = Ok f -> proper plane /\ crisp cube f /\ sharp cube plane)
  /\ bounded (solid cube) /\ deep cube middle /\ no_repeats cube
  /\ length (bg_faces b) = 6%nat /\ In f (bg_faces b) /\ (3 <= length (f_vertices f))%nat /\ edge f p q.
Proof.
  intros parse cosine radians quat mat2 tx e O. destruct (cube_ready parse cosine radians quat mat2 tx e) as (b & E & L & A & H & B).
  destruct (bg_faces b) as [|f fs] eqn:Ef; [discriminate|].
  assert (L3 : (3 <= length (f_vertices f))%nat).
  { pose proof E as E'. unfold build_brush in E'. apply bind_ok in E'. destruct E' as (gs & Eg & X). injection X as <-. cbn [bg_faces] in Ef. subst gs. apply mapM_ok in Eg.
    unfold cube in Eg at 2. inversion Eg as [|p1 f1 l1 l2 E1 F1 X1 Y1]; subst. apply (H lid f); [now left|now left|exact E1]. }
  destruct (f_vertices f) as [|u [|v l]] eqn:Ev; [cbn in L3; lia..|]. exists b, f, (vt_pos u), (vt_pos v). rewrite Ef.
  split; [exact E|]. split; [exact A|]. split; [intros plane g Ip Ig Eg; destruct (H plane g Ip Ig Eg) as (H1 & H2 & H3 & _); auto|]. split; [exact B|].
  split; [exact cube_deep|]. split; [exact cube_once|]. split; [exact L|]. split; [now left|]. rewrite Ev. split; [exact L3|].
  exists 0%nat, u, v. rewrite Ev. split; [reflexivity|]. split; [|now split]. replace (1 mod length (u :: v :: l))%nat with 1%nat; [reflexivity|]. symmetry. apply Nat.mod_small. cbn [length]. lia.
Qed.
