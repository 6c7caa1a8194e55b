(** Half a cube with and without a plane that cuts nothing off, to try C151 on. *)
From Coq Require Import Reals Lra Permutation.
From Verif Require Import Prelude F32 Text MapModel GeoModel LayerModel GameDataModel SceneModel GeoSpec RealSpec WindSpec SolidSpec RestateSpec CutSpec CastSpec SolelySpec
  BaseProofs GeoProofs RealProofs WindProofs WindWitness SolidProofs SolidWitness CutProofs CutWitness CastProofs CastWitness.
Local Open Scope R_scope.

(** The cube cut at a half, without the plane beyond the cut, and its planes in another order. *)
Definition slim : list (brush_plane R) := [panel o0 e1 e3; panel e2 e3 e1; panel o0 e3 e2; panel o0 e2 e1; cut; lid].

Lemma slim_square : forall q, In q slim -> square_on q.
Proof. intros q I. apply all_square. unfold slim, cube in *. cbn in *. intuition. Qed.

Lemma slim_solid : same_solid (cut :: cube) slim.
Proof.
  intros [x y z]. split.
  - intros H q I. apply H. unfold slim, cube in *. cbn in *. intuition.
  - intros H q I. assert (D : q = panel e1 e2 e3 \/ In q slim) by (unfold slim, cube in *; cbn in *; intuition). destruct D as [->|J]; [|exact (H q J)].
    assert (Sc : square_on cut) by (apply slim_square; cbn; auto 10). assert (Sp : square_on (panel e1 e2 e3)) by (apply all_square; right; right; cbn; auto 10).
    pose proof (H cut ltac:(cbn; auto 10)) as A1. pose proof (H (panel o0 e3 e2) ltac:(cbn; auto 10)) as A2. pose proof (H (panel e2 e3 e1) ltac:(cbn; auto 10)) as A3.
    pose proof (H (panel o0 e1 e3) ltac:(cbn; auto 10)) as A4. pose proof (H lid ltac:(cbn; auto 10)) as A5. pose proof (H (panel o0 e2 e1) ltac:(cbn; auto 10)) as A6.
    unfold within in *. rewrite !square_norm in * by (apply slim_square; cbn; auto 10) || idtac.
    rewrite (square_norm _ Sp). unfold facing, inner, outer, minus, cut, lid, panel, half, e1, e2, e3, o0 in *. cbn in *. lra.
Qed.

Section Slim.
Context (parse : str -> option R) (cosine radians : R -> R) (atan2 : R -> R -> R) (quat : vec3 R -> R -> vec3 R -> vec3 R) (mat2 : R -> vec2 R -> vec2 R).
Local Notation O := (real_num parse cosine radians atan2 quat mat2).

Lemma slim_fair : forall tx e, fair_brush O tx e slim.
Proof.
  intros tx e. split.
  - intros plane f Ip E. split; [apply square_proper, slim_square, Ip|]. split; [exact (square_crisp _ _ _ _ _ _ _ _ _ _ _ slim_square (slim_square _ Ip) E)|apply square_sharp; [exact slim_square|apply slim_square, Ip]].
  - destruct (proj2 (proj1 (proj2 (parts_fair parse cosine radians atan2 quat mat2 tx e)))) as (m & B). exists m. intros x S. apply B, slim_solid, S.
Qed.

Theorem slim_brush : forall tx e, fair_brush O tx e (cut :: cube) /\ fair_brush O tx e slim /\ same_solid (cut :: cube) slim
  /\ exists g g' k k', build_brush O tx e (cut :: cube) = Ok g /\ build_brush O tx e slim = Ok g' /\ collision_of O CConvex (EntityGeo o0 [g]) = Ok k /\ collision_of O CConvex (EntityGeo e1 [g']) = Ok k'.
Proof.
  intros tx e. split; [apply parts_fair|]. split; [apply slim_fair|]. split; [exact slim_solid|].
  destruct (any_brush parse cosine radians atan2 quat mat2 tx e (cut :: cube)) as (g & E). destruct (any_brush parse cosine radians atan2 quat mat2 tx e slim) as (g' & E').
  exists g, g'. do 2 eexists. split; [exact E|]. split; [exact E'|]. split; reflexivity.
Qed.
End Slim.

Theorem slim_lid : forall parse cosine radians quat mat2 tx e, let O := real_num parse cosine radians real_atan2 quat mat2 in
  exists f f', build_face O tx e (cut :: cube) lid = Ok f /\ build_face O tx e slim lid = Ok f' /\ In lid (cut :: cube) /\ In lid slim
    /\ proper lid /\ crisp (cut :: cube) f /\ sharp (cut :: cube) lid /\ bounded (side (cut :: cube) lid) /\ crisp slim f' /\ sharp slim lid /\ bounded (side slim lid)
    /\ same_side (cut :: cube) lid slim lid /\ same_way lid lid /\ polar_angle real_atan2.
Proof.
  intros parse cosine radians quat mat2 tx e O. destruct (slim_brush parse cosine radians real_atan2 quat mat2 tx e) as ((F & B) & (F' & B') & S & _).
  destruct (real_total parse cosine radians real_atan2 quat mat2 tx e (cut :: cube) lid) as (f & E). destruct (real_total parse cosine radians real_atan2 quat mat2 tx e slim lid) as (f' & E').
  assert (I : In lid (cut :: cube)) by (cbn; auto). assert (I' : In lid slim) by (cbn; auto 10).
  destruct (F lid f I E) as (P & K & Sh). destruct (F' lid f' I' E') as (_ & K' & Sh').
  exists f, f'. split; [exact E|]. split; [exact E'|]. split; [exact I|]. split; [exact I'|]. split; [exact P|]. split; [exact K|]. split; [exact Sh|].
  split; [destruct B as (m & B); exists m; intros x (_ & H); exact (B x H)|]. split; [exact K'|]. split; [exact Sh'|].
  split; [destruct B' as (m & B'); exists m; intros x (_ & H); exact (B' x H)|].
  split; [intros x; unfold side; rewrite (S x); reflexivity|]. split; [exists 1; split; [lra|destruct (facing lid); cbn; f_equal; ring]|exact real_polar].
Qed.
