(** A box to try C131 on. *)
From Coq Require Import Reals Lra Lia ZArith.
From Verif Require Import Prelude F32 Text MapModel GeoModel Witness RealSpec WindSpec ErrorSpec CornerSpec SolidSpec WoundSpec SharedSpec CoverSpec EdgeSpec SeamSpec
  BoxSpec ErrorProofs ErrorFinal ErrorWitness CornerWitness TriangleWitness KeptWitness GeoWitness WoundWitness CoverWitness.
Local Open Scope R_scope.

Definition ahead (d : dir) : vec3 Z :=
  match d with East => V3 64 0 0 | West => V3 (-64) 0 0 | North => V3 0 64 0 | South => V3 0 (-64) 0 | Top => V3 0 0 64 | Bottom => V3 0 0 (-64) end%Z.
Lemma ahead_facing : forall d, facing (plane_of (plane_at d)) = reals (ahead d).
Proof. intros d. destruct d; cbn [plane_at]; sides; rewrite tri_facing by grid; f_equal; vm_compute; reflexivity. Qed.
Definition heart : vec3 R := reals (V3 0 8 16)%Z.
Lemma tri_deep : forall a b c x, on_grid a -> on_grid b -> on_grid c -> (zinner (zfacing a b c) (zminus x a) < 0)%Z -> inner (facing (plane_of (tri a b c))) (minus (reals x) (bp_v0 (plane_of (tri a b c)))) < 0.
Proof.
  intros a b c x A B C H. rewrite tri_facing by assumption. cbn [plane_of bp_v0 tri wall_at]. destruct (point_fvz a A) as [_ ->].
  rewrite minus_reals, inner_reals. apply (IZR_lt _ 0). exact H.
Qed.
Lemma box_deep : deep (map plane_of box6) heart.
Proof.
  intros q Iq. apply in_map_iff in Iq. destruct Iq as (q' & <- & Iq). apply in_box6 in Iq. destruct Iq as (d & ->). unfold heart.
  destruct d; cbn [plane_at]; sides; apply tri_deep; [grid|grid|grid|znum..].
Qed.
Lemma box_once : no_repeats (map plane_of box6).
Proof.
  intros i j P Q Hi Hj ((k & Pk & E) & _). rewrite box6_dirs, map_map in Hi, Hj. rewrite nth_error_map in Hi, Hj.
  destruct (nth_error dirs i) as [a|] eqn:Ea; [|discriminate Hi]. destruct (nth_error dirs j) as [c|] eqn:Ec; [|discriminate Hj]. cbn [option_map] in Hi, Hj. injection Hi as <-. injection Hj as <-.
  rewrite !ahead_facing in E. assert (X := f_equal vx E). assert (Y := f_equal vy E). assert (Z := f_equal vz E). clear E.
  assert (a = c) as <- by (destruct a, c; try reflexivity; exfalso; cbn [ahead reals vx vy vz] in X, Y, Z; lra).
  apply (proj1 (NoDup_nth_error dirs)); [|apply nth_error_Some; congruence|congruence].
  repeat (constructor; [cbn [In]; intuition discriminate|]). constructor.
Qed.
Definition eight : list (vec3 Z) := [corner East North Top; corner East Top South; corner East South Bottom; corner East Bottom North;
  corner West Top North; corner West South Top; corner West Bottom South; corner West North Bottom].
Lemma box_eight : solid_corners box6 (map reals eight).
Proof.
  split.
  - apply FinFun.Injective_map_NoDup.
    + intros [k1 k2 k3] [l1 l2 l3] H. unfold reals in H. cbn [vx vy vz] in H. injection H as A B C. apply eq_IZR in A, B, C. congruence.
    + repeat (constructor; [cbn [In eight]; intros H; repeat destruct H as [H|H]; try contradiction; vm_compute in H; discriminate H|]). constructor.
  - intros x. split.
    + intros I. change eight with (around East ++ around West) in I. rewrite map_app in I. apply in_app_iff in I.
      destruct I as [I|I]; apply around_true in I; [exists (plane_at East)|exists (plane_at West)]; (split; [apply box6_in|exact I]).
    + intros (pl & I & T). apply in_box6 in I. destruct I as (d & ->). apply around_true in T. apply in_map_iff in T. destruct T as (k & <- & T). apply in_map.
      assert (M : In k eight) by (destruct d; cbn [around In] in T; repeat destruct T as [<-|T]; try contradiction; vm_compute; tauto). exact M.
Qed.
Theorem box_seams : exists g, build_brush (f32_num squared) textures (world []) box6 = Ok g /\ (forall q, In q box6 -> grid_plane q) /\ (Z.of_nat (length box6) <= 4000)%Z
  /\ (forall pl, In pl box6 -> good_side squared box6 pl haze /\ simple box6 pl) /\ deep (map plane_of box6) heart /\ no_repeats (map plane_of box6) /\ box6 <> []
  /\ solid_corners box6 (map reals eight) /\ index_total g = 36%nat.
Proof.
  destruct box_surface as (g & _ & E & G & L & H & _). exists g. split; [exact E|]. split; [exact G|]. split; [exact L|].
  split; [intros pl I; split; [now apply H|]; apply in_box6 in I; destruct I as (d & ->); apply box_clear|].
  split; [exact box_deep|]. split; [exact box_once|]. split; [discriminate|]. split; [exact box_eight|].
  assert (X : match build_brush (f32_num squared) textures (world []) box6 with Ok h => index_total h = 36%nat | _ => True end) by (vm_compute; reflexivity).
  rewrite E in X. exact X.
Qed.
