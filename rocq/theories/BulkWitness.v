(** A box to try C134 on. *)
From Coq Require Import Reals Lra Lia ZArith.
From Verif Require Import Prelude F32 Text MapModel GeoModel Witness RealSpec WindSpec ErrorSpec CornerSpec SolidSpec WoundSpec SharedSpec CoverSpec EdgeSpec SeamSpec ShellSpec BulkSpec
  BoxSpec ErrorProofs ErrorFinal ErrorWitness CornerWitness TriangleWitness KeptWitness GeoWitness WoundWitness CoverWitness SeamWitness BulkProofs.
From Verif Require BaseProofs RealProofs WindWitness ShellProofs.
Local Open Scope R_scope.

Definition rim (d : dir) : list (vec3 Z) := match d with East | South | Top => rev (around d) | West | North | Bottom => around d end.
Lemma rim_true : forall d x, In x (map reals (rim d)) <-> true_corner box6 (plane_at d) x.
Proof. intros d x. rewrite <- around_true, !in_map_iff. assert (A : forall k, In k (rim d) <-> In k (around d)) by (intros k; destruct d; [symmetry; apply in_rev|reflexivity|reflexivity|symmetry; apply in_rev|symmetry; apply in_rev|reflexivity]).
  split; intros (k & E & I); exists k; (split; [exact E|]); now apply A. Qed.
Lemma rim_outline : forall d, outline box6 (plane_at d) (map reals (rim d)).
Proof.
  intros d. split; [|split; [apply rim_true|]].
  - apply FinFun.Injective_map_NoDup.
    + intros [k1 k2 k3] [l1 l2 l3] H. unfold reals in H. cbn [vx vy vz] in H. injection H as A B C. apply eq_IZR in A, B, C. congruence.
    + destruct d; repeat (constructor; [cbn [In rim rev app around]; intros H; repeat destruct H as [H|H]; try contradiction; vm_compute in H; discriminate H|]); constructor.
  - intros i j k a b c L1 L2 A B C. rewrite nth_error_map in A, B, C.
    destruct (nth_error (rim d) i) as [x|] eqn:X; [|discriminate A]. destruct (nth_error (rim d) j) as [y|] eqn:Y; [|discriminate B]. destruct (nth_error (rim d) k) as [z|] eqn:Z; [|discriminate C].
    cbn [option_map] in A, B, C. injection A as <-. injection B as <-. injection C as <-. unfold clockwise. rewrite ahead_facing, !minus_reals, outer_reals, inner_reals. apply (IZR_lt _ 0).
    assert (Lk : (k < 4)%nat) by (replace 4%nat with (length (rim d)) by (destruct d; reflexivity); apply nth_error_Some; congruence).
    destruct k as [|[|[|[|k]]]]; [lia|lia| | |lia]; (destruct j as [|[|[|j]]]; [lia| | |lia]); (destruct i as [|[|i]]; [| |lia]); try lia;
      destruct d; injection X as <-; injection Y as <-; injection Z as <-; vm_compute; reflexivity.
Qed.
Lemma box_rims : Forall2 (outline box6) box6 (map (fun d => map reals (rim d)) dirs).
Proof. rewrite box6_dirs at 2. generalize dirs. intros l. induction l as [|d l IH]; [constructor|]. cbn [map]. constructor; [apply rim_outline|exact IH]. Qed.
Lemma box_corner : forall pl x, In pl box6 -> true_corner box6 pl x -> exists k, In k eight /\ x = reals k.
Proof. intros pl x I T. assert (In x (map reals eight)) as J by (apply box_eight; eauto). apply in_map_iff in J. destruct J as (k & <- & J). eauto. Qed.
Lemma box_farthest : farthest box6 heart 28.
Proof.
  intros pl x I T. destruct (box_corner pl x I T) as (k & J & ->). unfold heart. rewrite minus_reals. apply norm_reals; [lia|].
  assert (B : forallb (fun k => (zinner (zminus k (V3 0 8 16)) (zminus k (V3 0 8 16)) <=? 28 * 28)%Z) eight = true) by (vm_compute; reflexivity).
  rewrite forallb_forall in B. specialize (B k J). now apply Z.leb_le in B.
Qed.
Lemma box_across : across box6 56.
Proof.
  intros pl x y I T T'. destruct (box_corner pl x I T) as (k & J & ->). destruct (box_corner pl y I T') as (l & J' & ->). rewrite minus_reals. apply norm_reals; [lia|].
  assert (B : forallb (fun k => forallb (fun l => (zinner (zminus k l) (zminus k l) <=? 56 * 56)%Z) eight) eight = true) by (vm_compute; reflexivity).
  rewrite forallb_forall in B. specialize (B k J). cbv beta in B. rewrite forallb_forall in B. specialize (B l J'). now apply Z.leb_le in B.
Qed.
Theorem box_bulk : exists g, build_brush (f32_num squared) textures (world []) box6 = Ok g /\ (forall q, In q box6 -> grid_plane q) /\ (Z.of_nat (length box6) <= 4000)%Z
  /\ (forall pl, In pl box6 -> good_side squared box6 pl haze) /\ deep (map plane_of box6) heart /\ no_repeats (map plane_of box6) /\ box6 <> []
  /\ farthest box6 heart 28 /\ across box6 56 /\ length (drawn32 (bg_faces g)) = 12%nat /\ true_volume box6 (32 * 32 * 32).
Proof.
  destruct box_seams as (g & E & G & L & H & D & N & Ne & _). exists g. assert (H' : forall pl, In pl box6 -> good_side squared box6 pl haze) by (intros pl I; now apply H).
  split; [exact E|]. split; [exact G|]. split; [exact L|]. split; [exact H'|]. split; [exact D|]. split; [exact N|]. split; [exact Ne|].
  split; [exact box_farthest|]. split; [exact box_across|]. split.
  - assert (X : match build_brush (f32_num squared) textures (world []) box6 with Ok h => map (fun f => length (triples (f_indices f))) (bg_faces h) = repeat 2%nat 6 | _ => True end) by (vm_compute; reflexivity).
    rewrite E in X. unfold drawn32, drawn_triangles. transitivity (fold_right Nat.add 0%nat (map (fun f => length (triples (f_indices f))) (bg_faces g))); [|now rewrite X].
    clear. induction (bg_faces g) as [|f l IH]; [reflexivity|]. cbn [flat_map map fold_right]. rewrite app_length, IH, ShellProofs.triples_map, map_length. reflexivity.
  - destruct (volume squared textures (world []) box6 g haze E G L H' heart D N Ne) as (v & _ & (Ex & Tv) & _). split; [exact Ex|]. intros rings F c. rewrite (Tv rings F c).
    rewrite <- (Tv _ box_rims (V3 0 0 0)). cbn [dirs map flat_map rim around rev app cut cut_from sum_numbers fold_right]. unfold six_volumes, inner, outer, minus. cbn [reals corner place vx vy vz Z.add Z.opp Pos.add Pos.succ Z.pos_sub]. lra.
Qed.
Theorem box_exact : forall parse cosine radians quat mat2 tx e, exists b', build_brush (real_num parse cosine radians WindWitness.real_atan2 quat mat2) tx e (map plane_of box6) = Ok b'
  /\ polar_angle WindWitness.real_atan2 /\ (forall pl, In pl box6 -> clear box6 pl) /\ true_volume box6 (32 * 32 * 32).
Proof.
  intros parse cosine radians quat mat2 tx e. set (O := real_num parse cosine radians WindWitness.real_atan2 quat mat2).
  assert (B : exists b, build_brush O tx e (map plane_of box6) = Ok b).
  { unfold build_brush. destruct (BaseProofs.mapM_total _ _ (build_face O tx e (map plane_of box6)) (map plane_of box6) (fun q _ => RealProofs.real_total _ _ _ _ _ _ tx e (map plane_of box6) q)) as (fs & ->). eexists. reflexivity. }
  destruct B as (b' & B). exists b'. split; [exact B|]. split; [apply WindWitness.real_polar|].
  split; [intros pl I; apply in_box6 in I; destruct I as (d & ->); apply box_clear|]. destruct box_bulk as (g & X). apply X.
Qed.
