(** A box turned inside out, to try C138 on. *)
From Coq Require Import Reals Lra Lia ZArith.
From Verif Require Import Prelude F32 Text MapModel GeoModel SceneModel RealSpec SolidSpec ErrorSpec InverseSpec
  BoxSpec Witness GeoWitness ErrorProofs ErrorFinal ErrorWitness CornerWitness TriangleWitness KeptWitness WoundWitness PointsWitness CoverWitness SeamWitness InverseProofs.
Local Open Scope R_scope.

Lemma tri_buried : forall a b c x d n, on_grid a -> on_grid b -> on_grid c -> (0 <= d)%Z -> (0 <= n)%Z ->
  (zinner (zfacing a b c) (zfacing a b c) <= n * n)%Z -> (zinner (zfacing a b c) (zminus x a) <= - d * n)%Z ->
  inner (facing (plane_of (tri a b c))) (minus (reals x) (bp_v0 (plane_of (tri a b c)))) <= - IZR d * norm (facing (plane_of (tri a b c))).
Proof.
  intros a b c x d n A B C D N Hn H. rewrite tri_facing by assumption. cbn [plane_of bp_v0 tri wall_at]. destruct (point_fvz a A) as [_ ->].
  rewrite minus_reals, inner_reals. pose proof (norm_reals (zfacing a b c) n N Hn) as K. apply IZR_le in H, D. rewrite mult_IZR, opp_IZR in H.
  assert (IZR d * norm (reals (zfacing a b c)) <= IZR d * IZR n) by (apply Rmult_le_compat_l; assumption). lra.
Qed.
Lemma box_buried : buried (map plane_of box6) 16 heart.
Proof.
  intros q Iq. apply in_map_iff in Iq. destruct Iq as (q' & <- & Iq). apply in_box6 in Iq. destruct Iq as (d & ->). unfold heart. change 16 with (IZR 16).
  destruct d; cbn [plane_at]; sides; apply (tri_buried _ _ _ _ 16 64); [grid|grid|grid|lia|lia|znum..].
Qed.
Lemma box_ball : inside_ball (map plane_of box6) heart 29.
Proof.
  intros x S. assert (W : forall d, RealSpec.within 0 (plane_of (plane_at d)) x) by (intros d; apply S, in_map, box6_in).
  pose proof (W East) as H1. pose proof (W West) as H2. pose proof (W North) as H3. pose proof (W South) as H4. pose proof (W Top) as H5. pose proof (W Bottom) as H6. clear W S.
  cbn [plane_at] in *. sides. equations. apply Rle_lt_trans with (7 / 4 * 16); [|lra]. apply norm_cube; unfold heart, reals, minus; cbn [vx vy vz]; apply Rabs_le; lra.
Qed.
Theorem box_inverse : bounded (solid (map plane_of box6)) /\ / 1000 < 16 /\ (forall q, In q box6 -> grid_plane q) /\ (Z.of_nat (length box6) <= 4000)%Z /\ buried (map plane_of box6) 16 heart /\ inside_ball (map plane_of box6) heart 29
  /\ 29 <= 2 ^ 20 * 16 /\ (forall q, In q box6 -> 10001 / 10000000 + / 2 ^ 20 * (norm heart + norm (point_of (bp_v0 q))) < 16) /\ length box6 = 6%nat.
Proof.
  split; [exact box_bounded|]. split; [lra|]. split; [exact crate_grid|]. split; [vm_compute; discriminate|]. split; [exact box_buried|]. split; [exact box_ball|]. split; [lra|]. split; [|reflexivity].
  intros q I. destruct (crate_grid q I) as (G & _). destruct (ErrorFinal.grid_below _ G) as (_ & _ & N). 
  assert (H : norm heart <= 7 / 4 * 16) by (unfold heart, reals; cbn [vx vy vz]; apply norm_cube; cbn [vx vy vz]; apply Rabs_le; lra). lra.
Qed.
