(** Brushes turned inside out: proofs of C138. *)
From Coq Require Import Reals Lra Lia.
From Verif Require ExactProofs.
From Verif Require Import Prelude F32 Text MapModel GeoModel SceneModel NumberSpec GatherSpec GeoSpec RealSpec SolidSpec ErrorSpec InverseSpec
  BaseProofs GatherProofs GeoProofs RealProofs SolidProofs ErrorProofs ErrorFinal.
Local Open Scope R_scope.

(** ** Nothing meets: nothing is built *)
Section Blank.
Context {T : Type} (O : num T).
Context (zero_sum : n_add O (n_zero O) (n_zero O) = n_zero O) (k : nat) (zero_part : forall n, (n <= k)%nat -> n_div O (n_zero O) (n_of_N O (N.of_nat (Nat.max n 1))) = n_zero O).
Lemma mean_zeros : forall l, (length l <= k)%nat -> Forall (fun c => c = V3 (n_zero O) (n_zero O) (n_zero O)) l -> mean O l = V3 (n_zero O) (n_zero O) (n_zero O).
Proof.
  intros l K F. unfold mean. assert (E : fold_left (v3_add O) l (v3_zero O) = v3_zero O).
  { clear zero_part K. induction F as [|c l -> F IH]; [reflexivity|]. cbn [fold_left]. replace (v3_add O (v3_zero O) (V3 (n_zero O) (n_zero O) (n_zero O))) with (v3_zero O); [exact IH|].
    unfold v3_add, v3_zero. cbn [vx vy vz]. now rewrite zero_sum. }
  rewrite E. unfold v3_divs, v3_zero. cbn [vx vy vz]. now rewrite zero_part by exact K.
Qed.
Lemma blank_plane : forall tx e planes plane, (forall p1 p2 x, In p1 planes -> In p2 planes -> intersect_planes O plane p1 p2 = Some x -> vertex_in_hull O x planes = false) ->
  exists f, build_face O tx e planes plane = Ok f /\ blank_face (n_zero O) f.
Proof.
  intros tx e planes plane H.
  assert (V : plane_vertices O (hget tx (bp_texture plane)) e planes plane = Ok []).
  { unfold plane_vertices.
    assert (M : forall l, incl l (list_prod planes planes) -> exists os, mapM (fun pq => build_plane_vertex O (hget tx (bp_texture plane)) e planes plane (fst pq) (snd pq)) l = Ok os /\ filter_map (fun o => o) os = []).
    { induction l as [|[p1 p2] l IH]; intros I; [exists []; auto|]. destruct IH as (os & E & F); [intros z Hz; apply I; now right|].
      exists (None :: os). split; [|exact F]. cbn [mapM fst snd]. rewrite E.
      assert (N : build_plane_vertex O (hget tx (bp_texture plane)) e planes plane p1 p2 = Ok None).
      { unfold build_plane_vertex. destruct (intersect_planes O plane p1 p2) as [x|] eqn:X; [|reflexivity]. pose proof (I (p1, p2) (or_introl eq_refl)) as J. apply in_prod_iff in J. rewrite (H p1 p2 x); tauto. }
      rewrite N. reflexivity. }
    destruct (M _ (incl_refl _)) as (os & -> & F). cbn [bind]. now rewrite F. }
  unfold build_face. rewrite V. cbn [bind unique_vertices map]. eexists. split; [reflexivity|]. split; [reflexivity|]. split; [reflexivity|]. cbn [f_center]. apply mean_zeros; [cbn; lia|constructor].
Qed.
Lemma blank_all : forall tx e planes, (length planes <= k)%nat -> (forall plane p1 p2 x, In plane planes -> In p1 planes -> In p2 planes -> intersect_planes O plane p1 p2 = Some x -> vertex_in_hull O x planes = false) ->
  exists b, build_brush O tx e planes = Ok b /\ blank_brush (n_zero O) planes b.
Proof.
  intros tx e planes K H. unfold build_brush. destruct (BaseProofs.mapM_total _ _ (build_face O tx e planes) planes) as (fs & E).
  { intros q I. destruct (blank_plane tx e planes q) as (f & E & _); [intros p1 p2 x; now apply H|]. eauto. }
  rewrite E. cbn [bind]. eexists. split; [reflexivity|]. apply mapM_ok in E. unfold blank_brush. cbn [bg_faces bg_center].
  assert (F : Forall (blank_face (n_zero O)) fs).
  { apply Forall_forall. intros f I. destruct (Forall2_in_r _ _ _ _ _ _ E I) as (q & J & Eq). destruct (blank_plane tx e planes q) as (f' & E' & B); [intros p1 p2 x; now apply H|]. congruence. }
  split; [symmetry; now apply Forall2_length in E|]. split; [exact F|]. apply mean_zeros; [apply Forall2_length in E; rewrite map_length, <- E; exact K|]. apply Forall_forall. intros c I. apply in_map_iff in I. destruct I as (f & <- & I).
  rewrite Forall_forall in F. apply (F f I).
Qed.
End Blank.

(** ** Exactly *)
Lemma facing_reversed : forall pl, facing (reversed pl) = vscale (-1) (facing pl).
Proof. intros pl. unfold facing, reversed, vscale, outer, minus. cbn [bp_v0 bp_v1 bp_v2 vx vy vz]. f_equal; ring. Qed.
Lemma norm_reversed : forall pl, norm (facing (reversed pl)) = norm (facing pl).
Proof. intros pl. rewrite facing_reversed, norm_scale. rewrite Rabs_left by lra. ring. Qed.
Lemma inner_scale_l : forall k a b, inner (vscale k a) b = k * inner a b.
Proof. intros k a b. unfold inner, vscale. cbn [vx vy vz]. ring. Qed.

(** What lies behind every reversed plane is seen from a buried point in a direction that never leaves the solid. *)
Lemma ray_back : forall planes d o v s, buried planes d o -> 0 <= s ->
  (forall q, In q planes -> s * (- inner (facing q) (minus v o)) <= d * norm (facing q)) -> solid planes (moved o (minus v o) (- s)).
Proof.
  intros planes d o v s B S H. apply solid_slack. intros q I. rewrite slack_moved. unfold slack, rate. specialize (B q I). specialize (H q I). lra.
Qed.
Lemma moved_norm : forall o w t, norm (minus (moved o w t) o) = Rabs t * norm w.
Proof.
  intros o w t. rewrite <- norm_scale. f_equal. unfold minus, moved, vscale. cbn [vx vy vz]. f_equal; ring.
Qed.
Lemma inner_between : forall F v o c, inner F (minus v o) = inner F (minus v c) - inner F (minus o c).
Proof. intros. unfold inner, minus. cbn [vx vy vz]. ring. Qed.

Section Exact.
Context (parse : str -> option R) (cosine radians : R -> R) (atan2 : R -> R -> R) (quat : vec3 R -> R -> vec3 R -> vec3 R) (mat2 : R -> vec2 R -> vec2 R).
Local Notation O := (real_num parse cosine radians atan2 quat mat2).

Theorem inverse_exact : forall tx e planes o d, bounded (solid planes) -> buried planes d o -> / 1000 < d ->
  exists b, build_brush O tx e (map reversed planes) = Ok b /\ blank_brush 0 (map reversed planes) b.
Proof.
  intros tx e planes o d (m & Bd) Bu Hd.
  apply (blank_all O) with (k := length (map reversed planes)); [cbn; ring|intros n _; cbn; unfold Rdiv; ring|apply le_n|].
  intros plane' p1 p2 x I' I1 I2 X. apply in_map_iff in I'. destruct I' as (plane & <- & I). destruct (vertex_in_hull O x (map reversed planes)) eqn:Hh; [|reflexivity]. exfalso.
  apply hull_iff in Hh. pose proof (proj1 (inside_iff parse cosine radians atan2 quat mat2 _ _) Hh) as Hw. clear Hh. rename Hw into Hh. apply (intersect_iff parse cosine radians atan2 quat mat2) in X. destruct X as (Pr & _).
    assert (H : forall q, In q planes -> (d - / 1000) * norm (facing q) <= inner (facing q) (minus x o)).
    { intros q J. pose proof (Hh (reversed q) (in_map _ _ _ J)) as W. unfold within in W. rewrite norm_reversed, facing_reversed, inner_scale_l in W. cbn [reversed bp_v0] in W. specialize (Bu q J).
      rewrite (inner_between _ x o (bp_v0 q)). lra. }
    assert (N : 0 < norm (facing plane)) by (unfold proper in Pr; rewrite norm_reversed in Pr; pose proof (norm_pos (facing plane)); lra).
    assert (L : 0 < norm (minus x o)).
    { pose proof (H plane I) as Hp. pose proof (cauchy (facing plane) (minus x o)) as C. pose proof (norm_pos (minus x o)) as P. destruct (Rle_lt_or_eq_dec _ _ P) as [Q|Q]; [exact Q|].
      rewrite <- Q, Rmult_0_r in C. assert (0 < (d - / 1000) * norm (facing plane)) by (apply Rmult_lt_0_compat; lra). lra. }
    assert (Ray : forall s, 0 <= s -> solid planes (moved o (minus x o) (- s))).
    { intros s S. apply (ray_back planes d); [exact Bu|exact S|]. intros q J. specialize (H q J). pose proof (norm_pos (facing q)) as P.
      assert (0 <= (d - / 1000) * norm (facing q)) by (apply Rmult_le_pos; lra). assert (0 <= s * inner (facing q) (minus x o)) by (apply Rmult_le_pos; lra).
      assert (0 <= d * norm (facing q)) by (apply Rmult_le_pos; lra). lra. }
    set (s := (2 * (Rabs m + norm o) + 1) / norm (minus x o)).
    assert (S : 0 <= s) by (unfold s; apply Rmult_le_pos; [pose proof (Rabs_pos m); pose proof (norm_pos o); lra|left; now apply Rinv_0_lt_compat]).
    destruct (Bd _ (Ray s S)) as (X & Y & Z). set (y := moved o (minus x o) (- s)) in *.
    assert (Ny : norm y <= 7 / 4 * Rabs m).
    { apply norm_cube; eapply Rle_trans; try eassumption; apply RRle_abs. }
    pose proof (moved_norm o (minus x o) (- s)) as Mn. fold y in Mn. rewrite Rabs_Ropp, Rabs_pos_eq in Mn by exact S.
    assert (Ms : s * norm (minus x o) = 2 * (Rabs m + norm o) + 1) by (unfold s; field; lra).
    assert (Tr : norm (minus y o) <= norm y + norm o).
    { replace (minus y o) with (vplus y (vscale (-1) o)) by (unfold minus, vplus, vscale; cbn [vx vy vz]; f_equal; ring). eapply Rle_trans; [apply norm_triangle|]. rewrite norm_scale, Rabs_left by lra. lra. }
    pose proof (Rabs_pos m). pose proof (norm_pos o). lra.
Qed.
End Exact.

(** ** In single precision *)
Section Floats.
Context (p : platform).
Local Notation O := (f32_num p).

Lemma zero_over : forall n, (Z.of_nat n <= 4000)%Z -> f32_div f32_zero (f32_of_N (N.of_nat (Nat.max n 1))) = f32_zero.
Proof.
  intros n H. destruct (ExactProofs.int_of_N (N.of_nat (Nat.max n 1))) as [[_ F] V]; [change (2 ^ 24)%N with 16777216%N; lia|].
  assert (P : 1 <= val (f32_of_N (N.of_nat (Nat.max n 1)))) by (rewrite V; apply IZR_le; lia).
  destruct (f32_of_N (N.of_nat (Nat.max n 1))) as [s|s| |s m e]; try discriminate F.
  - exfalso. unfold val in P. cbn in P. lra.
  - destruct s; [|reflexivity]. exfalso. pose proof (Flocq.Core.Float_prop.F2R_lt_0 Flocq.Core.Zaux.radix2 (Flocq.Core.Defs.Float Flocq.Core.Zaux.radix2 (Z.neg m) e) eq_refl) as K. unfold val in P. cbn in P, K. lra.
Qed.
Lemma plane_reversed : forall pl, facing (plane_of (reversed pl)) = vscale (-1) (facing (plane_of pl)).
Proof. intros pl. rewrite <- facing_reversed. reflexivity. Qed.
Lemma grid_reversed : forall pl, grid_plane pl -> grid_plane (reversed pl).
Proof.
  intros pl (G0 & G1 & G2 & Pr & m & n & E1 & E2 & Mn). split; [exact G0|]. split; [exact G2|]. split; [exact G1|]. split.
  - unfold proper in *. rewrite plane_reversed, norm_scale, Rabs_left by lra. replace (- (-1) * norm (facing (plane_of pl))) with (norm (facing (plane_of pl))) by ring. exact Pr.
  - exists n, m. split; [exact E2|]. split; [exact E1|]. lia.
Qed.
Lemma normal_reversed : forall pl, unit_along (facing (plane_of (reversed pl))) = vscale (-1) (unit_along (facing (plane_of pl))).
Proof.
  intros pl. rewrite plane_reversed. unfold unit_along. rewrite norm_scale, Rabs_left by lra. replace (- (-1) * norm (facing (plane_of pl))) with (norm (facing (plane_of pl))) by ring.
  unfold vscale. cbn [vx vy vz]. f_equal; ring.
Qed.

Theorem inverse_floats : forall tx e planes o d r, (forall q, In q planes -> grid_plane q) -> (Z.of_nat (length planes) <= 4000)%Z -> buried (map plane_of planes) d o -> inside_ball (map plane_of planes) o r ->
  r <= 2 ^ 20 * d -> (forall q, In q planes -> 10001 / 10000000 + / 2 ^ 20 * (norm o + norm (point_of (bp_v0 q))) < d) ->
  exists b, build_brush O tx e (map reversed planes) = Ok b /\ blank_brush f32_zero (map reversed planes) b.
Proof.
  intros tx e planes o d r G Len Bu Ba Hr Hd.
  apply (blank_all O eq_refl 4000); [intros n Hn; cbn [n_div n_zero n_of_N f32_num]; apply zero_over; lia|rewrite map_length; lia|].
  intros plane p1 p2 x I I1 I2 X. destruct (vertex_in_hull O x (map reversed planes)) eqn:Hh; [|reflexivity]. exfalso.
  apply in_map_iff in I, I1, I2. destruct I as (q0 & <- & J0). destruct I1 as (q1 & <- & J1). destruct I2 as (q2 & <- & J2).
  destruct (meet_size p _ _ _ _ (grid_reversed _ (G _ J0)) (grid_reversed _ (G _ J1)) (grid_reversed _ (G _ J2)) X) as (_ & Fx & Nx). 
  assert (Bx : below B50 (point_of x)).
  { destruct (coord_norm (point_of x)) as (A & B & C). unfold corner_bound in Nx. unfold below, B50. lra. }
  apply hull_iff in Hh. unfold inside in Hh. set (v := point_of x) in *.
  assert (Dp : 0 < d) by (specialize (Hd q0 J0); pose proof (norm_pos o); pose proof (norm_pos (point_of (bp_v0 q0))); assert (0 < / 2 ^ 20) by (apply Rinv_0_lt_compat; lra);
    assert (0 <= / 2 ^ 20 * (norm o + norm (point_of (bp_v0 q0)))) by (apply Rmult_le_pos; lra); lra).
  assert (H : forall q, In q planes -> - (norm (minus v o) / 2 ^ 20) < inner (unit_along (facing (plane_of q))) (minus v o)).
  { intros q J. pose proof (Hh (reversed q) (in_map _ _ _ J)) as Bq. destruct (hull_test p (reversed q) x (grid_reversed _ (G q J)) Fx Bx) as [T _]. cbn zeta in T. specialize (T Bq). clear Bq.
    rewrite normal_reversed, inner_scale_l in T. cbn [reversed bp_v0] in T. fold v in T. specialize (Hd q J).
    assert (W : inner (unit_along (facing (plane_of q))) (minus o (point_of (bp_v0 q))) <= - d).
    { apply (within_on q (- d) o (G q J)). unfold within. exact (Bu (plane_of q) (in_map _ _ _ J)). }
    rewrite (inner_between _ v o (point_of (bp_v0 q))).
    assert (Nv : norm v <= norm o + norm (minus v o)).
    { apply minus_norm. }
    pose proof eta_small as HE. pose proof (norm_pos o). pose proof (norm_pos (point_of (bp_v0 q))). pose proof (norm_pos (minus v o)). lra. }
  assert (L : 0 < norm (minus v o)).
  { pose proof (norm_pos (minus v o)) as P. destruct (Rle_lt_or_eq_dec _ _ P) as [Q|Q]; [exact Q|]. exfalso. specialize (H q0 J0). rewrite <- Q in H.
    assert (Z : inner (unit_along (facing (plane_of q0))) (minus v o) <= 0).
    { eapply Rle_trans; [apply cauchy|]. rewrite <- Q. lra. }
    unfold Rdiv in H. rewrite Rmult_0_l in H. lra. }
  set (s := 2 ^ 20 * d / norm (minus v o)).
  assert (S : 0 <= s) by (unfold s; apply Rmult_le_pos; [apply Rmult_le_pos; lra|left; now apply Rinv_0_lt_compat]).
  assert (So : solid (map plane_of planes) (moved o (minus v o) (- s))).
  { apply (ray_back _ d); [exact Bu|exact S|]. intros q I. apply in_map_iff in I. destruct I as (q' & <- & J). specialize (H q' J).
    assert (N : 0 < norm (facing (plane_of q'))) by (destruct (G q' J) as (_ & _ & _ & Pr & _); unfold proper in Pr; pose proof (norm_pos (facing (plane_of q'))); lra).
    assert (E : inner (facing (plane_of q')) (minus v o) = norm (facing (plane_of q')) * inner (unit_along (facing (plane_of q'))) (minus v o)).
    { unfold unit_along. rewrite inner_scale_l. field. lra. }
    rewrite E. assert (K : s * - inner (unit_along (facing (plane_of q'))) (minus v o) <= d).
    { apply Rle_trans with (s * (norm (minus v o) / 2 ^ 20)); [apply Rmult_le_compat_l; lra|]. right. unfold s. field. lra. }
    replace (s * - (norm (facing (plane_of q')) * inner (unit_along (facing (plane_of q'))) (minus v o))) with ((s * - inner (unit_along (facing (plane_of q'))) (minus v o)) * norm (facing (plane_of q'))) by ring.
    apply Rmult_le_compat_r; lra. }
  specialize (Ba _ So). rewrite moved_norm, Rabs_Ropp, Rabs_pos_eq in Ba by exact S.
  assert (E : s * norm (minus v o) = 2 ^ 20 * d) by (unfold s; field; lra). lra.
Qed.
End Floats.

(** Collision shapes of such brushes. *)
Lemma blank_shape : forall T (O : num T) (zero : T) planes b g, blank_brush zero planes b -> In b (eg_brushes g) ->
  exists shapes, convex_collision O g = ColConvex shapes /\ In (Convex (V3 zero zero zero) []) shapes.
Proof.
  intros T O zero planes b g (_ & F & C) I. eexists. split; [reflexivity|]. apply in_map_iff. exists b. split; [|exact I]. rewrite C. f_equal.
  assert (E : flat_map (fun f => map vt_pos (f_vertices f)) (bg_faces b) = []) by (clear - F; induction F as [|f l (V & _) F IH]; [reflexivity|]; cbn [flat_map]; now rewrite V, IH).
  now rewrite E.
Qed.
