(** Rays from inside a brush: proofs of C129. *)
From Coq Require Import Reals Lra Psatz Lia.
From Verif Require Import Prelude F32 Text MapModel GeoModel GeoSpec RealSpec WindSpec SolidSpec EdgeSpec RaySpec
  BaseProofs GeoProofs RealProofs WindProofs SolidProofs TouchProofs EdgeProofs NeighbourProofs EulerProofs.
Local Open Scope R_scope.

Lemma onwards_moved : forall o w t, onwards o w t = moved o w t.
Proof. reflexivity. Qed.
Lemma towards_moved : forall o y s, towards o y s = moved o (minus y o) s.
Proof. intros. unfold towards, moved. vectors. reflexivity. Qed.

Section Brush.
Context (parse : str -> option R) (cosine radians : R -> R) (atan2 : R -> R -> R)
  (quat : vec3 R -> R -> vec3 R -> vec3 R) (mat2 : R -> vec2 R -> vec2 R).
Local Notation O := (real_num parse cosine radians atan2 quat mat2).
Context (tx : texture_info) (e : entity R) (planes : list (brush_plane R)) (b : brush_geo R) (o : vec3 R).
Context (Eb : build_brush O tx e planes = Ok b) (An : polar_angle atan2)
  (H : forall plane f, In plane planes -> In f (bg_faces b) -> build_face O tx e planes plane = Ok f -> proper plane /\ crisp planes f /\ sharp planes plane)
  (Bd : bounded (solid planes)) (Dp : deep planes o).
Lemma built : Forall2 (fun P f => build_face O tx e planes P = Ok f) planes (bg_faces b).
Proof. exact (faces_of _ _ _ _ _ _ _ _ _ _ Eb H). Qed.
Lemma mesh_surface : forall x, on_mesh b x <-> surface_of planes x.
Proof. intros x. symmetry. apply (touching_surface _ _ _ _ _ _ _ _ _ _ Eb An H Bd). exists o. exact Dp. Qed.
Lemma deep_slack : forall q, In q planes -> 0 < slack q o.
Proof. intros q I. pose proof (Dp q I). unfold slack. lra. Qed.
Lemma deep_solid : solid planes o.
Proof. apply solid_slack. intros q I. left. now apply deep_slack. Qed.

Lemma leaves : forall w, w <> V3 0 0 0 -> exists t, 0 < t /\ surface_of planes (moved o w t) /\ (forall u, 0 < u -> surface_of planes (moved o w u) -> u = t)
  /\ forall u, 0 <= u -> (solid planes (moved o w u) <-> u <= t).
Proof.
  intros w N. destruct (travel planes o w deep_solid) as [A|(t & Q & T & IQ & Rq & Eq & Al)].
  - exfalso. destruct Bd as (m & B). assert (S : forall t, 0 <= t -> solid planes (moved o w t)).
    { intros t T. apply solid_slack. intros q I. rewrite slack_moved. pose proof (A q I). pose proof (deep_slack q I). nra. }
    assert (Far : forall a c, (forall t, 0 <= t -> Rabs (a + t * c) <= m) -> c = 0).
    { intros a c F. destruct (Req_dec c 0) as [Z|Z]; [exact Z|exfalso]. pose proof (F 0 ltac:(lra)) as F0. rewrite Rmult_0_l, Rplus_0_r in F0. pose proof (Rabs_pos a) as Pa.
      pose proof (Rabs_pos_lt c Z) as Pc. pose proof (F ((2 * m + 1) / Rabs c) ltac:(apply Rlt_le, Rdiv_lt_0_compat; lra)) as F1.
      pose proof (Rabs_triang_inv ((2 * m + 1) / Rabs c * c) (- a)) as T. rewrite Rabs_Ropp in T. replace ((2 * m + 1) / Rabs c * c - - a) with (a + (2 * m + 1) / Rabs c * c) in T by ring.
      rewrite Rabs_mult in T. unfold Rdiv in T. rewrite Rabs_mult, Rabs_inv, Rabs_Rabsolu, (Rabs_right (2 * m + 1)), Rmult_assoc, Rinv_l in T by lra. unfold Rdiv in F1. lra. }
    apply N. apply v3_ext; cbn [vx vy vz].
    + apply (Far (vx o)). intros t T. apply (B _ (S t T)).
    + apply (Far (vy o)). intros t T. apply (B _ (S t T)).
    + apply (Far (vz o)). intros t T. apply (B _ (S t T)).
  - pose proof (deep_slack Q IQ) as PQ. assert (Tp : 0 < t) by (destruct T as [T|<-]; [exact T|lra]).
    assert (So : solid planes (moved o w t)) by (apply solid_slack; intros q I; rewrite slack_moved; pose proof (Al q I); lra).
    assert (Upto : forall u, 0 <= u -> (solid planes (moved o w u) <-> u <= t)).
    { intros u U. rewrite solid_slack. split.
      - intros S. pose proof (S Q IQ) as X. rewrite slack_moved in X. nra.
      - intros L q I. rewrite slack_moved. pose proof (Al q I). pose proof (deep_slack q I). destruct (Rle_lt_dec (rate q w) 0); nra. }
    exists t. split; [exact Tp|]. split; [split; [exact So|exists Q; split; [exact IQ|apply slack_on; rewrite slack_moved; lra]]|]. split; [|exact Upto].
    intros u U (Su & Q' & IQ' & OQ'). apply Upto in Su; [|lra]. apply slack_on in OQ'. rewrite slack_moved in OQ'. pose proof (Al Q' IQ') as X. pose proof (deep_slack Q' IQ') as P'. nra.
Qed.
Theorem ray_leaves : forall w, w <> V3 0 0 0 -> exists t, 0 < t /\ on_mesh b (onwards o w t) /\ forall u, 0 < u -> on_mesh b (onwards o w u) -> u = t.
Proof.
  intros w N. destruct (leaves w N) as (t & T & S & U & _). exists t. split; [exact T|]. rewrite onwards_moved. split; [now apply mesh_surface|].
  intros u Pu Su. rewrite onwards_moved in Su. apply U; [exact Pu|now apply mesh_surface].
Qed.
Theorem solid_tiled : forall x, solid planes x <-> exists f i p q r y s, In f (bg_faces b) /\ triangle f i p q r /\ in_triangle p q r y /\ 0 <= s <= 1 /\ x = towards o y s.
Proof.
  intros x. split.
  - intros S. destruct (v3_dec x o) as [->|N].
    + destruct (leaves (V3 1 0 0)) as (t & T & Su & _); [intros Z; injection Z; lra|]. apply mesh_surface in Su. destruct Su as (f & i & p & q & r & If & Tr & I).
      exists f, i, p, q, r, (moved o (V3 1 0 0) t), 0. repeat (split; [assumption|]). split; [lra|]. unfold towards. apply v3_ext; cbn [vx vy vz]; ring.
    + destruct (leaves (minus x o)) as (t & T & Su & _ & Up); [intros Z; apply N; now apply minus_null|]. apply mesh_surface in Su. destruct Su as (f & i & p & q & r & If & Tr & I).
      assert (L : 1 <= t) by (apply Up; [lra|]; replace (moved o (minus x o) 1) with x by (unfold moved; vectors; apply v3_ext; cbn [vx vy vz]; ring); exact S).
      exists f, i, p, q, r, (moved o (minus x o) t), (/ t). repeat (split; [assumption|]). split.
      * split; [left; now apply Rinv_0_lt_compat|]. rewrite <- Rinv_1. apply Rinv_le_contravar; lra.
      * unfold towards, moved. vectors. apply v3_ext; cbn [vx vy vz]; field; lra.
  - intros (f & i & p & q & r & y & s & If & Tr & I & Ss & ->). assert (Sy : surface_of planes y) by (apply mesh_surface; exists f, i, p, q, r; auto). destruct Sy as (Sy & _).
    apply solid_slack. intros a Ia. rewrite towards_moved, slack_moved. pose proof (deep_slack a Ia) as D. rewrite solid_slack in Sy. pose proof (Sy a Ia) as Y.
    assert (E : rate a (minus y o) = slack a o - slack a y) by (unfold rate, slack; generalize (facing a); intros; vectors; ring). rewrite E. nra.
Qed.
Theorem tiles_disjoint : no_repeats planes -> forall i j f g k l p q r p' q' r' y y' s s', nth_error (bg_faces b) i = Some f -> nth_error (bg_faces b) j = Some g ->
  triangle f k p q r -> triangle g l p' q' r' -> inside_triangle p q r y -> in_triangle p' q' r' y' -> 0 < s -> 0 <= s' -> towards o y s = towards o y' s' -> i = j /\ k = l.
Proof.
  intros Nr i j f g k l p q r p' q' r' y y' s s' Hi Hj Tf Tg Iy Iy' Ps Ps' E. pose proof (nth_error_In _ _ Hi) as If. pose proof (nth_error_In _ _ Hj) as Ig.
  destruct (at_face _ _ _ _ _ built i f Hi) as (P & HP & EP). destruct (at_face _ _ _ _ _ built j g Hj) as (Q & HQ & EQ). pose proof (nth_error_In _ _ HP) as IP. pose proof (nth_error_In _ _ HQ) as IQ.
  destruct (H P f IP If EP) as (Pp & KP & _). destruct (H Q g IQ Ig EQ) as (Pq & KQ & _).
  assert (Iyt : in_triangle p q r y) by (destruct Iy as (a & c & d & A & C & D & X); exists a, c, d; repeat split; try lra; apply X).
  assert (Sy : surface_of planes y) by (apply mesh_surface; exists f, k, p, q, r; auto). assert (Sy' : surface_of planes y') by (apply mesh_surface; exists g, l, p', q', r'; auto).
  assert (No : forall z, surface_of planes z -> z <> o) by (intros z (_ & a & Ia & Oa) ->; apply slack_on in Oa; pose proof (deep_slack a Ia); lra).
  set (w := scaled s (minus y o)). assert (Nw : w <> V3 0 0 0).
  { intros Z. apply (No y Sy). unfold w in Z. pose proof (f_equal vx Z) as E1. pose proof (f_equal vy Z) as E2. pose proof (f_equal vz Z) as E3. unfold scaled, minus in E1, E2, E3. cbn [vx vy vz] in E1, E2, E3.
    apply v3_ext; apply (Rmult_eq_reg_l s); lra. }
  assert (Ew : w = scaled s' (minus y' o)).
  { unfold w. pose proof (f_equal vx E) as E1. pose proof (f_equal vy E) as E2. pose proof (f_equal vz E) as E3. unfold towards in E1, E2, E3. cbn [vx vy vz] in E1, E2, E3. unfold scaled, minus. cbn [vx vy vz]. f_equal; lra. }
  assert (Pos : 0 < s') by (destruct Ps' as [X|X]; [exact X|exfalso; apply Nw; rewrite Ew, <- X; unfold scaled; f_equal; ring]).
  assert (M : moved o w (/ s) = y) by (unfold w, moved, scaled, minus; apply v3_ext; cbn [vx vy vz]; field; lra).
  assert (M' : moved o w (/ s') = y') by (rewrite Ew; unfold moved, scaled, minus; apply v3_ext; cbn [vx vy vz]; field; lra).
  destruct (leaves w Nw) as (t & T & _ & U & _). assert (/ s = t) by (apply U; [now apply Rinv_0_lt_compat|now rewrite M]). assert (/ s' = t) by (apply U; [now apply Rinv_0_lt_compat|now rewrite M']).
  assert (y = y') as <- by congruence. clear M M' E Ew Nw.
  assert (Cor : forall x, In x [p; q; r] -> In x (map vt_pos (f_vertices f))).
  { apply (triangle_iff _ _ _ _ _ _ _ _ _ _ _ EP) in Tf. destruct Tf as (A & C & D). apply nth_error_In in A, C, D. intros x [<-|[<-|[<-|[]]]]; assumption. }
  assert (Sol : forall x, In x [p; q; r] -> 0 <= slack Q x).
  { intros x Ix. apply slack_within. apply Cor in Ix. apply in_map_iff in Ix. destruct Ix as (v & <- & Iv). now apply KP. }
  assert (OP : forall x, In x [p; q; r] -> on_plane P x) by (intros x Ix; apply (face_on _ _ _ _ _ _ _ _ _ P f IP EP); now apply Cor).
  assert (OQy : slack Q y = 0).
  { destruct Iy' as (a & c & d & A & C & D & X & ->). apply (triangle_iff _ _ _ _ _ _ _ _ _ _ _ EQ) in Tg. destruct Tg as (G1 & G2 & G3). apply nth_error_In in G1, G2, G3.
    pose proof (face_on _ _ _ _ _ _ _ _ _ Q g IQ EQ) as On. apply On, slack_on in G1. apply On, slack_on in G2. apply On, slack_on in G3.
    replace (slack Q (blend p' q' r' a c d)) with (a * slack Q p' + c * slack Q q' + d * slack Q r'); [rewrite G1, G2, G3; ring|].
    unfold slack, blend. generalize (facing Q). intros n. vectors. replace a with (1 - c - d) by lra. ring. }
  assert (On3 : slack Q p = 0 /\ slack Q q = 0 /\ slack Q r = 0).
  { destruct Iy as (a & c & d & A & C & D & X & ->).
    assert (Z : a * slack Q p + c * slack Q q + d * slack Q r = 0).
    { rewrite <- OQy. unfold slack, blend. generalize (facing Q). intros n. vectors. replace a with (1 - c - d) by lra. ring. }
    pose proof (Sol p (or_introl eq_refl)). pose proof (Sol q (or_intror (or_introl eq_refl))). pose proof (Sol r (or_intror (or_intror (or_introl eq_refl)))). 
    assert (0 <= a * slack Q p) by nra. assert (0 <= c * slack Q q) by nra. assert (0 <= d * slack Q r) by nra.
    repeat split; [apply (Rmult_eq_reg_l a)|apply (Rmult_eq_reg_l c)|apply (Rmult_eq_reg_l d)]; lra. }
  destruct On3 as (O1 & O2 & O3). apply slack_on in O1, O2, O3.
  assert (S : same_half P Q).
  { apply (three_same planes o P Q p q r Pp Dp IP IQ); try assumption; try (apply OP; cbn; auto; fail). apply (triangles_clockwise _ _ _ _ _ _ _ _ _ _ _ EP KP An _ _ _ _ Tf). }
  pose proof (Nr i j P Q HP HQ S) as <-. assert (f = g) as <- by congruence. split; [reflexivity|].
  apply (triangles_disjoint _ _ _ _ _ _ _ _ _ _ _ EP KP An k l p q r p' q' r' y Tf Tg Iy Iy').
Qed.
End Brush.
