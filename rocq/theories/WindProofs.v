(** Orientation of triangles over the real numbers (C71, C72). *)
From Coq Require Import Reals Lra Psatz Permutation Sorted.
From Flocq Require Import Core.
From Verif Require Import Prelude F32 Text MapModel GeoModel GatherSpec GeoSpec RealSpec WindSpec BaseProofs GeoProofs RealProofs.
Local Open Scope R_scope.

(** ** In the plane *)
Definition P2 : Type := R * R.
Definition cr (a b : P2) : R := fst a * snd b - snd a * fst b.
Definition dt (a b : P2) : R := fst a * fst b + snd a * snd b.
Definition orient (a b c : P2) : R := cr a b + cr b c + cr c a.

Lemma cr_balance : forall g a b c, dt g a * cr b c + dt g b * cr c a + dt g c * cr a b = 0.
Proof. intros [g h] [a a'] [b b'] [c c']. unfold dt, cr. cbn. ring. Qed.
Lemma cr_anti : forall a b, cr b a = - cr a b.
Proof. intros [a a'] [b b']. unfold cr. cbn. ring. Qed.
Lemma orient_turn : forall a b c, orient b c a = orient a b c.
Proof. intros. unfold orient. ring. Qed.

(** If the turns into and out of an exposed point are clockwise, so is the triangle. *)
Lemma orient_exposed : forall g a b c, dt g a < dt g b -> dt g c < dt g b -> 0 < dt g b -> cr a b < 0 -> cr b c < 0 -> orient a b c < 0.
Proof.
  intros g a b c A C B X Y. pose proof (cr_balance g a b c) as E. unfold orient.
  assert (dt g b * (cr a b + cr b c + cr c a) < 0) by nra. nra.
Qed.

(** Points given by radius and angle. *)
Definition at_angle (p : P2) (t : R) : Prop := - PI < t <= PI /\ exists r, 0 < r /\ fst p = r * cos t /\ snd p = r * sin t.
Lemma cr_angles : forall a b s t, at_angle a s -> at_angle b t -> exists m, 0 < m /\ cr a b = - (m * sin (s - t)).
Proof.
  intros a b s t (_ & r & R0 & A1 & A2) (_ & q & Q0 & B1 & B2). exists (r * q). split; [now apply Rmult_lt_0_compat|].
  unfold cr. rewrite A1, A2, B1, B2, sin_minus. ring.
Qed.
Lemma cr_neg : forall a b s t, at_angle a s -> at_angle b t -> 0 < s - t < PI -> cr a b < 0.
Proof.
  intros a b s t A B H. destruct (cr_angles a b s t A B) as (m & M & ->). pose proof (sin_gt_0 (s - t)).
  assert (0 < sin (s - t)) by (apply sin_gt_0; lra). nra.
Qed.
Lemma cr_neg_wrap : forall a b s t, at_angle a s -> at_angle b t -> PI < t - s < 2 * PI -> cr a b < 0.
Proof.
  intros a b s t A B H. destruct (cr_angles a b s t A B) as (m & M & ->).
  assert (0 < sin (s - t)).
  { replace (s - t) with (- (t - s)) by ring. rewrite sin_neg. pose proof (sin_lt_0 (t - s)). lra. }
  nra.
Qed.

Definition exposed (l : list P2) (p : P2) : Prop := exists g, 0 < dt g p /\ forall q, In q l -> q <> p -> dt g q < dt g p.

Lemma angles_distinct : forall l a b t, In a l -> In b l -> exposed l a -> exposed l b -> at_angle a t -> at_angle b t -> a = b.
Proof.
  intros l [a a'] [b b'] t Ia Ib (g & G0 & G) (h & H0 & H) (_ & r & R0 & A1 & A2) (_ & q & Q0 & B1 & B2). cbn [fst snd] in *.
  destruct (Req_dec r q) as [->|N]; [congruence|].
  assert (D : (a, a') <> (b, b')).
  { intros E. injection E as E1 E2. assert (r * r = q * q); [|nra].
    pose proof (sin2_cos2 t) as S. unfold Rsqr in S.
    assert (a * a + a' * a' = r * r) by (rewrite A1, A2; nra). assert (b * b + b' * b' = q * q) by (rewrite B1, B2; nra). nra. }
  exfalso. pose proof (G _ Ib (not_eq_sym D)) as G1. pose proof (H _ Ia D) as H1.
  unfold dt in *. cbn [fst snd] in *. subst a a' b b'.
  set (gt := fst g * cos t + snd g * sin t). set (ht := fst h * cos t + snd h * sin t).
  replace (fst g * (r * cos t) + snd g * (r * sin t)) with (r * gt) in * by (unfold gt; ring).
  replace (fst g * (q * cos t) + snd g * (q * sin t)) with (q * gt) in * by (unfold gt; ring).
  replace (fst h * (r * cos t) + snd h * (r * sin t)) with (r * ht) in * by (unfold ht; ring).
  replace (fst h * (q * cos t) + snd h * (q * sin t)) with (q * ht) in * by (unfold ht; ring).
  assert (0 < gt) by nra. assert (0 < ht) by nra. nra.
Qed.

Theorem orient_sorted : forall l a b c s t u, In a l -> In b l -> In c l -> a <> b -> b <> c -> a <> c ->
  exposed l a -> exposed l b -> exposed l c -> at_angle a s -> at_angle b t -> at_angle c u -> u <= t -> t <= s -> orient a b c < 0.
Proof.
  intros l a b c s t u Ia Ib Ic Nab Nbc Nac Ea Eb Ec Aa Ab Ac H1 H2.
  assert (S1 : t < s).
  { destruct (Rle_lt_or_eq_dec _ _ H2) as [|E]; [assumption|]. subst t. exfalso. apply Nab. exact (angles_distinct l a b s Ia Ib Ea Eb Aa Ab). }
  assert (S2 : u < t).
  { destruct (Rle_lt_or_eq_dec _ _ H1) as [|E]; [assumption|]. subst u. exfalso. apply Nbc. exact (angles_distinct l b c t Ib Ic Eb Ec Ab Ac). }
  assert (Range : s - u < 2 * PI) by (destruct Aa as ((? & ?) & _), Ac as ((? & ?) & _); lra).
  pose proof PI_RGT_0 as P0.
  destruct Ea as (ga & A0 & GA), Eb as (gb & B0 & GB), Ec as (gc & C0 & GC).
  destruct (Rlt_dec (s - t) PI) as [L1|L1]; destruct (Rlt_dec (t - u) PI) as [L2|L2]; try lra.
  - apply (orient_exposed gb); auto; [eapply cr_neg; eauto; lra|eapply cr_neg; eauto; lra].
  - rewrite <- orient_turn, <- orient_turn. apply (orient_exposed ga); auto.
    + eapply cr_neg_wrap; eauto; lra.
    + eapply cr_neg; eauto; lra.
  - rewrite <- orient_turn. apply (orient_exposed gc); auto.
    + eapply cr_neg; eauto; lra.
    + eapply cr_neg_wrap; eauto; lra.
Qed.

(** ** Vectors *)
Definition scaled (k : R) (a : vec3 R) : vec3 R := V3 (k * vx a) (k * vy a) (k * vz a).
Definition plus (a b : vec3 R) : vec3 R := V3 (vx a + vx b) (vy a + vy b) (vz a + vz b).
Ltac vectors := unfold clockwise, inner, outer, minus, scaled, plus in *; cbn [vx vy vz] in *.

Lemma inner_comm : forall a b, inner a b = inner b a.
Proof. intros. vectors. ring. Qed.
Lemma null_of_inner : forall a b c e, inner (outer a b) c <> 0 -> inner a e = 0 -> inner b e = 0 -> inner c e = 0 -> e = V3 0 0 0.
Proof.
  intros a b c e N A B C. pose proof (norm_zero e) as Z. apply Z. unfold norm.
  assert (E : inner (outer a b) c * inner e e = 0).
  { replace (inner (outer a b) c * inner e e)
      with (inner a e * inner (outer b c) e + inner b e * inner (outer c a) e + inner c e * inner (outer a b) e)
      by (destruct a, b, c, e; vectors; ring).
    rewrite A, B, C. ring. }
  apply Rmult_integral in E. destruct E as [E|E]; [contradiction|]. rewrite E. apply sqrt_0.
Qed.
Lemma minus_null : forall a b, minus a b = V3 0 0 0 -> a = b.
Proof. intros [a b c] [d e f] H. vectors. injection H as A B C. f_equal; lra. Qed.
Lemma outer_null : forall a, outer a (V3 0 0 0) = V3 0 0 0.
Proof. intros a. vectors. f_equal; ring. Qed.
Lemma unit_inner : forall a, norm a <> 0 ->
  inner (V3 (vx a / norm a) (vy a / norm a) (vz a / norm a)) (V3 (vx a / norm a) (vy a / norm a) (vz a / norm a)) = 1.
Proof.
  intros a H. pose proof (norm_sq a) as E. unfold inner in *. cbn [vx vy vz].
  replace (vx a / norm a * (vx a / norm a) + vy a / norm a * (vy a / norm a) + vz a / norm a * (vz a / norm a))
    with ((vx a * vx a + vy a * vy a + vz a * vz a) / (norm a * norm a)) by (field; exact H).
  rewrite E. field. rewrite <- E. intros Z. apply Rmult_integral in Z. tauto.
Qed.

Section Frame.
Context (n u : vec3 R) (N1 : inner n n = 1) (U1 : inner u u = 1) (NU : inner n u = 0).
Local Notation v := (outer n u).
Lemma frame_vv : inner v v = 1.
Proof.
  replace (inner v v) with (inner n n * inner u u - inner n u * inner n u) by (destruct n, u; vectors; ring). rewrite N1, U1, NU. ring.
Qed.
Lemma frame_det : inner (outer u v) n = 1.
Proof.
  replace (inner (outer u v) n) with (inner n n * inner u u - inner n u * inner n u) by (destruct n, u; vectors; ring). rewrite N1, U1, NU. ring.
Qed.
Lemma frame_split : forall d, inner n d = 0 -> d = plus (scaled (inner d u) u) (scaled (inner d v) v).
Proof.
  intros d H. apply minus_null. apply (null_of_inner u v n); [rewrite frame_det; lra|..].
  - replace (inner u _) with (inner d u - inner d u * inner u u - inner d v * inner (outer u u) n); [|destruct n, u, d; vectors; ring].
    rewrite U1. replace (inner (outer u u) n) with 0 by (destruct n, u; vectors; ring). ring.
  - replace (inner v _) with (inner d v - inner d u * inner (outer u u) n - inner d v * inner v v); [|destruct n, u, d; vectors; ring].
    rewrite frame_vv. replace (inner (outer u u) n) with 0 by (destruct n, u; vectors; ring). ring.
  - replace (inner n _) with (inner n d - inner d u * inner n u - inner d v * inner (outer n n) u); [|destruct n, u, d; vectors; ring].
    rewrite H, NU. replace (inner (outer n n) u) with 0 by (destruct n, u; vectors; ring). ring.
Qed.
Lemma frame_orient : forall d e, inner n d = 0 -> inner n e = 0 -> inner n (outer d e) = inner d u * inner e v - inner d v * inner e u.
Proof.
  intros d e D E. rewrite (frame_split d D) at 1. rewrite (frame_split e E) at 1.
  generalize (inner d u) (inner d v) (inner e u) (inner e v). intros a b c f.
  replace (inner n _) with ((a * f - b * c) * inner (outer u v) n) by (destruct n, u; vectors; ring).
  rewrite frame_det. ring.
Qed.
End Frame.

(** ** Sums *)
Fixpoint total (f : vec3 R -> R) (l : list (vec3 R)) : R := match l with [] => 0 | x :: t => f x + total f t end.
Lemma total_perm : forall f l l', Permutation l l' -> total f l = total f l'.
Proof. intros f l l' H. induction H; cbn; lra. Qed.
Lemma total_bound : forall f m l, (forall x, In x l -> f x <= m) -> total f l <= INR (length l) * m.
Proof.
  intros f m l. induction l as [|x l IH]; intros H; [cbn; lra|]. cbn [total length]. rewrite S_INR.
  pose proof (H x (or_introl eq_refl)). assert (total f l <= INR (length l) * m) by (apply IH; intros; apply H; now right). lra.
Qed.
Lemma total_strict : forall f m l y, (forall x, In x l -> f x <= m) -> In y l -> f y < m -> total f l < INR (length l) * m.
Proof.
  intros f m l y. induction l as [|x l IH]; intros H I L; [contradiction|]. cbn [total length]. rewrite S_INR.
  destruct I as [->|I].
  - assert (total f l <= INR (length l) * m) by (apply total_bound; intros; apply H; now right). lra.
  - pose proof (H x (or_introl eq_refl)). assert (total f l < INR (length l) * m) by (apply IH; auto; intros; apply H; now right). lra.
Qed.

Section Wind.
Context (parse : str -> option R) (cosine radians : R -> R) (atan2 : R -> R -> R)
  (quat : vec3 R -> R -> vec3 R -> vec3 R) (mat2 : R -> vec2 R -> vec2 R).
Local Notation O := (real_num parse cosine radians atan2 quat mat2).

Lemma sum_total : forall F s l r, sum_from O s l r -> inner F r = inner F s + total (inner F) l.
Proof.
  intros F s l r H. induction H; cbn [total]; [lra|]. rewrite IHsum_from. unfold inner, v3_add. cbn. ring.
Qed.
Lemma mean_total : forall F l c, l <> [] -> is_mean O l c -> INR (length l) * inner F c = total (inner F) l.
Proof.
  intros F l c L (s & S & ->). apply (sum_total F) in S.
  replace (inner F (V3 (n_zero O) (n_zero O) (n_zero O))) with 0 in S by (unfold inner; cbn; ring). rewrite Rplus_0_l in S. rewrite <- S.
  replace (Nat.max (length l) 1) with (length l) by (destruct l; [congruence|cbn; lia]).
  assert (E : n_of_N O (N.of_nat (length l)) = INR (length l)) by (cbn; rewrite nat_N_Z, INR_IZR_INZ; reflexivity).
  assert (P : INR (length l) <> 0) by (apply not_0_INR; destruct l; [congruence|cbn; lia]).
  unfold v3_divs. rewrite E. unfold inner. cbn [vx vy vz n_div real_num]. field. exact P.
Qed.
Lemma total_shift : forall F c l, total (fun x => inner F (minus x c)) l = total (inner F) l - INR (length l) * inner F c.
Proof.
  intros F c l. induction l as [|x l IH]; cbn [total length]; [cbn; ring|]. rewrite IH, S_INR, inner_minus. ring.
Qed.

Lemma positions : forall tx e planes plane f, build_face O tx e planes plane = Ok f ->
  exists raw sorted, Permutation (map vt_pos raw) (map vt_pos (f_vertices f)) /\ is_mean O (map vt_pos raw) (f_center f)
    /\ Forall2 (fun a b => vt_pos a = minus (vt_pos b) (f_center f)) sorted (f_vertices f)
    /\ StronglySorted (fun a b => angle_of O plane b <= angle_of O plane a) sorted.
Proof.
  intros tx e planes plane f E.
  destruct (face_corners_built O (real_laws _ _ _ _ _ _) tx e planes plane f E) as (raw & centred & sorted & _ & M & F1 & P & F2 & S).
  exists raw, sorted. split; [|split; [exact M|split]].
  - assert (A : map vt_pos centred = map (fun x => minus x (f_center f)) (map vt_pos raw)).
    { clear - F1. induction F1 as [|a b l l' H F IH]; [reflexivity|]. cbn [map]. rewrite IH. f_equal. apply H. }
    assert (B : map vt_pos (f_vertices f) = map (fun x => v3_add O x (f_center f)) (map vt_pos sorted)).
    { clear - F2. induction F2 as [|a b l l' H F IH]; [reflexivity|]. cbn [map]. rewrite IH. f_equal. apply H. }
    rewrite B. assert (C : map vt_pos raw = map (fun x => v3_add O x (f_center f)) (map vt_pos centred)).
    { rewrite A, map_map. rewrite <- (map_id (map vt_pos raw)) at 1. apply map_ext. intros x. apply v3_ext; cbn; ring. }
    rewrite C. apply Permutation_map, Permutation_map. exact P.
  - clear - F2. induction F2 as [|a b l l' H F IH]; constructor; auto. destruct H as (-> & _). apply v3_ext; cbn; ring.
  - assert (W : order_laws O (fun _ => True)).
    { split; unfold not_above, greater; cbn [n_cmp real_num].
      - intros a b _ _. destruct (Rcompare_spec a b); auto.
      - intros a b H. injection H as H. apply Rcompare_Gt_inv in H. left. f_equal. now apply Rcompare_Lt.
      - assert (K : forall a b, Some (Rcompare a b) = Some Lt \/ Some (Rcompare a b) = Some Eq <-> a <= b).
        { intros a b. destruct (Rcompare_spec a b); split; intros H'; try lra; auto; destruct H'; discriminate. }
        intros a b c. rewrite !K. lra. }
    specialize (S _ W (fun _ _ => I)). clear - S. induction S as [|a l S IH H]; constructor; auto.
    eapply Forall_impl; [|exact H]. intros b. unfold not_above. cbn [n_cmp real_num].
    destruct (Rcompare_spec (angle_of O plane b) (angle_of O plane a)); intros [X|X]; try discriminate; lra.
Qed.

Lemma sorted_at : forall A (r : A -> A -> Prop) l i j a b, StronglySorted r l -> (i < j)%nat -> nth_error l i = Some a -> nth_error l j = Some b -> r a b.
Proof.
  intros A r l i j a b S. revert i j. induction S as [|x l S IH H]; intros i j L Ha Hb; [destruct i; discriminate|].
  destruct j as [|j]; [lia|]. destruct i as [|i]; cbn in Ha, Hb.
  - inv Ha. rewrite Forall_forall in H. apply H. now apply nth_error_In in Hb.
  - apply (IH i j); auto. lia.
Qed.

(** ** A face *)
Section Face.
Context tx e planes plane f (E : build_face O tx e planes plane = Ok f) (K : crisp planes f) (Angle : polar_angle atan2).
Let n := plane_normal O plane.
Let u := first_edge O plane.
Let v := second_axis O plane.
Let c := f_center f.
Let proj (x : vec3 R) : P2 := (inner (minus x c) u, inner (minus x c) v).
Let pts := map vt_pos (f_vertices f).

Lemma corner_of : forall x, In x pts -> exists p1 p2, In p1 planes /\ In p2 planes /\ proper plane /\ spans plane p1 p2
  /\ on_plane plane x /\ on_plane p1 x /\ on_plane p2 x /\ 0 < inner (outer (facing plane) (facing p1)) (facing p2).
Proof.
  intros x I. apply (real_corners _ _ _ _ _ _ _ _ _ _ _ E) in I. destruct I as (p1 & p2 & I1 & I2 & P & P1 & P2 & S & H & H1 & H2 & _).
  exists p1, p2. repeat (split; [assumption|]). unfold spans in S.
  pose proof (norm_pos _ P). pose proof (norm_pos _ P1). pose proof (norm_pos _ P2).
  assert (0 < norm (facing plane) * norm (facing p1) * norm (facing p2)) by (repeat apply Rmult_lt_0_compat; assumption). lra.
Qed.

Context (Plane : proper plane).
Lemma n_unit : inner n n = 1.
Proof. unfold n. rewrite normal_real. now apply unit_inner. Qed.
Lemma edge_proper : norm (minus (bp_v1 plane) (bp_v0 plane)) <> 0.
Proof. intros Z. apply norm_zero in Z. apply Plane. unfold facing. rewrite Z, outer_null. unfold norm, inner. cbn. replace (0*0+0*0+0*0) with 0 by ring. apply sqrt_0. Qed.
Lemma u_unit : inner u u = 1.
Proof. exact (unit_inner _ edge_proper). Qed.
Lemma n_u : inner n u = 0.
Proof.
  unfold n. rewrite normal_scaled. replace (inner (facing plane) u) with 0; [unfold Rdiv; ring|].
  unfold u, first_edge. change (v3_sub O (bp_v1 plane) (bp_v0 plane)) with (minus (bp_v1 plane) (bp_v0 plane)).
  pose proof edge_proper as Z. unfold facing. cbn [n_normalize real_num]. unfold normalize_with. cbn [andb].
  change (sqrt _) with (norm (minus (bp_v1 plane) (bp_v0 plane))) at 1.
  set (d := minus (bp_v1 plane) (bp_v0 plane)) in *. set (w := minus (bp_v2 plane) (bp_v0 plane)).
  unfold inner at 1. unfold outer. cbn [vx vy vz]. 
  change (sqrt (vx d * vx d + vy d * vy d + vz d * vz d)) with (norm d). field. exact Z.
Qed.
Lemma v_is : v = outer n u.
Proof. reflexivity. Qed.

Lemma on_iff : forall x, on_plane plane x <-> inner n x = plane_dist O plane.
Proof. intros x. now apply on_plane_iff. Qed.
Lemma pts_on : forall x, In x pts -> inner n x = plane_dist O plane.
Proof. intros x I. destruct (corner_of x I) as (p1 & p2 & _ & _ & _ & _ & H & _). now apply on_iff. Qed.

Context (Some2 : exists x y, In x pts /\ In y pts /\ x <> y).
Lemma center_total : forall F, total (fun x => inner F (minus x c)) pts = 0 /\ pts <> [].
Proof.
  intros F. destruct (positions _ _ _ _ _ E) as (raw & sorted & P & M & _). fold pts in P. fold c in M.
  assert (Ne : pts <> []) by (destruct Some2 as (x & _ & I & _); intros Z; rewrite Z in I; contradiction).
  split; [|exact Ne]. rewrite total_shift.
  assert (Nr : map vt_pos raw <> []) by (intros Z; rewrite Z in P; apply Permutation_nil in P; contradiction).
  pose proof (mean_total F _ _ Nr M) as T. rewrite (total_perm _ _ _ P), (Permutation_length P) in T. lra.
Qed.
Lemma total_const : forall g k l, (forall x, In x l -> g x = k) -> total g l = INR (length l) * k.
Proof.
  intros g k l. induction l as [|x l IH]; intros H; [cbn; lra|]. cbn [total length]. rewrite S_INR, (H x (or_introl eq_refl)), IH; [lra|].
  intros y I. apply H. now right.
Qed.
Lemma center_on : inner n c = plane_dist O plane.
Proof.
  destruct (center_total n) as (T & Ne). rewrite (total_const _ (plane_dist O plane - inner n c)) in T.
  - apply Rmult_integral in T. destruct T as [T|T]; [|lra]. exfalso. apply Ne.
    apply length_zero_iff_nil. apply INR_eq. cbn. exact T.
  - intros x I. rewrite inner_minus, (pts_on x I). reflexivity.
Qed.
Lemma flat : forall x, In x pts -> inner n (minus x c) = 0.
Proof. intros x I. rewrite inner_minus, (pts_on x I), center_on. ring. Qed.

Lemma dt_proj : forall F x, In x pts -> dt (inner F u, inner F v) (proj x) = inner F (minus x c).
Proof.
  intros F x I. unfold dt, proj. cbn [fst snd]. rewrite (frame_split n u n_unit u_unit n_u (minus x c) (flat x I)) at 3.
  rewrite <- v_is. generalize (inner (minus x c) u) (inner (minus x c) v). intros a b.
  destruct F, u, v. vectors. ring.
Qed.

Lemma proj_inj : forall x y, In x pts -> In y pts -> proj x = proj y -> x = y.
Proof.
  intros x y Ix Iy H. injection H as H1 H2.
  assert (Z : minus x c = minus y c).
  { rewrite (frame_split n u n_unit u_unit n_u _ (flat x Ix)), (frame_split n u n_unit u_unit n_u _ (flat y Iy)). rewrite <- v_is, H1, H2. reflexivity. }
  apply v3_ext; [apply (f_equal vx) in Z|apply (f_equal vy) in Z|apply (f_equal vz) in Z]; vectors; lra.
Qed.

Lemma corner_exposed : forall x, In x pts -> exposed (map proj pts) (proj x).
Proof.
  intros x I. destruct (corner_of x I) as (p1 & p2 & I1 & I2 & _ & _ & H0 & H1 & H2 & D).
  set (F := plus (facing p1) (facing p2)).
  assert (Le : forall q y, In q planes -> on_plane q x -> In y pts -> inner (facing q) (minus y x) <= 0).
  { intros q y Iq Q Iy. unfold pts in Iy. apply in_map_iff in Iy. destruct Iy as (w & <- & Iw). pose proof (K w q Iw Iq) as W.
    unfold within in W. unfold on_plane in Q. rewrite !inner_minus in *. lra. }
  assert (Lt : forall y, In y pts -> y <> x -> inner F (minus y c) < inner F (minus x c)).
  { intros y Iy Ny. pose proof (Le p1 y I1 H1 Iy) as A. pose proof (Le p2 y I2 H2 Iy) as B.
    assert (S : inner F (minus y c) - inner F (minus x c) = inner (facing p1) (minus y x) + inner (facing p2) (minus y x))
      by (unfold F; destruct x, y; vectors; ring).
    destruct (Rle_lt_or_eq_dec _ _ A) as [A'|A']; [lra|]. destruct (Rle_lt_or_eq_dec _ _ B) as [B'|B']; [lra|]. exfalso. apply Ny.
    apply minus_null, (null_of_inner (facing plane) (facing p1) (facing p2)); auto; [lra|].
    destruct (corner_of y Iy) as (_ & _ & _ & _ & _ & _ & Y0 & _). unfold on_plane in *. rewrite inner_minus in *. lra. }
  exists (inner F u, inner F v). split.
  - rewrite dt_proj by exact I. destruct (center_total F) as (T & Ne).
    assert (exists y, In y pts /\ y <> x) as (y & Iy & Ny).
    { destruct Some2 as (a & b & Ia & Ib & Nab). destruct (Req_dec (inner F (minus a c)) (inner F (minus x c))) as [Q|Q].
      - exists b. split; [exact Ib|]. intros ->. destruct (Req_dec (vx a) (vx x)), (Req_dec (vy a) (vy x)), (Req_dec (vz a) (vz x));
          try (assert (a <> x) as Z by congruence; pose proof (Lt a Ia Z); lra). 
      - exists a. split; [exact Ia|]. intros ->. now apply Q. }
    assert (Sum : total (fun z => inner F (minus z c)) pts < INR (length pts) * inner F (minus x c)).
    { apply (total_strict _ _ _ y); auto. intros z Iz. destruct (Req_dec (inner F (minus z c)) (inner F (minus x c))) as [Q|Q]; [lra|].
      assert (z <> x) by (intros ->; now apply Q). left. auto. }
    rewrite T in Sum. pose proof (pos_INR (length pts)). nra.
  - intros q Iq Nq. apply in_map_iff in Iq. destruct Iq as (y & <- & Iy). rewrite !dt_proj by assumption. apply Lt; [exact Iy|]. congruence.
Qed.

Lemma corner_angle : forall x w, In x pts -> vt_pos w = minus x c -> at_angle (proj x) (angle_of O plane w).
Proof.
  intros x w I W. destruct (corner_exposed x I) as (g & G & _). unfold angle_of. rewrite W.
  change (v3_dot O (minus x c) (second_axis O plane)) with (inner (minus x c) v).
  change (v3_dot O (minus x c) (first_edge O plane)) with (inner (minus x c) u). cbn [n_atan2 real_num].
  apply (Angle (inner (minus x c) u) (inner (minus x c) v)). 
  destruct (Req_dec (inner (minus x c) u) 0) as [Z1|Z1]; [|now left]. right. intros Z2. unfold dt, proj in G. cbn [fst snd] in G. rewrite Z1, Z2 in G. lra.
Qed.

Lemma orient_real : forall a b d, In a pts -> In b pts -> In d pts ->
  inner n (outer (minus b a) (minus d a)) = orient (proj a) (proj b) (proj d).
Proof.
  intros a b d Ia Ib Id.
  assert (Flat : forall x, In x pts -> inner n (minus x a) = 0) by (intros x I; rewrite inner_minus, (pts_on x I), (pts_on a Ia); ring).
  rewrite (frame_orient n u n_unit u_unit n_u) by auto. rewrite <- v_is. unfold orient, cr, proj. cbn [fst snd].
  destruct a, b, d, u, v, c. vectors. ring.
Qed.

Lemma three_clockwise : forall i j k a b d, (i < j)%nat -> (j < k)%nat -> nth_error pts i = Some a -> nth_error pts j = Some b ->
  nth_error pts k = Some d -> clockwise (facing plane) a b d.
Proof.
  intros i j k a b d Lij Ljk Ha Hb Hd.
  destruct (real_corners _ _ _ _ _ _ _ _ _ _ _ E) as (ND & _). fold pts in ND.
  pose proof (nth_error_In _ _ Ha) as Ia. pose proof (nth_error_In _ _ Hb) as Ib. pose proof (nth_error_In _ _ Hd) as Id.
  assert (Di : forall i j x y, (i < j)%nat -> nth_error pts i = Some x -> nth_error pts j = Some y -> x <> y).
  { intros i0 j0 x y L Hx Hy ->. rewrite NoDup_nth_error in ND. assert (i0 = j0); [|lia].
    apply ND; [apply nth_error_Some; congruence|congruence]. }
  destruct (positions _ _ _ _ _ E) as (raw & sorted & _ & _ & F & S).
  assert (W : forall i x, nth_error pts i = Some x -> exists w, nth_error sorted i = Some w /\ vt_pos w = minus x c).
  { intros i0 x Hx. unfold pts in Hx. rewrite nth_error_map in Hx. destruct (nth_error (f_vertices f) i0) as [y|] eqn:Y; [|discriminate]. inv Hx.
    clear - F Y. revert i0 Y. induction F as [|p q l l' H F IH]; intros i0 Y; [destruct i0; discriminate|].
    destruct i0; cbn in *; [inv Y; eauto|eauto]. }
  destruct (W _ _ Ha) as (wa & Wa & Pa). destruct (W _ _ Hb) as (wb & Wb & Pb). destruct (W _ _ Hd) as (wd & Wd & Pd).
  pose proof (sorted_at _ _ _ _ _ _ _ S Lij Wa Wb) as S1. pose proof (sorted_at _ _ _ _ _ _ _ S Ljk Wb Wd) as S2. cbv beta in S1, S2.
  assert (Or : orient (proj a) (proj b) (proj d) < 0).
  { apply (orient_sorted (map proj pts) _ _ _ (angle_of O plane wa) (angle_of O plane wb) (angle_of O plane wd));
      auto using in_map, corner_exposed, corner_angle.
    - intros Q. apply (Di i j a b); auto using proj_inj.
    - intros Q. apply (Di j k b d); auto using proj_inj.
    - intros Q. apply (Di i k a d); auto using proj_inj. lia. }
  rewrite <- orient_real in Or by assumption. unfold clockwise. unfold n in Or. rewrite normal_scaled in Or.
  pose proof (norm_pos _ Plane) as P. 
  apply (Rmult_lt_compat_r (norm (facing plane))) in Or; [|exact P]. unfold Rdiv in Or. rewrite Rmult_assoc, Rinv_l, Rmult_1_r, Rmult_0_l in Or by exact Plane. exact Or.
Qed.
End Face.

Section Triangles.
Context tx e planes plane f (E : build_face O tx e planes plane = Ok f) (K : crisp planes f) (Angle : polar_angle atan2).
Let pts := map vt_pos (f_vertices f).

Lemma any_clockwise : forall i j k a b d, (i < j)%nat -> (j < k)%nat -> nth_error pts i = Some a -> nth_error pts j = Some b ->
  nth_error pts k = Some d -> clockwise (facing plane) a b d.
Proof.
  intros i j k a b d Lij Ljk Ha Hb Hd. pose proof (nth_error_In _ _ Ha) as Ia. pose proof (nth_error_In _ _ Hb) as Ib.
  destruct (corner_of _ _ _ _ _ E a Ia) as (_ & _ & _ & _ & P & _).
  apply (three_clockwise tx e planes plane f E K Angle P) with i j k; auto.
  exists a, b. repeat (split; [assumption|]). intros ->. destruct (real_corners _ _ _ _ _ _ _ _ _ _ _ E) as (ND & _). fold pts in ND.
  rewrite NoDup_nth_error in ND. assert (i = j); [|lia]. apply ND; [apply nth_error_Some; congruence|congruence].
Qed.

Lemma triangle_iff : forall i a b d, triangle f i a b d <->
  nth_error pts 0 = Some a /\ nth_error pts (i + 1) = Some b /\ nth_error pts (i + 2) = Some d.
Proof.
  destruct (face_fan O tx e planes plane f E) as (Len & _ & Fan). intros i a b d. split.
  - intros (u & v & w & ia & ib & ic & A & B & C & U & V & W & -> & -> & ->).
    assert (L : (i < length (f_vertices f) - 2)%nat).
    { assert (3 * i + 2 < length (f_indices f))%nat by (apply nth_error_Some; congruence). lia. }
    destruct (Fan i L) as (A' & B' & C'). rewrite A in A'. rewrite B in B'. rewrite C in C'. inv A'. inv B'. inv C'.
    unfold pts. rewrite !nth_error_map, U, V, W. auto.
  - unfold pts. rewrite !nth_error_map. intros (A & B & C).
    destruct (nth_error (f_vertices f) 0) as [u|] eqn:U; [|discriminate]. destruct (nth_error (f_vertices f) (i + 1)) as [v|] eqn:V; [|discriminate].
    destruct (nth_error (f_vertices f) (i + 2)) as [w|] eqn:W; [|discriminate]. inv A. inv B. inv C.
    assert (L : (i < length (f_vertices f) - 2)%nat).
    { assert (i + 2 < length (f_vertices f))%nat by (apply nth_error_Some; congruence). lia. }
    destruct (Fan i L) as (A' & B' & C'). exists u, v, w, 0%nat, (i + 1)%nat, (i + 2)%nat. repeat (split; [assumption|]). auto.
Qed.

Theorem triangles_clockwise : forall i a b d, triangle f i a b d -> clockwise (facing plane) a b d.
Proof.
  intros i a b d T. apply triangle_iff in T. destruct T as (A & B & D). apply (any_clockwise 0 (i + 1) (i + 2)); auto; lia.
Qed.

(** Twice the signed area of a, b, x seen along the plane's direction. *)
Local Notation F := (facing plane).
Definition area (a b x : vec3 R) : R := inner F (outer (minus b a) (minus x a)).
Lemma area_clockwise : forall a b x, clockwise F a b x <-> area a b x < 0.
Proof. reflexivity. Qed.
Lemma area_turn : forall a b x, area b x a = area a b x.
Proof. intros a b x. unfold area. destruct a, b, x, F. vectors. ring. Qed.
Lemma area_swap : forall a b x, area b a x = - area a b x.
Proof. intros a b x. unfold area. destruct a, b, x, F. vectors. ring. Qed.
Lemma area_flip : forall a b x, area a x b = - area a b x.
Proof. intros a b x. unfold area. destruct a, b, x, F. vectors. ring. Qed.
Lemma area_minus : forall a b x y, inner (outer F (minus b a)) (minus x y) = area a b x - area a b y.
Proof. intros a b x y. unfold area. destruct a, b, x, y, F. vectors. ring. Qed.
Lemma area_same : forall a b, area a b a = 0 /\ area a b b = 0 /\ area a a b = 0.
Proof. intros a b. unfold area. destruct a, b, F. vectors. repeat split; ring. Qed.
Lemma area_sum : forall a b c x, area a b x + area b c x + area c a x = area a b c.
Proof. intros a b c x. unfold area. destruct a, b, c, x, F. vectors. ring. Qed.
Lemma area_blend : forall p q a b c r s t, r + s + t = 1 -> area p q (blend a b c r s t) = r * area p q a + s * area p q b + t * area p q c.
Proof. intros p q a b c r s t H. replace r with (1 - s - t) by lra. unfold area, blend. destruct p, q, a, b, c, F. vectors. ring. Qed.

Theorem triangles_disjoint : forall i j a b d a' b' d' x, triangle f i a b d -> triangle f j a' b' d' ->
  inside_triangle a b d x -> in_triangle a' b' d' x -> i = j.
Proof.
  intros i j a b d a' b' d' x Ti Tj (r & s & t & R0 & S0 & T0 & One & ->) (r' & s' & t' & R1 & S1 & T1 & One' & Ex).
  apply triangle_iff in Ti, Tj. destruct Ti as (A & B & D), Tj as (A' & B' & D'). rewrite A in A'. inv A'.
  destruct (Nat.lt_trichotomy i j) as [L|[L|L]]; [exfalso|exact L|exfalso].
  - (* x is strictly before d, the triangle j is not *)
    assert (X : 0 < area a' d (blend a' b d r s t)).
    { rewrite area_blend by exact One. destruct (area_same a' d) as (Z1 & Z2 & _). rewrite Z1, Z2.
      assert (area a' b d < 0) by (apply (any_clockwise 0 (i + 1) (i + 2)); auto; lia).
      rewrite area_flip. nra. }
    rewrite Ex, area_blend in X by exact One'. destruct (area_same a' d) as (Z1 & Z2 & _). rewrite Z1 in X.
    assert (Y : forall k y, (i + 2 <= k)%nat -> nth_error pts k = Some y -> area a' d y <= 0).
    { intros k y Lk Hy. destruct (Nat.eq_dec k (i + 2)) as [->|N]; [rewrite D in Hy; inv Hy; lra|].
      left. apply (any_clockwise 0 (i + 2) k); auto; lia. }
    pose proof (Y (j + 1)%nat b' ltac:(lia) B'). pose proof (Y (j + 2)%nat d' ltac:(lia) D'). nra.
  - assert (X : area a' b (blend a' b d r s t) < 0).
    { rewrite area_blend by exact One. destruct (area_same a' b) as (Z1 & Z2 & _). rewrite Z1, Z2.
      assert (area a' b d < 0) by (apply (any_clockwise 0 (i + 1) (i + 2)); auto; lia). nra. }
    rewrite Ex, area_blend in X by exact One'. destruct (area_same a' b) as (Z1 & Z2 & _). rewrite Z1 in X.
    assert (Y : forall k y, (0 < k)%nat -> (k <= i + 1)%nat -> nth_error pts k = Some y -> 0 <= area a' b y).
    { intros k y K0 Lk Hy. destruct (Nat.eq_dec k (i + 1)) as [->|N]; [rewrite B in Hy; inv Hy; lra|].
      assert (area a' y b < 0) by (apply (any_clockwise 0 k (i + 1)); auto; lia).
      rewrite area_flip in H. lra. }
    pose proof (Y (j + 1)%nat b' ltac:(lia) ltac:(lia) B'). pose proof (Y (j + 2)%nat d' ltac:(lia) ltac:(lia) D'). nra.
Qed.

(** ** The hull *)
Lemma weighted_area : forall p q l w y, weighted l w y ->
  (forall x, In x l -> area p q x <= 0) -> inner F (outer (minus q p) y) - w * inner F (outer (minus q p) p) <= 0.
Proof.
  intros p q l w y H. induction H as [|x l w s y W H IH]; intros L.
  - destruct p, q, F. vectors. lra.
  - assert (A : area p q x <= 0) by (apply L; now left). specialize (IH (fun z I => L z (or_intror I))).
    assert (w * area p q x <= 0) by nra. unfold area in *.
    replace (inner F (outer (minus q p) (V3 (w * vx x + vx y) (w * vy x + vy y) (w * vz x + vz y))) - (w + s) * inner F (outer (minus q p) p))
      with (w * inner F (outer (minus q p) (minus x p)) + (inner F (outer (minus q p) y) - s * inner F (outer (minus q p) p)))
      by (destruct p, q, x, y, F; vectors; ring). lra.
Qed.
Lemma hull_area : forall p q l y, in_hull l y -> (forall x, In x l -> area p q x <= 0) -> area p q y <= 0.
Proof.
  intros p q l y H L. pose proof (weighted_area p q l 1 y H L) as A. unfold area.
  replace (inner F (outer (minus q p) (minus y p))) with (inner F (outer (minus q p) y) - 1 * inner F (outer (minus q p) p))
    by (destruct p, q, y, F; vectors; ring). exact A.
Qed.
Lemma weighted_plane : forall k l w y, weighted l w y -> (forall x, In x l -> inner F x = k) -> inner F y = w * k.
Proof.
  intros k l w y H. induction H as [|x l w s y W H IH]; intros L; [vectors; ring|].
  specialize (IH (fun z I => L z (or_intror I))). pose proof (L x (or_introl eq_refl)) as A.
  replace (inner F _) with (w * inner F x + inner F y) by (destruct x, y, F; vectors; ring). rewrite A, IH. ring.
Qed.

Lemma triangle_of_areas : forall a b c x, area a b c < 0 -> inner F (minus b a) = 0 -> inner F (minus c a) = 0 -> inner F (minus x a) = 0 ->
  area a b x <= 0 -> area b c x <= 0 -> area c a x <= 0 -> in_triangle a b c x.
Proof.
  intros a b c x N Pb Pc Px A B C. set (D := area a b c) in *.
  exists (area b c x / D), (area c a x / D), (area a b x / D).
  assert (Q : forall y, y <= 0 -> 0 <= y / D).
  { intros y Y. unfold Rdiv. assert (/ D < 0) by now apply Rinv_lt_0_compat. nra. }
  split; [auto|]. split; [auto|]. split; [auto|]. pose proof (area_sum a b c x) as S. fold D in S.
  split; [rewrite <- S; field; lra|].
  apply minus_null, (null_of_inner (outer F (minus b a)) (outer F (minus c a)) F).
  - replace (inner (outer (outer F (minus b a)) (outer F (minus c a))) F) with (inner F F * D) by (unfold D, area; destruct a, b, c, F; vectors; ring).
    intros Z. apply Rmult_integral in Z. destruct Z as [Z|Z]; [|lra]. unfold D, area in N. rewrite <- norm_sq in Z.
    assert (norm F = 0) by (apply Rmult_integral in Z; tauto). apply norm_zero in H. rewrite H in N. vectors. lra.
  - rewrite area_minus, area_blend by (rewrite <- S; field; lra). destruct (area_same a b) as (Z1 & Z2 & _). rewrite Z1, Z2. fold D. field. lra.
  - rewrite area_minus, area_blend by (rewrite <- S; field; lra). destruct (area_same a c) as (Z1 & Z2 & _). rewrite Z1, Z2.
    rewrite (area_flip a b c). fold D. rewrite (area_swap c a x). field. lra.
  - assert (O1 : area b c x / D = 1 - area c a x / D - area a b x / D) by (rewrite <- S; field; lra). rewrite O1.
    generalize dependent (area c a x / D). generalize dependent (area a b x / D). intros t s' _. clear - Pb Pc Px.
    replace (inner F _) with (inner F (minus x a) - s' * inner F (minus b a) - t * inner F (minus c a))
      by (unfold blend; destruct a, b, c, x, F; vectors; ring).
    rewrite Pb, Pc, Px. ring.
Qed.

(** Somewhere a sequence changes its sign. *)
Lemma sign_change : forall (g : nat -> R) m, (2 <= m)%nat -> g 1%nat <= 0 -> 0 <= g m -> exists i, (i + 2 <= m)%nat /\ g (i + 1)%nat <= 0 /\ 0 <= g (i + 2)%nat.
Proof.
  intros g m. induction m as [|m IH]; intros M A B; [lia|]. destruct (Nat.eq_dec m 1) as [->|N].
  - exists 0%nat. cbn. auto with arith.
  - destruct (Rle_dec 0 (g m)) as [P|P].
    + destruct IH as (i & L & X); [lia|exact A|exact P|]. exists i. split; [lia|exact X].
    + exists (m - 1)%nat. replace (m - 1 + 1)%nat with m by lia. replace (m - 1 + 2)%nat with (S m) by lia. split; [lia|]. split; [lra|exact B].
Qed.

Lemma pts_plane : forall x, In x pts -> inner F x = inner F (bp_v0 plane).
Proof.
  intros x I. destruct (corner_of _ _ _ _ _ E x I) as (_ & _ & _ & _ & _ & _ & H & _). unfold on_plane in H. rewrite inner_minus in H. lra.
Qed.

Lemma hull_covered : forall x, (3 <= length pts)%nat -> in_hull pts x -> exists i a b d, triangle f i a b d /\ in_triangle a b d x.
Proof.
  intros x L H.
  assert (Get : forall k, (k < length pts)%nat -> nth_error pts k = Some (nth k pts (V3 0 0 0))) by (intros; now apply nth_error_nth').
  assert (Px : inner F x = inner F (bp_v0 plane)) by (rewrite (weighted_plane _ _ _ _ H pts_plane); ring).
  set (at_ k := nth k pts (V3 0 0 0)) in *. set (a := at_ 0%nat).
  assert (All : forall (Q : vec3 R -> Prop), (forall k, (k < length pts)%nat -> Q (at_ k)) -> forall y, In y pts -> Q y).
  { intros Q HQ y I. apply In_nth_error in I. destruct I as (k & Hk). assert (Lk : (k < length pts)%nat) by (apply nth_error_Some; congruence).
    rewrite (Get k Lk) in Hk. inv Hk. exact (HQ k Lk). }
  assert (Cw : forall i j k, (i < j)%nat -> (j < k)%nat -> (k < length pts)%nat -> area (at_ i) (at_ j) (at_ k) < 0).
  { intros i j k A B C. apply (any_clockwise i j k); auto; apply Get; lia. }
  destruct (sign_change (fun k => area a (at_ k) x) (length pts - 1)) as (i & Li & S1 & S2).
  - lia.
  - apply (hull_area _ _ pts x H). apply All. intros k Lk.
    destruct k as [|[|k]]; [apply Req_le, area_same|apply Req_le, area_same|left; apply Cw; lia].
  - assert (area (at_ (length pts - 1)%nat) a x <= 0); [|rewrite area_swap in H0; lra].
    apply (hull_area _ _ pts x H). apply All. intros k Lk. rewrite area_swap.
    destruct (Nat.eq_dec k 0) as [->|N0]; [fold a; destruct (area_same a (at_ (length pts - 1)%nat)) as (Z & _); lra|].
    destruct (Nat.eq_dec k (length pts - 1)) as [->|N1]; [destruct (area_same a (at_ (length pts - 1)%nat)) as (_ & Z & _); lra|].
    rewrite area_flip. assert (area a (at_ k) (at_ (length pts - 1)%nat) < 0) by (apply Cw; lia). lra.
  - cbv beta in S1, S2. exists i, a, (at_ (i + 1)%nat), (at_ (i + 2)%nat). split; [apply triangle_iff; repeat split; apply Get; lia|].
    assert (Pk : forall k, (k < length pts)%nat -> inner F (at_ k) = inner F (bp_v0 plane)).
    { intros k Lk. apply pts_plane. eapply nth_error_In, Get, Lk. }
    apply triangle_of_areas.
    + apply Cw; lia.
    + rewrite inner_minus. unfold a. rewrite !Pk by lia. ring.
    + rewrite inner_minus. unfold a. rewrite !Pk by lia. ring.
    + rewrite inner_minus. unfold a. rewrite Px, Pk by lia. ring.
    + exact S1.
    + apply (hull_area _ _ pts x H). apply All. intros k Lk.
      destruct (Nat.lt_trichotomy k (i + 1)) as [C|[C|C]].
      * left. rewrite (area_turn (at_ k)). destruct (Nat.eq_dec k 0) as [->|]; apply Cw; lia.
      * subst k. apply Req_le, area_same.
      * destruct (Nat.eq_dec k (i + 2)) as [->|N]; [apply Req_le, area_same|]. left. apply Cw; lia.
    + rewrite area_swap. lra.
Qed.

Lemma weighted_eq : forall l w w' y y', weighted l w y -> w = w' -> y = y' -> weighted l w' y'.
Proof. intros; subst; assumption. Qed.
Lemma weighted_none : forall l, weighted l 0 (V3 0 0 0).
Proof.
  induction l as [|x l IH]; [constructor|]. eapply weighted_eq; [exact (WeightedCons x l 0 0 _ (Rle_refl 0) IH)|ring|apply v3_ext; cbn; ring].
Qed.
Lemma weighted_one : forall l x w, 0 <= w -> In x l -> weighted l w (scaled w x).
Proof.
  induction l as [|y l IH]; intros x w W I; [contradiction|]. destruct I as [->|I].
  - eapply weighted_eq; [exact (WeightedCons x l w 0 _ W (weighted_none l))|ring|apply v3_ext; vectors; ring].
  - eapply weighted_eq; [exact (WeightedCons y l 0 w _ (Rle_refl 0) (IH x w W I))|ring|apply v3_ext; vectors; ring].
Qed.
Lemma weighted_plus : forall l w y, weighted l w y -> forall w' y', weighted l w' y' -> weighted l (w + w') (plus y y').
Proof.
  intros l w y H. induction H as [|x l w s y W H IH]; intros w' y' H'; inv H'.
  - eapply weighted_eq; [constructor|ring|apply v3_ext; vectors; ring].
  - eapply weighted_eq; [eapply (WeightedCons x l (w + w0)); [lra|eapply IH; eassumption]|ring|apply v3_ext; vectors; ring].
Qed.

Theorem triangles_cover : (3 <= length pts)%nat -> forall x, in_hull pts x <-> exists i a b d, triangle f i a b d /\ in_triangle a b d x.
Proof.
  intros L x. split; [now apply hull_covered|]. intros (i & a & b & d & T & r & s & t & R0 & S0 & T0 & One & ->).
  apply triangle_iff in T. destruct T as (A & B & D). apply nth_error_In in A, B, D.
  eapply weighted_eq; [exact (weighted_plus _ _ _ (weighted_one _ _ r R0 A) _ _ (weighted_plus _ _ _ (weighted_one _ _ s S0 B) _ _ (weighted_one _ _ t T0 D)))|lra|].
  apply v3_ext; unfold blend; vectors; ring.
Qed.
End Triangles.
End Wind.
