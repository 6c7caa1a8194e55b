(** Exactly when geometry building panics (C19). *)
From Coq Require Import SpecFloat.
From Verif Require Import Prelude F32 Text MapModel GeoModel GatherSpec GeoSpec BaseProofs GatherProofs GeoProofs GeoFinal
  DegenerateProofs.

(** ** Rounding a positive number does not give NaN *)
Lemma shr_1_nonneg : forall r, (0 <= shr_m r)%Z -> (0 <= shr_m (shr_1 r))%Z.
Proof. intros [m r s] H. simpl in *. destruct m as [|[]|]; simpl; lia. Qed.
Lemma iter_nonneg : forall n r, (0 <= shr_m r)%Z -> (0 <= shr_m (SpecFloat.iter_pos shr_1 n r))%Z.
Proof. induction n; intros r H; simpl; auto using shr_1_nonneg. Qed.
Lemma shr_nonneg : forall r e n, (0 <= shr_m r)%Z -> (0 <= shr_m (fst (shr r e n)))%Z.
Proof. intros r e n H. unfold shr. destruct n; simpl; auto. now apply iter_nonneg. Qed.
Lemma loc_shr : forall m l, shr_m (shr_record_of_loc m l) = m.
Proof. intros m [|[]]; reflexivity. Qed.
Lemma round_nonneg : forall m l, (0 <= m)%Z -> (0 <= round_nearest_even m l)%Z.
Proof. intros m [|[]] H; simpl; try lia. destruct (Z.even m); lia. Qed.
Lemma round_not_nan : forall s m e l, (0 <= m)%Z -> binary_round_aux 24 128 s m e l <> S754_nan.
Proof.
  intros s m e l H. unfold binary_round_aux. unfold shr_fexp.
  pose proof (shr_nonneg (shr_record_of_loc m l) e (fexp 24 128 (Zdigits2 m + e) - e)) as A.
  rewrite loc_shr in A. specialize (A H).
  destruct (shr (shr_record_of_loc m l) e (fexp 24 128 (Zdigits2 m + e) - e)) as [r1 e1]. cbn [fst] in A.
  set (m2 := round_nearest_even (shr_m r1) (loc_of_shr_record r1)).
  assert (B : (0 <= m2)%Z) by (apply round_nonneg; exact A).
  pose proof (shr_nonneg (shr_record_of_loc m2 loc_Exact) e1 (fexp 24 128 (Zdigits2 m2 + e1) - e1)) as C.
  rewrite loc_shr in C. specialize (C B).
  destruct (shr (shr_record_of_loc m2 loc_Exact) e1 (fexp 24 128 (Zdigits2 m2 + e1) - e1)) as [r2 e2]. cbn [fst] in C.
  destruct (shr_m r2); [discriminate| |lia]. destruct (e2 <=? 128 - 24)%Z; discriminate.
Qed.


Lemma one_not_nan : forall x, finite x -> f32_mul x f32_one <> NaN.
Proof.
  intros x F. destruct x; try discriminate. cbv delta [f32_mul f32_one] beta. unfold SFmul. simpl SpecFloat.binary_normalize.
  apply round_not_nan. lia.
Qed.
Lemma zero_not_nan : forall s y, y <> NaN -> f32_add (S754_zero s) y <> NaN /\ f32_add y (S754_zero s) <> NaN.
Proof. intros s y N. destruct y as [[]|[]| |[] m e], s; simpl; split; congruence. Qed.
Lemma finite_zero : forall x, finite x -> exists s, f32_mul x f32_zero = S754_zero s.
Proof. intros x F. destruct x; try discriminate; simpl; eauto. Qed.

Section D.
Context (p : platform).
Local Notation O := (f32_num p).

Lemma dots_not_nan : forall n, finite_vec n ->
  v3_dot O n (up_vector O) <> NaN /\ v3_dot O n (right_vector O) <> NaN /\ v3_dot O n (forward_vector O) <> NaN.
Proof.
  intros n (X & Y & Z). unfold v3_dot, up_vector, right_vector, forward_vector. cbn [vx vy vz n_add n_mul n_zero n_one f32_num].
  destruct (finite_zero _ X) as [a ->]. destruct (finite_zero _ Y) as [b ->]. destruct (finite_zero _ Z) as [c ->].
  split; [|split].
  - assert (H : exists s, f32_add (S754_zero a) (S754_zero b) = S754_zero s) by (destruct a, b; simpl; eauto).
    destruct H as [s ->]. apply zero_not_nan, one_not_nan, Z.
  - apply zero_not_nan. apply zero_not_nan, one_not_nan, Y.
  - apply zero_not_nan. apply zero_not_nan, one_not_nan, X.
Qed.
Lemma abs_not_nan : forall x, x <> NaN -> f32_abs x <> NaN.
Proof. intros x N. destruct x; simpl; congruence. Qed.

Lemma choice_total : forall n, finite_vec n -> let d a := n_abs O (v3_dot O n a) in
  n_geb O (d (up_vector O)) (d (right_vector O)) && n_geb O (d (up_vector O)) (d (forward_vector O)) = true
  \/ n_geb O (d (right_vector O)) (d (up_vector O)) && n_geb O (d (right_vector O)) (d (forward_vector O)) = true
  \/ n_geb O (d (forward_vector O)) (d (up_vector O)) && n_geb O (d (forward_vector O)) (d (right_vector O)) = true.
Proof.
  intros n F. destruct (dots_not_nan n F) as (U & R & W). cbv zeta.
  exact (some_largest p _ _ _ (abs_not_nan _ U) (abs_not_nan _ R) (abs_not_nan _ W)).
Qed.

Lemma tangent_finite : forall pl, (forall a b, bp_uv pl = UVQuake a b -> finite_vec (plane_normal O pl)) ->
  exists r, vertex_tangent O pl = Ok r.
Proof.
  intros pl H. unfold vertex_tangent. destruct (bp_uv pl) as [a b|]; [|eauto]. unfold standard_tangent.
  destruct (choice_total _ (H a b eq_refl)) as [G|[G|G]]; cbv zeta in G |- *; rewrite G;
    repeat match goal with |- context [if ?b then _ else _] => destruct b end; eexists; reflexivity.
Qed.
Lemma uv_finite : forall v pl t, (forall a b, bp_uv pl = UVQuake a b -> finite_vec (plane_normal O pl)) ->
  exists r, vertex_uv O v pl t = Ok r.
Proof.
  intros v pl t H. unfold vertex_uv. destruct (bp_uv pl) as [a b|]; [|eauto].
  destruct (choice_total _ (H a b eq_refl)) as [G|[G|G]]; cbv zeta in G |- *; rewrite G;
    repeat match goal with |- context [if ?b then _ else _] => destruct b end; eexists; reflexivity.
Qed.
Lemma face_finite : forall tx e planes plane, (forall a b, bp_uv plane = UVQuake a b -> finite_vec (plane_normal O plane)) ->
  exists f, build_face O tx e planes plane = Ok f.
Proof.
  intros tx e planes plane H. unfold build_face, plane_vertices.
  destruct (mapM_total _ _ (fun pq => build_plane_vertex O (hget tx (bp_texture plane)) e planes plane (fst pq) (snd pq)) (list_prod planes planes)) as [r ->].
  - intros [p1 p2] _. cbn [fst snd]. unfold build_plane_vertex. destruct (intersect_planes O plane p1 p2); [|eauto].
    destruct (vertex_in_hull O v planes); [|eauto]. destruct (tangent_finite plane H) as [t ->]. cbn [bind].
    destruct (hget tx (bp_texture plane)) as [sz|]; [|cbn; eauto]. destruct (uv_finite v plane sz H) as [u ->]. cbn. eauto.
  - cbn. eauto.
Qed.
Theorem geometry_finite : forall tx es,
  (forall e b pl u v, In e es -> In b (e_brushes e) -> In pl b -> bp_uv pl = UVQuake u v -> finite_vec (plane_normal O pl)) ->
  exists gs, build_geometry O tx es = Ok gs.
Proof.
  intros tx es H. unfold build_geometry. apply mapM_total. intros e He. unfold build_entity_geo.
  destruct (mapM_total _ _ (build_brush O tx e) (e_brushes e)) as [r ->]; [|cbn; eauto].
  intros b Hb. unfold build_brush. destruct (mapM_total _ _ (build_face O tx e b) b) as [r ->]; [|cbn; eauto].
  intros pl Hp. apply face_finite. intros. eapply H; eauto.
Qed.

(** ** Infinite components *)
Definition infinite_or_nan (x : f32) : Prop := ~ finite x.
Lemma twice : forall a b, infinite_or_nan a \/ infinite_or_nan b -> f32_sub (f32_mul a b) (f32_mul b a) = NaN.
Proof.
  unfold infinite_or_nan, finite. intros a b [H|H].
  - destruct a as [s|s| |s m e]; try (exfalso; apply H; reflexivity); destruct b as [t|t| |t n f]; try reflexivity; destruct s, t; reflexivity.
  - destruct b as [s|s| |s m e]; try (exfalso; apply H; reflexivity); destruct a as [t|t| |t n f]; try reflexivity; destruct s, t; reflexivity.
Qed.
Lemma cross_self : forall n, ~ finite_vec n -> some_nan (v3_cross O n n).
Proof.
  intros n H. unfold some_nan, v3_cross. cbn [vx vy vz n_sub n_mul f32_num].
  assert (C : infinite_or_nan (vx n) \/ infinite_or_nan (vy n) \/ infinite_or_nan (vz n)).
  { unfold infinite_or_nan, finite_vec, finite in *. destruct (f32_finite (vx n)), (f32_finite (vy n)), (f32_finite (vz n)); intuition congruence. }
  destruct C as [C|[C|C]].
  - right. left. apply twice. auto.
  - left. apply twice. auto.
  - left. apply twice. auto.
Qed.

Lemma dot_cross_nan : forall pl, ~ finite_vec (plane_normal O pl) -> exists x, intersect_planes O pl pl pl = Some x /\ all_nan x.
Proof.
  intros pl H. unfold intersect_planes.
  assert (D : v3_dot O (v3_cross O (plane_normal O pl) (plane_normal O pl)) (plane_normal O pl) = NaN)
    by (apply dot_nan; left; now apply cross_self).
  rewrite D. unfold n_ltb. cbn [n_cmp f32_num]. rewrite nan_cmp by auto. eexists. split; [reflexivity|].
  unfold all_nan, v3_divs. cbn [vx vy vz n_div f32_num]. rewrite !nan_div by auto. auto.
Qed.

Lemma infinite_zero : forall x, infinite_or_nan x -> f32_mul x f32_zero = NaN.
Proof. unfold infinite_or_nan, finite. intros x H. destruct x; try reflexivity; exfalso; apply H; reflexivity. Qed.

Lemma tangent_infinite : forall pl, ~ finite_vec (plane_normal O pl) -> standard_tangent O pl = Panic (lit "Failed to generate tangent").
Proof.
  intros pl H. unfold standard_tangent. set (n := plane_normal O pl) in *. clearbody n.
  assert (C : infinite_or_nan (vx n) \/ infinite_or_nan (vy n) \/ infinite_or_nan (vz n)).
  { unfold infinite_or_nan, finite_vec, finite in *. destruct (f32_finite (vx n)), (f32_finite (vy n)), (f32_finite (vz n)); intuition congruence. }
  assert (G : forall a b, a = NaN \/ b = NaN -> n_geb O a b = false)
    by (intros a b N; unfold n_geb; cbn [n_cmp f32_num]; rewrite nan_cmp by auto; reflexivity).
  assert (AN : n_abs O NaN = NaN) by reflexivity.
  assert (two : forall d e f, (d = NaN /\ e = NaN) \/ (d = NaN /\ f = NaN) \/ (e = NaN /\ f = NaN) ->
    n_geb O d e && n_geb O d f = false /\ n_geb O e d && n_geb O e f = false /\ n_geb O f d && n_geb O f e = false).
  { intros d e f [[-> ->]|[[-> ->]|[-> ->]]]; rewrite !G by auto; rewrite ?andb_false_r; auto. }
  assert (N2 : let d := n_abs O (v3_dot O n (up_vector O)) in let e := n_abs O (v3_dot O n (right_vector O)) in
    let f := n_abs O (v3_dot O n (forward_vector O)) in (d = NaN /\ e = NaN) \/ (d = NaN /\ f = NaN) \/ (e = NaN /\ f = NaN)).
  { cbv zeta. unfold v3_dot, up_vector, right_vector, forward_vector. cbn [vx vy vz n_add n_mul n_zero n_one f32_num].
    destruct C as [C|[C|C]]; apply infinite_zero in C; rewrite !C.
    - left. split; reflexivity.
    - right. left. split; rewrite ?(nan_add _ NaN) by auto; reflexivity.
    - right. right. split; rewrite ?(nan_add _ NaN) by auto; reflexivity. }
  cbv zeta in N2. destruct (two _ _ _ N2) as (-> & -> & ->). reflexivity.
Qed.

Lemma face_infinite : forall tx e planes plane u v, In plane planes -> bp_uv plane = UVQuake u v -> ~ finite_vec (plane_normal O plane) ->
  exists w, build_face O tx e planes plane = Panic w.
Proof.
  intros tx e planes plane u v Hin Hu Hn. unfold build_face. apply bind_panic. unfold plane_vertices. apply bind_panic.
  apply (mapM_panic _ _ _ _ (plane, plane)); [intros; apply plane_vertex_safe|apply in_prod_iff; auto|].
  cbn [fst snd]. unfold build_plane_vertex. destruct (dot_cross_nan plane Hn) as (x & -> & Hx).
  assert (Hh : vertex_in_hull O x planes = true) by (apply hull_iff, inside_nan; left; apply Hx). rewrite Hh.
  apply bind_panic. unfold vertex_tangent. rewrite Hu, tangent_infinite by exact Hn. eauto.
Qed.

Lemma finite_dec : forall n, finite_vec n \/ ~ finite_vec n.
Proof.
  intros n. unfold finite_vec, finite. destruct (f32_finite (vx n)), (f32_finite (vy n)), (f32_finite (vz n)); intuition congruence.
Qed.

(** Success or panic, and success exactly for finite normals. *)
Theorem geometry_exact : forall tx es,
  (exists gs, build_geometry O tx es = Ok gs) <->
  (forall e b pl u v, In e es -> In b (e_brushes e) -> In pl b -> bp_uv pl = UVQuake u v -> finite_vec (plane_normal O pl)).
Proof.
  intros tx es. split; [|apply geometry_finite].
  intros (gs & E) e b pl u v He Hb Hp Hu. destruct (finite_dec (plane_normal O pl)) as [F|F]; [exact F|exfalso].
  assert (X : exists w, build_geometry O tx es = Panic w).
  { unfold build_geometry. apply (mapM_panic _ _ _ _ e); [intros; apply entity_safe|exact He|]. unfold build_entity_geo. apply bind_panic.
    apply (mapM_panic _ _ _ _ b); [intros; apply brush_safe|exact Hb|]. unfold build_brush. apply bind_panic.
    apply (mapM_panic _ _ _ _ pl); [intros; apply face_safe|exact Hp|]. eapply face_infinite; eauto. }
  destruct X as [w X]. congruence.
Qed.
Theorem geometry_outcome : forall tx es, (exists gs, build_geometry O tx es = Ok gs) \/ exists w, build_geometry O tx es = Panic w.
Proof. exact (geometry_safe p). Qed.
End D.
