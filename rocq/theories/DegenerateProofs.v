(** Planes without a normal, and when geometry building succeeds (C19). *)
From Coq Require Import SpecFloat Reals Lra.
From Flocq Require Import Core.
From Verif Require Import Prelude F32 Text MapModel GeoModel GatherSpec GeoSpec BaseProofs FloatProofs ColorProofs
  GatherProofs GeoProofs GeoFinal ExactProofs.
Local Close Scope R_scope.
Local Open Scope nat_scope.

Notation NaN := S754_nan.

(** ** NaN propagates *)
Lemma nan_mul : forall a b, a = NaN \/ b = NaN -> f32_mul a b = NaN.
Proof. intros a b [-> | ->]; [reflexivity|]. destruct a as [s|s| |s m e]; reflexivity. Qed.
Lemma nan_add : forall a b, a = NaN \/ b = NaN -> f32_add a b = NaN.
Proof. intros a b [-> | ->]; [reflexivity|]. destruct a as [s|s| |s m e]; reflexivity. Qed.
Lemma nan_sub : forall a b, a = NaN \/ b = NaN -> f32_sub a b = NaN.
Proof. intros a b [-> | ->]; [reflexivity|]. destruct a as [s|s| |s m e]; reflexivity. Qed.
Lemma nan_div : forall a b, a = NaN \/ b = NaN -> f32_div a b = NaN.
Proof. intros a b [-> | ->]; [reflexivity|]. destruct a as [s|s| |s m e]; reflexivity. Qed.
Lemma nan_cmp : forall a b, a = NaN \/ b = NaN -> f32_cmp a b = None.
Proof. intros a b [-> | ->]; [reflexivity|]. destruct a as [[]|[]| |[] m e]; reflexivity. Qed.

Definition some_nan (v : vec3 f32) : Prop := vx v = NaN \/ vy v = NaN \/ vz v = NaN.
Definition all_nan (v : vec3 f32) : Prop := vx v = NaN /\ vy v = NaN /\ vz v = NaN.

Section D.
Context (p : platform).
Local Notation O := (f32_num p).

Lemma dot_nan : forall a b, some_nan a \/ some_nan b -> v3_dot O a b = NaN.
Proof.
  intros a b H. unfold v3_dot. cbn [n_add n_mul f32_num]. unfold some_nan in H.
  assert (C : (vx a = NaN \/ vx b = NaN) \/ (vy a = NaN \/ vy b = NaN) \/ (vz a = NaN \/ vz b = NaN)) by tauto.
  destruct C as [C|[C|C]]; apply nan_mul in C.
  - apply nan_add. left. apply nan_add. auto.
  - apply nan_add. left. apply nan_add. auto.
  - apply nan_add. auto.
Qed.

Lemma cross_nan : forall a b, some_nan a -> some_nan (v3_cross O a b).
Proof.
  intros a b H. unfold v3_cross, some_nan. cbn [n_sub n_mul f32_num vx vy vz]. destruct H as [H|[H|H]].
  - right. right. apply nan_sub. left. apply nan_mul. auto.
  - left. apply nan_sub. left. apply nan_mul. auto.
  - left. apply nan_sub. right. apply nan_mul. auto.
Qed.

Lemma intersect_nan : forall p0 p1 p2, some_nan (plane_normal O p0) -> exists x, intersect_planes O p0 p1 p2 = Some x /\ all_nan x.
Proof.
  intros p0 p1 p2 H. unfold intersect_planes.
  assert (D : v3_dot O (v3_cross O (plane_normal O p0) (plane_normal O p1)) (plane_normal O p2) = NaN)
    by (apply dot_nan; left; now apply cross_nan).
  rewrite D. unfold n_ltb. cbn [n_cmp f32_num]. rewrite nan_cmp by auto. eexists. split; [reflexivity|].
  unfold all_nan, v3_divs. cbn [vx vy vz n_div f32_num]. rewrite !nan_div by auto. auto.
Qed.

Lemma inside_nan : forall planes x, some_nan x -> inside O planes x.
Proof.
  intros planes x H q Hq [G _]. unfold greater in G. cbn [n_cmp f32_num] in G. rewrite dot_nan in G by auto.
  rewrite nan_cmp in G by auto. discriminate.
Qed.

Lemma tangent_nan : forall pl, some_nan (plane_normal O pl) -> standard_tangent O pl = Panic (lit "Failed to generate tangent").
Proof.
  intros pl H. unfold standard_tangent. rewrite !dot_nan by auto. cbn [n_abs f32_num f32_abs SFabs]. 
  unfold n_geb. cbn [n_cmp f32_num]. rewrite !nan_cmp by auto. reflexivity.
Qed.

(** A failing call makes the whole fail, when no call can fail otherwise. *)
Definition safe {A} (r : res A) : Prop := (exists a, r = Ok a) \/ exists w, r = Panic w.
Lemma mapM_safe : forall A B (f : A -> res B) l, (forall x, In x l -> safe (f x)) -> safe (mapM f l).
Proof.
  induction l as [|x l IH]; intros H; [left; simpl; eauto|]. simpl.
  destruct (H x (or_introl eq_refl)) as [[y ->]|[w ->]]; simpl; [|right; eauto].
  destruct IH as [[ys ->]|[w ->]]; simpl; [intros; apply H; now right|left; eauto|right; eauto].
Qed.
Lemma mapM_panic : forall A B (f : A -> res B) l x, (forall x, In x l -> safe (f x)) -> In x l -> (exists w, f x = Panic w) ->
  exists w, mapM f l = Panic w.
Proof.
  induction l as [|y l IH]; intros x H Hx [w E]; [contradiction|]. simpl. destruct Hx as [->|Hx].
  - rewrite E. simpl. eauto.
  - destruct (H y (or_introl eq_refl)) as [[z ->]|[w' ->]]; simpl; [|eauto].
    destruct (IH x) as [w' ->]; eauto; [intros; apply H; now right|]. simpl. eauto.
Qed.
Lemma bind_safe : forall A B (r : res A) (f : A -> res B), safe r -> (forall a, r = Ok a -> safe (f a)) -> safe (bind r f).
Proof. intros A B r f [[a ->]|[w ->]] H; simpl; [auto|right; eauto]. Qed.
Lemma bind_panic : forall A B (r : res A) (f : A -> res B), (exists w, r = Panic w) -> exists w, bind r f = Panic w.
Proof. intros A B r f [w ->]. simpl. eauto. Qed.

Lemma tangent_safe : forall pl, safe (vertex_tangent O pl).
Proof.
  intros pl. unfold vertex_tangent. destruct (bp_uv pl); [|left; eauto]. unfold standard_tangent.
  repeat match goal with |- context [if ?b then _ else _] => destruct b end; first [left; eexists; reflexivity|right; eexists; reflexivity].
Qed.
Lemma uv_safe : forall v pl t, safe (vertex_uv O v pl t).
Proof.
  intros v pl t. unfold vertex_uv. destruct (bp_uv pl); [|left; eauto].
  repeat match goal with |- context [if ?b then _ else _] => destruct b end; first [left; eexists; reflexivity|right; eexists; reflexivity].
Qed.
Lemma plane_vertex_safe : forall tex e planes plane p1 p2, safe (build_plane_vertex O tex e planes plane p1 p2).
Proof.
  intros. unfold build_plane_vertex. destruct (intersect_planes O plane p1 p2); [|left; eauto].
  destruct (vertex_in_hull O v planes); [|left; eauto]. apply bind_safe; [apply tangent_safe|]. intros t _.
  apply bind_safe; [|intros; left; eauto]. destruct tex; [|left; eauto]. apply bind_safe; [apply uv_safe|left; eauto].
Qed.
Lemma face_safe : forall tx e planes plane, safe (build_face O tx e planes plane).
Proof.
  intros. unfold build_face. apply bind_safe; [|intros; left; eauto]. unfold plane_vertices. apply bind_safe; [|left; eauto].
  apply mapM_safe. intros. apply plane_vertex_safe.
Qed.
Lemma brush_safe : forall tx e b, safe (build_brush O tx e b).
Proof. intros. unfold build_brush. apply bind_safe; [|left; eauto]. apply mapM_safe. intros. apply face_safe. Qed.
Lemma entity_safe : forall tx e, safe (build_entity_geo O tx e).
Proof. intros. unfold build_entity_geo. apply bind_safe; [|intros; left; eauto]. apply mapM_safe. intros. apply brush_safe. Qed.
Theorem geometry_safe : forall tx es, safe (build_geometry O tx es).
Proof. intros. unfold build_geometry. apply mapM_safe. intros. apply entity_safe. Qed.

Lemma face_nan : forall tx e planes plane u v, In plane planes -> bp_uv plane = UVQuake u v -> some_nan (plane_normal O plane) ->
  exists w, build_face O tx e planes plane = Panic w.
Proof.
  intros tx e planes plane u v Hin Hu Hn. unfold build_face. apply bind_panic. unfold plane_vertices. apply bind_panic.
  apply (mapM_panic _ _ _ _ (plane, plane)); [intros; apply plane_vertex_safe|apply in_prod_iff; auto|].
  cbn [fst snd]. unfold build_plane_vertex. destruct (intersect_nan plane plane plane Hn) as (x & -> & Hx).
  assert (Hh : vertex_in_hull O x planes = true) by (apply hull_iff, inside_nan; left; apply Hx). rewrite Hh.
  apply bind_panic. unfold vertex_tangent. rewrite Hu, tangent_nan by exact Hn. eauto.
Qed.

Theorem geometry_nan : forall tx es e b plane u v, In e es -> In b (e_brushes e) -> In plane b -> bp_uv plane = UVQuake u v ->
  some_nan (plane_normal O plane) -> exists w, build_geometry O tx es = Panic w.
Proof.
  intros tx es e b plane u v He Hb Hp Hu Hn. unfold build_geometry.
  apply (mapM_panic _ _ _ _ e); [intros; apply entity_safe|exact He|]. unfold build_entity_geo. apply bind_panic.
  apply (mapM_panic _ _ _ _ b); [intros; apply brush_safe|exact Hb|]. unfold build_brush. apply bind_panic.
  apply (mapM_panic _ _ _ _ plane); [intros; apply face_safe|exact Hp|]. eapply face_nan; eauto.
Qed.

(** ** Coinciding points *)
Definition nil_or_nan (x : f32) : Prop := x = NaN \/ exists s, x = S754_zero s.
Definition alike (x y : f32) : Prop := (x = NaN /\ y = NaN) \/ f32_cmp x y = Some Eq.

Lemma alike_sub : forall x y, alike x y -> nil_or_nan (f32_sub x y).
Proof.
  intros x y [[-> ->]|H]; [left; reflexivity|]. apply cmp_eq in H. destruct H as [[N ->]|(s & t & -> & ->)].
  - destruct y as [s|s| |s m e]; [right; destruct s; simpl; eauto|left; destruct s; reflexivity|congruence|].
    right. unfold f32_sub, SFsub. exists false. rewrite Z.sub_diag. reflexivity.
  - right. destruct s, t; simpl; eauto.
Qed.
Lemma alike_mul : forall x y z w, alike x y -> alike z w -> alike (f32_mul x z) (f32_mul y w).
Proof.
  intros x y z w H1 H2.
  destruct H1 as [[-> ->]|H1]; [left; rewrite !nan_mul by auto; auto|].
  destruct H2 as [[-> ->]|H2]; [left; rewrite !nan_mul by auto; auto|].
  assert (Q : forall a, alike a a).
  { intros a. destruct a eqn:E; [right|right|left; auto|right]; apply cmp_eq; left; split; congruence. }
  assert (Z : forall s t a, alike (f32_mul (S754_zero s) a) (f32_mul (S754_zero t) a)).
  { intros s t a. destruct a; simpl; first [left; split; reflexivity|right; reflexivity]. }
  assert (Z' : forall s t a, alike (f32_mul a (S754_zero s)) (f32_mul a (S754_zero t))).
  { intros s t a. destruct a; simpl; first [left; split; reflexivity|right; reflexivity]. }
  apply cmp_eq in H1. apply cmp_eq in H2.
  destruct H1 as [[N ->]|(s & t & -> & ->)], H2 as [[N' ->]|(s' & t' & -> & ->)]; auto. right. reflexivity.
Qed.

Lemma zn_mul : forall x y, nil_or_nan x -> nil_or_nan (f32_mul x y) /\ nil_or_nan (f32_mul y x).
Proof.
  intros x y [-> | [s ->]]; [split; left; apply nan_mul; auto|]. unfold nil_or_nan.
  destruct y; simpl; split; eauto.
Qed.
Lemma zn_sub : forall x y, nil_or_nan x -> nil_or_nan y -> nil_or_nan (f32_sub x y).
Proof.
  intros x y [-> | [s ->]]; [left; reflexivity|]. intros [-> | [t ->]]; [left; reflexivity|].
  right. destruct s, t; simpl; eauto.
Qed.
Lemma zn_add : forall x y, nil_or_nan x -> nil_or_nan y -> nil_or_nan (f32_add x y).
Proof.
  intros x y [-> | [s ->]]; [left; reflexivity|]. intros [-> | [t ->]]; [left; reflexivity|].
  right. destruct s, t; simpl; eauto.
Qed.

Lemma normalize_zn : forall v, nil_or_nan (vx v) -> nil_or_nan (vy v) -> nil_or_nan (vz v) -> all_nan (n_normalize O v).
Proof.
  intros v X Y Z. cbn [n_normalize f32_num]. unfold normalize_with.
  set (d := f32_add (f32_add (f32_mul (vx v) (vx v)) (f32_mul (vy v) (vy v))) (f32_mul (vz v) (vz v))).
  assert (D : nil_or_nan d) by (unfold d; repeat apply zn_add; apply zn_mul; assumption).
  assert (S : nil_or_nan (f32_sqrt d)) by (destruct D as [-> | [s ->]]; [left; reflexivity|right; exists s; destruct s; reflexivity]).
  destruct (p_simd p); cbn [vx vy vz].
  - assert (Q : forall x, nil_or_nan x -> f32_div x (f32_sqrt d) = NaN).
    { intros x Hx. destruct S as [-> | [s ->]]; [apply nan_div; auto|]. destruct Hx as [-> | [t ->]]; reflexivity. }
    split; [|split]; apply Q; assumption.
  - assert (Q : forall x, nil_or_nan x -> f32_mul x (f32_div f32_one (f32_sqrt d)) = NaN).
    { intros x Hx. destruct S as [-> | [s ->]]; [apply nan_mul; right; apply nan_div; auto|].
      destruct Hx as [-> | [t ->]]; [reflexivity|]. destruct s, t; reflexivity. }
    split; [|split]; apply Q; assumption.
Qed.

Definition same_place (a b : vec3 f32) : Prop := pos_eq O a b.
Definition coincident (pl : brush_plane f32) : Prop :=
  same_place (bp_v0 pl) (bp_v1 pl) \/ same_place (bp_v0 pl) (bp_v2 pl) \/ same_place (bp_v1 pl) (bp_v2 pl).

Lemma alike_eq : forall x y, f32_cmp x y = Some Eq -> alike x y /\ alike y x.
Proof. intros x y H. split; right; [exact H|]. apply (law_sym O (f32_eq_laws p)). exact H. Qed.
Lemma alike_refl : forall a, alike a a.
Proof. intros a. destruct a eqn:E; [right|right|left; auto|right]; apply cmp_eq; left; split; congruence. Qed.
Lemma alike_sub_l : forall x y z, f32_cmp x y = Some Eq -> alike (f32_sub x z) (f32_sub y z).
Proof.
  intros x y z H. apply cmp_eq in H. destruct H as [[_ ->]|(s & t & -> & ->)]; [apply alike_refl|].
  destruct z as [r|r| |r m e]; simpl; try (right; destruct s, t, r; reflexivity); [left; auto|]. apply alike_refl.
Qed.
Lemma cross_alike : forall a b, alike (vx a) (vx b) -> alike (vy a) (vy b) -> alike (vz a) (vz b) ->
  nil_or_nan (vx (v3_cross O a b)) /\ nil_or_nan (vy (v3_cross O a b)) /\ nil_or_nan (vz (v3_cross O a b)).
Proof.
  assert (C : forall x y, f32_mul x y = f32_mul y x).
  { intros x y. destruct x as [s|s| |s m e], y as [t|t| |t n f]; try reflexivity; try (simpl; now rewrite Bool.xorb_comm).
    unfold f32_mul, SFmul. now rewrite Bool.xorb_comm, Pos.mul_comm, Z.add_comm. }
  assert (A : forall x y, alike x y -> alike y x).
  { intros x y [[-> ->]|H]; [left; auto|]. apply alike_eq. exact H. }
  intros a b X Y Z. unfold v3_cross. cbn [vx vy vz n_sub n_mul f32_num].
  split; [|split]; apply alike_sub; [rewrite (C (vz a))|rewrite (C (vx a))|rewrite (C (vy a))]; apply alike_mul; auto.
Qed.

Lemma coincident_nan : forall pl, coincident pl -> all_nan (plane_normal O pl).
Proof.
  intros pl H. unfold plane_normal.
  assert (E : forall a b, same_place a b -> nil_or_nan (vx (v3_sub O b a)) /\ nil_or_nan (vy (v3_sub O b a)) /\ nil_or_nan (vz (v3_sub O b a))).
  { intros a b (A & B & C). unfold v3_sub. cbn [vx vy vz n_sub f32_num].
    split; [|split]; apply alike_sub; apply alike_eq; assumption. }
  destruct H as [H|[H|H]].
  - destruct (E _ _ H) as (X & Y & Z). apply normalize_zn; unfold v3_cross; cbn [vx vy vz n_sub n_mul f32_num];
      (apply zn_sub; first [apply (fun x y H => proj1 (zn_mul x y H)); assumption|apply (fun x y H => proj2 (zn_mul x y H)); assumption]).
  - destruct (E _ _ H) as (X & Y & Z). apply normalize_zn; unfold v3_cross; cbn [vx vy vz n_sub n_mul f32_num];
      (apply zn_sub; first [apply (fun x y H => proj1 (zn_mul x y H)); assumption|apply (fun x y H => proj2 (zn_mul x y H)); assumption]).
  - destruct H as (A & B & C).
    assert (A' : alike (f32_sub (vx (bp_v2 pl)) (vx (bp_v0 pl))) (f32_sub (vx (bp_v1 pl)) (vx (bp_v0 pl)))).
    { apply alike_sub_l. apply (law_sym O (f32_eq_laws p)). exact A. }
    assert (B' : alike (f32_sub (vy (bp_v2 pl)) (vy (bp_v0 pl))) (f32_sub (vy (bp_v1 pl)) (vy (bp_v0 pl)))).
    { apply alike_sub_l. apply (law_sym O (f32_eq_laws p)). exact B. }
    assert (C' : alike (f32_sub (vz (bp_v2 pl)) (vz (bp_v0 pl))) (f32_sub (vz (bp_v1 pl)) (vz (bp_v0 pl)))).
    { apply alike_sub_l. apply (law_sym O (f32_eq_laws p)). exact C. }
    destruct (cross_alike (v3_sub O (bp_v2 pl) (bp_v0 pl)) (v3_sub O (bp_v1 pl) (bp_v0 pl)) A' B' C') as (X & Y & Z).
    apply normalize_zn; assumption.
Qed.

Theorem degenerate_panics : forall tx es e b plane u v, In e es -> In b (e_brushes e) -> In plane b -> bp_uv plane = UVQuake u v ->
  coincident plane -> exists w, build_geometry O tx es = Panic w.
Proof.
  intros tx es e b plane u v He Hb Hp Hu Hc. eapply geometry_nan; eauto. left. apply (coincident_nan plane Hc).
Qed.

(** ** Success *)
Definition plain_normal (pl : brush_plane f32) : Prop :=
  fin (vx (plane_normal O pl)) /\ fin (vy (plane_normal O pl)) /\ fin (vz (plane_normal O pl)).

Lemma mul_zero : forall x, fin x -> exists s, f32_mul x f32_zero = S754_zero s.
Proof. intros x [_ F]. destruct x; try discriminate; simpl; eauto. Qed.
Lemma mul_one : forall x, fin x -> fin (f32_mul x f32_one).
Proof.
  intros x F. destruct (mul_correct x f32_one F fin_one) as [H _]; [|exact H].
  rewrite val_one, Rmult_1_r. rewrite round_generic by (auto using val_format with typeclass_instances || apply val_format; apply F).
  apply val_bound. apply F.
Qed.
Lemma zero_add : forall s y, fin y -> fin (f32_add (S754_zero s) y) /\ fin (f32_add y (S754_zero s)).
Proof. intros s y [V F]. destruct y as [t|t| |t m e]; try discriminate; simpl; split; try (split; assumption); destruct s, t; split; reflexivity. Qed.
Lemma fin_z : forall s, fin (S754_zero s).
Proof. intros s; split; reflexivity. Qed.
Lemma dot_axes : forall n, fin (vx n) -> fin (vy n) -> fin (vz n) ->
  fin (v3_dot O n (up_vector O)) /\ fin (v3_dot O n (right_vector O)) /\ fin (v3_dot O n (forward_vector O)).
Proof.
  intros n X Y Z. unfold v3_dot, up_vector, right_vector, forward_vector. cbn [vx vy vz n_add n_mul n_zero n_one f32_num].
  destruct (mul_zero _ X) as [a ->]. destruct (mul_zero _ Y) as [b ->]. destruct (mul_zero _ Z) as [c ->].
  split; [|split].
  - assert (H : exists s, f32_add (S754_zero a) (S754_zero b) = S754_zero s) by (destruct a, b; simpl; eauto).
    destruct H as [s ->]. apply zero_add. apply mul_one, Z.
  - apply zero_add. apply zero_add. apply mul_one, Y.
  - apply zero_add. apply zero_add. apply mul_one, X.
Qed.
Lemma abs_nan : forall x, fin x -> f32_abs x <> NaN.
Proof. intros x [_ F]. destruct x; discriminate. Qed.

Lemma geb_false : forall a b, a <> NaN -> b <> NaN -> n_geb O a b = false -> n_geb O b a = true.
Proof.
  intros a b Ha Hb. unfold n_geb. cbn [n_cmp f32_num]. rewrite !cmp_rank by assumption.
  destruct (rank a) as [[a1 a2] a3], (rank b) as [[b1 b2] b3]. unfold lex.
  destruct (Z.compare_spec a1 b1), (Z.compare_spec b1 a1), (Z.compare_spec a2 b2), (Z.compare_spec b2 a2),
      (Z.compare_spec a3 b3), (Z.compare_spec b3 a3); try discriminate; try lia; reflexivity.
Qed.
Lemma geb_trans : forall a b c, n_geb O a b = true -> n_geb O b c = true -> n_geb O a c = true.
Proof.
  intros a b c. unfold n_geb. cbn [n_cmp f32_num]. intros H1 H2.
  assert (Ha : a <> NaN) by (intros ->; discriminate).
  assert (Hb : b <> NaN) by (intros ->; discriminate).
  assert (Hc : c <> NaN) by (intros ->; rewrite nan_cmp in H2 by auto; discriminate).
  rewrite !cmp_rank in * by assumption. 
  destruct (rank a) as [[a1 a2] a3], (rank b) as [[b1 b2] b3], (rank c) as [[c1 c2] c3]. unfold lex in *.
  destruct (Z.compare_spec a1 b1), (Z.compare_spec b1 c1), (Z.compare_spec a1 c1); try lia; try discriminate; try reflexivity;
  destruct (Z.compare_spec a2 b2), (Z.compare_spec b2 c2), (Z.compare_spec a2 c2); try lia; try discriminate; try reflexivity;
  destruct (Z.compare_spec a3 b3), (Z.compare_spec b3 c3), (Z.compare_spec a3 c3); try lia; try discriminate; try reflexivity.
Qed.
Lemma some_largest : forall a b c, a <> NaN -> b <> NaN -> c <> NaN ->
  n_geb O a b && n_geb O a c = true \/ n_geb O b a && n_geb O b c = true \/ n_geb O c a && n_geb O c b = true.
Proof.
  intros a b c Ha Hb Hc. destruct (n_geb O a b) eqn:E1, (n_geb O a c) eqn:E2; auto; right.
  - right. apply geb_false in E2; auto. rewrite E2. simpl. eapply geb_trans; eauto.
  - left. apply geb_false in E1; auto. rewrite E1. simpl. eapply geb_trans; eauto.
  - apply geb_false in E1; auto. apply geb_false in E2; auto. rewrite E1, E2. simpl.
    destruct (n_geb O b c) eqn:E3; auto. right. now apply geb_false.
Qed.

Lemma tangent_total : forall pl, plain_normal pl -> exists r, standard_tangent O pl = Ok r.
Proof.
  intros pl (X & Y & Z). destruct (dot_axes _ X Y Z) as (U & R & F). unfold standard_tangent.
  destruct (some_largest _ _ _ (abs_nan _ U) (abs_nan _ R) (abs_nan _ F)) as [H|[H|H]]; cbn [n_abs f32_num] in *; rewrite H.
  - eexists; reflexivity.
  - match goal with |- context [if ?b then _ else _] => destruct b end; eexists; reflexivity.
  - match goal with |- context [if ?b then _ else _] => destruct b end; [eexists; reflexivity|]. match goal with |- context [if ?b then _ else _] => destruct b end; eexists; reflexivity.
Qed.
Lemma uv_total : forall v pl t, (forall a b, bp_uv pl = UVQuake a b -> plain_normal pl) -> exists r, vertex_uv O v pl t = Ok r.
Proof.
  intros v pl t H. unfold vertex_uv. destruct (bp_uv pl) eqn:E; [|eauto]. destruct (H _ _ eq_refl) as (X & Y & Z).
  destruct (dot_axes _ X Y Z) as (U & R & F).
  destruct (some_largest _ _ _ (abs_nan _ U) (abs_nan _ R) (abs_nan _ F)) as [G|[G|G]]; cbn [n_abs f32_num] in *; rewrite G.
  - eexists; reflexivity.
  - match goal with |- context [if ?b then _ else _] => destruct b end; eexists; reflexivity.
  - match goal with |- context [if ?b then _ else _] => destruct b end; [eexists; reflexivity|]. match goal with |- context [if ?b then _ else _] => destruct b end; eexists; reflexivity.
Qed.

Lemma face_total : forall tx e planes plane, (forall a b, bp_uv plane = UVQuake a b -> plain_normal plane) ->
  exists f, build_face O tx e planes plane = Ok f.
Proof.
  intros tx e planes plane H. unfold build_face, plane_vertices.
  destruct (mapM_total _ _ (fun pq => build_plane_vertex O (hget tx (bp_texture plane)) e planes plane (fst pq) (snd pq)) (list_prod planes planes)) as [r ->].
  - intros [p1 p2] _. cbn [fst snd]. unfold build_plane_vertex. destruct (intersect_planes O plane p1 p2); [|eauto].
    destruct (vertex_in_hull O v planes); [|eauto].
    assert (Tg : exists t, vertex_tangent O plane = Ok t).
    { unfold vertex_tangent. destruct (bp_uv plane) eqn:E; [|eauto]. apply tangent_total. eapply H. reflexivity. }
    destruct Tg as [t ->]. simpl. destruct (hget tx (bp_texture plane)) as [size|]; [|simpl; eauto].
    destruct (uv_total v plane size H) as [r ->]. simpl. eauto.
  - simpl. eauto.
Qed.

Theorem geometry_total : forall tx es,
  (forall e b pl u v, In e es -> In b (e_brushes e) -> In pl b -> bp_uv pl = UVQuake u v -> plain_normal pl) ->
  exists gs, build_geometry O tx es = Ok gs.
Proof.
  intros tx es H. apply mapM_total. intros e He. unfold build_entity_geo.
  destruct (mapM_total _ _ (build_brush O tx e) (e_brushes e)) as [r ->]; [|simpl; eauto].
  intros b Hb. unfold build_brush. destruct (mapM_total _ _ (build_face O tx e b) b) as [r ->]; [|simpl; eauto].
  intros pl Hpl. apply face_total. intros u v Hu. eapply H; eauto.
Qed.
End D.
