(** Texture coordinates and tangents over the real numbers (C65, C66). *)
From Coq Require Import Reals Lra Psatz.
From Flocq Require Import Core.
From Verif Require Import Prelude F32 Text MapModel GeoModel GatherSpec GeoSpec RealSpec BaseProofs GeoProofs AttributeProofs RealProofs.
Local Open Scope R_scope.

Section RealGeo.
Context (parse : str -> option R) (cosine radians : R -> R) (atan2 : R -> R -> R)
  (quat : vec3 R -> R -> vec3 R -> vec3 R) (mat2 : R -> vec2 R -> vec2 R).
Local Notation O := (real_num parse cosine radians atan2 quat mat2).

Lemma geb_true : forall a b, n_geb O a b = true <-> b <= a.
Proof. intros a b. unfold n_geb. cbn [n_cmp real_num]. destruct (Rcompare_spec a b); split; intros; try lra; try discriminate; reflexivity. Qed.
Lemma geb_false : forall a b, n_geb O a b = false <-> a < b.
Proof. intros a b. unfold n_geb. cbn [n_cmp real_num]. destruct (Rcompare_spec a b); split; intros; try lra; try discriminate; reflexivity. Qed.

Lemma abs_scaled : forall x k, 0 < k -> Rabs (x / k) = Rabs x / k.
Proof. intros x k K. unfold Rdiv. rewrite Rabs_mult, (Rabs_pos_eq (/ k)); [reflexivity|]. apply Rlt_le, Rinv_0_lt_compat, K. Qed.

Lemma div_le : forall a b k, 0 < k -> (a / k <= b / k <-> a <= b).
Proof.
  intros a b k K. pose proof (Rinv_0_lt_compat k K) as I. unfold Rdiv. split; intros H.
  - now apply Rmult_le_reg_r in H.
  - apply Rmult_le_compat_r; [lra|exact H].
Qed.
Lemma div_lt : forall a b k, 0 < k -> (a / k < b / k <-> a < b).
Proof.
  intros a b k K. pose proof (Rinv_0_lt_compat k K) as I. unfold Rdiv. split; intros H.
  - now apply Rmult_lt_reg_r in H.
  - now apply Rmult_lt_compat_r.
Qed.

Lemma dominant_scaled : forall pl a, mostly (plane_normal O pl) a -> mostly (facing pl) a.
Proof.
  intros pl a H. rewrite normal_real in H. destruct (Req_dec (norm (facing pl)) 0) as [Z|P].
  - rewrite (norm_zero _ Z) in *. unfold Rdiv in H. destruct a; cbn in *; rewrite !Rmult_0_l in H; exact H.
  - pose proof (norm_pos _ P) as K.
    destruct a; cbn [mostly vx vy vz] in *; rewrite !abs_scaled, ?div_le, ?div_lt in H by exact K; exact H.
Qed.

Lemma unit_is : forall pl, unit_of (facing pl) (plane_normal O pl).
Proof.
  intros pl. unfold unit_of. rewrite normal_real. destruct (Req_dec (norm (facing pl)) 0) as [Z|P]; [left|right]; (split; [assumption|]).
  - rewrite (norm_zero _ Z). cbn [vx vy vz]. unfold Rdiv. now rewrite Rmult_0_l.
  - reflexivity.
Qed.

Lemma axes : forall n, v3_dot O n (up_vector O) = vz n /\ v3_dot O n (right_vector O) = vy n /\ v3_dot O n (forward_vector O) = vx n.
Proof. intros n. rewrite !dot_real. unfold inner. cbn. repeat split; ring. Qed.

Lemma uv_real : forall x pl size t, vertex_uv O x pl size = Ok t -> uv_of radians mat2 pl size x t.
Proof.
  assert (K : forall r pl size u v,
    v2_add O (v2_div O (v2_div O r (texture_size O size)) (bp_scale pl)) (v2_div O (V2 u v) (texture_size O size))
    = texels (bp_scale pl) (V2 u v) size r).
  { intros r pl size u v. unfold texels, v2_add, v2_div, texture_size. cbn [ux uy n_add n_div n_of_N real_num]. unfold Rdiv. f_equal; ring. }
  intros x pl size t E. unfold uv_of, vertex_uv in *. destruct (bp_uv pl) as [u v|ua u va v].
  - destruct (axes (plane_normal O pl)) as (Az & Ay & Ax). rewrite Az, Ay, Ax in E. cbn [n_abs real_num] in E. cbv zeta in E.
    destruct (n_geb O (Rabs (vz (plane_normal O pl))) (Rabs (vy (plane_normal O pl)))
              && n_geb O (Rabs (vz (plane_normal O pl))) (Rabs (vx (plane_normal O pl)))) eqn:E1.
    + simpl bind in E. injection E as <-. exists AxisZ. split; [|apply K]. apply dominant_scaled. apply andb_prop in E1.
      rewrite !geb_true in E1. exact E1.
    + destruct (n_geb O (Rabs (vy (plane_normal O pl))) (Rabs (vz (plane_normal O pl)))
              && n_geb O (Rabs (vy (plane_normal O pl))) (Rabs (vx (plane_normal O pl)))) eqn:E2.
      * simpl bind in E. injection E as <-. exists AxisY. split; [|apply K]. apply dominant_scaled. apply andb_prop in E2.
        rewrite !geb_true in E2. apply Bool.andb_false_iff in E1. rewrite !geb_false in E1. cbn [mostly]. lra.
      * destruct (n_geb O (Rabs (vx (plane_normal O pl))) (Rabs (vz (plane_normal O pl)))
              && n_geb O (Rabs (vx (plane_normal O pl))) (Rabs (vy (plane_normal O pl)))) eqn:E3; [|discriminate].
        simpl bind in E. injection E as <-. exists AxisX. split; [|apply K]. apply dominant_scaled. apply andb_prop in E3.
        rewrite !geb_true in E3. apply Bool.andb_false_iff in E1. apply Bool.andb_false_iff in E2.
        rewrite !geb_false in E1, E2. cbn [mostly]. lra.
  - injection E as <-. apply K.
Qed.

Lemma sign_is : forall x, sign x (n_signum O x).
Proof. intros x. cbn. unfold sign. destruct (Rle_dec 0 x); [left|right]; split; auto; lra. Qed.
Lemma sign_scaled : forall x k s, 0 < k -> sign (x / k) s -> sign x s.
Proof.
  intros x k s K [[H ->]|[H ->]]; [left|right]; (split; [|reflexivity]); pose proof (Rinv_0_lt_compat k K); unfold Rdiv in H; nra.
Qed.
Lemma sign_vec : forall pl (g : vec3 R -> R) s,
  (forall n k, g (V3 (vx n / k) (vy n / k) (vz n / k)) = g n / k) -> g (V3 0 0 0) = 0 -> sign (g (plane_normal O pl)) s -> sign (g (facing pl)) s.
Proof.
  intros pl g s G Z H. rewrite normal_real in H. rewrite G in H. destruct (Req_dec (norm (facing pl)) 0) as [N|P].
  - rewrite (norm_zero _ N) in *. rewrite Z in *. unfold Rdiv in H. rewrite Rmult_0_l in H. exact H.
  - eapply sign_scaled; [exact (norm_pos _ P)|exact H].
Qed.

Lemma tangent_real : forall pl t w, vertex_tangent O pl = Ok (t, w) -> tangent_of radians quat pl t w.
Proof.
  intros pl t w E. unfold tangent_of, vertex_tangent, standard_tangent in *. destruct (bp_uv pl) as [u v|ua u va v].
  - destruct (axes (plane_normal O pl)) as (Az & Ay & Ax). rewrite Az, Ay, Ax in E. cbn [n_abs real_num] in E. cbv zeta in E.
    destruct (n_geb O (Rabs (vz (plane_normal O pl))) (Rabs (vy (plane_normal O pl)))
              && n_geb O (Rabs (vz (plane_normal O pl))) (Rabs (vx (plane_normal O pl)))) eqn:E1.
    + injection E as <- <-. exists AxisZ. do 4 eexists. split; [|split; [|split; [|split; [|split]]]];
        [|split; [reflexivity|]|apply unit_is|reflexivity|apply sign_is|reflexivity].
      * apply dominant_scaled. apply andb_prop in E1. rewrite !geb_true in E1. exact E1.
      * apply (sign_vec pl vz); [reflexivity|reflexivity|apply sign_is].
    + destruct (n_geb O (Rabs (vy (plane_normal O pl))) (Rabs (vz (plane_normal O pl)))
              && n_geb O (Rabs (vy (plane_normal O pl))) (Rabs (vx (plane_normal O pl)))) eqn:E2.
      * injection E as <- <-. exists AxisY. do 4 eexists. split; [|split; [|split; [|split; [|split]]]];
        [|split; [reflexivity|]|apply unit_is|reflexivity|apply sign_is|reflexivity].
        -- apply dominant_scaled. apply andb_prop in E2. rewrite !geb_true in E2. apply Bool.andb_false_iff in E1.
           rewrite !geb_false in E1. cbn [mostly]. lra.
        -- apply (sign_vec pl vy); [reflexivity|reflexivity|]. rewrite Ropp_involutive. apply sign_is.
      * destruct (n_geb O (Rabs (vx (plane_normal O pl))) (Rabs (vz (plane_normal O pl)))
              && n_geb O (Rabs (vx (plane_normal O pl))) (Rabs (vy (plane_normal O pl)))) eqn:E3; [|discriminate].
        injection E as <- <-. exists AxisX. do 4 eexists. split; [|split; [|split; [|split; [|split]]]];
        [|split; [reflexivity|]|apply unit_is|reflexivity|apply sign_is|reflexivity].
        -- apply dominant_scaled. apply andb_prop in E3. rewrite !geb_true in E3. apply Bool.andb_false_iff in E1.
           apply Bool.andb_false_iff in E2. rewrite !geb_false in E1, E2. cbn [mostly]. lra.
        -- apply (sign_vec pl vx); [reflexivity|reflexivity|apply sign_is].
  - injection E as <- <-. split; [reflexivity|]. rewrite Ropp_involutive.
    apply (sign_vec pl (fun n => inner (outer n ua) va)).
    + intros n k. unfold inner, outer. cbn [vx vy vz]. unfold Rdiv. ring.
    + unfold inner, outer. cbn [vx vy vz]. ring.
    + apply sign_is.
Qed.

Lemma moved_back : forall x c : vec3 R, v3_add O (v3_sub O x c) c = x.
Proof. intros. apply v3_ext; cbn; ring. Qed.

Theorem real_uv : forall tx e planes plane f v size, build_face O tx e planes plane = Ok f -> In v (f_vertices f) ->
  hget tx (bp_texture plane) = Some size -> exists t, vt_uv v = Some t /\ uv_of radians mat2 plane size (vt_pos v) t.
Proof.
  intros tx e planes plane f v size E Hv Hs.
  destruct (corner_origin O (real_laws _ _ _ _ _ _) _ _ _ _ _ _ E Hv) as (p1 & p2 & x & _ & Ex & _ & _ & U).
  rewrite Hs in U. destruct U as (r & Er & Eu). exists r. split; [exact Eu|]. rewrite Ex, moved_back. apply uv_real. exact Er.
Qed.

Theorem real_tangent : forall tx e planes plane f v, build_face O tx e planes plane = Ok f -> In v (f_vertices f) ->
  tangent_of radians quat plane (fst (vt_tangent v)) (snd (vt_tangent v)).
Proof.
  intros tx e planes plane f v E Hv. apply tangent_real. rewrite <- surjective_pairing. eapply tangents_shared; eassumption.
Qed.
End RealGeo.
