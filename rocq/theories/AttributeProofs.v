(** Normals, tangents and texture coordinates of face corners (C63 to C66). *)
From Coq Require Import Permutation.
From Verif Require Import Prelude F32 Text MapModel GeoModel GatherSpec GeoSpec BaseProofs GatherProofs GeoProofs.

Section Attribute.
Context {T : Type} (O : num T) (L : eq_laws O).

Lemma lasts_split : forall vs v, In v (lasts O vs) -> exists l1 l2, vs = l1 ++ v :: l2
  /\ forall w, In w l2 -> ~ pos_eq O (vt_pos w) (vt_pos v).
Proof.
  induction vs as [|a vs IH]; intros v H; [contradiction|]. simpl in H. destruct (existsb _ vs) eqn:E.
  - destruct (IH v H) as (l1 & l2 & -> & N). exists (a :: l1), l2. auto.
  - destruct H as [<-|H].
    + exists [], vs. split; [reflexivity|]. intros w Hw P. apply Bool.not_true_iff_false in E. apply E.
      apply existsb_exists. exists w. split; [exact Hw|]. now apply eqb_pos.
    + destruct (IH v H) as (l1 & l2 & -> & N). exists (a :: l1), l2. auto.
Qed.

Lemma filter_map_split : forall A (os : list (option A)) l1 v l2, filter_map (fun o => o) os = l1 ++ v :: l2 ->
  exists o1 o2, os = o1 ++ Some v :: o2 /\ filter_map (fun o => o) o2 = l2.
Proof.
  intros A. induction os as [|o os IH]; intros l1 v l2 E; simpl in E; [destruct l1; discriminate|].
  destruct o as [x|].
  - destruct l1 as [|y l1]; simpl in E; injection E as -> E.
    + exists [], os. auto.
    + destruct (IH _ _ _ E) as (o1 & o2 & -> & F). exists (Some y :: o1), o2. auto.
  - destruct (IH _ _ _ E) as (o1 & o2 & -> & F). exists (None :: o1), o2. auto.
Qed.

Lemma Forall2_split_r : forall A B (R : A -> B -> Prop) l r1 b r2, Forall2 R l (r1 ++ b :: r2) ->
  exists l1 a l2, l = l1 ++ a :: l2 /\ R a b /\ Forall2 R l2 r2.
Proof.
  intros A B R l r1 b r2 H. apply Forall2_app_inv_r in H. destruct H as (l1 & l2 & _ & H & ->). inv H. eauto 6.
Qed.

(** Where a corner comes from. *)
Theorem corner_origin : forall tx e planes plane f v, build_face O tx e planes plane = Ok f -> In v (f_vertices f) ->
  exists p1 p2 x, last_pair O planes plane p1 p2 x
    /\ vt_pos v = v3_add O (v3_sub O x (f_center f)) (f_center f)
    /\ vt_normal v = (if is_phong e then n_normalize O (vertex_normal O e plane p1 p2) else vertex_normal O e plane p1 p2)
    /\ vertex_tangent O plane = Ok (vt_tangent v)
    /\ match hget tx (bp_texture plane) with
       | Some t => exists r, vertex_uv O x plane t = Ok r /\ vt_uv v = Some r
       | None => vt_uv v = None
       end.
Proof.
  intros tx e planes plane f v E Hv. destruct (face_inv _ _ _ _ _ _ E) as (vs & raw & Ev & -> & C & V & _).
  rewrite V in Hv. apply in_map_iff in Hv. destruct Hv as (a & <- & Ha).
  apply (Permutation_in _ (sort_by_perm _ _ _)) in Ha. apply in_map_iff in Ha. destruct Ha as (b & <- & Hb).
  apply in_map_iff in Hb. destruct Hb as (g & <- & Hg).
  destruct (lasts_split _ _ Hg) as (l1 & l2 & Es & Nl).
  unfold plane_vertices in Ev. apply bind_ok in Ev. destruct Ev as (os & Eo & Ef). injection Ef as Ef. rewrite Es in Ef.
  destruct (filter_map_split _ _ _ _ _ Ef) as (o1 & o2 & Eos & Fo). apply mapM_ok in Eo. rewrite Eos in Eo.
  destruct (Forall2_split_r _ _ _ _ _ _ _ Eo) as (q1 & [p1 p2] & q2 & Ep & Bg & F2). cbn [fst snd] in Bg.
  destruct (vertex_inv _ _ _ _ _ _ _ _ Bg) as (t & uv & I & Hin & Et & Eu & Eg).
  exists p1, p2, (vt_pos g). split; [|split; [|split; [|split]]].
  - exists q1, q2. split; [exact Ep|]. split.
    + assert (Hp : In (p1, p2) (list_prod planes planes)) by (rewrite Ep; apply in_app_iff; right; left; reflexivity).
      apply in_prod_iff in Hp. unfold meets. tauto.
    + intros r1 r2 y Hr (_ & _ & Iy & Hy) P. destruct (Forall2_in_l _ _ _ _ _ _ F2 Hr) as (o & Ho & Eo2). cbn [fst snd] in Eo2.
      destruct o as [w|]; [|exact (vertex_none _ _ _ _ _ _ _ Eo2 _ Iy Hy)].
      destruct (vertex_inv _ _ _ _ _ _ _ _ Eo2) as (t' & uv' & Iw & _). assert (y = vt_pos w) by congruence. subst y.
      apply (Nl w); [rewrite <- Fo; apply filter_map_In; eauto|]. apply (pos_sym O L). exact P.
  - unfold move. cbn [vt_pos]. now rewrite finish_pos.
  - unfold move, finish. cbn [vt_normal]. rewrite Eg. cbn [vt_normal]. destruct (is_phong e); reflexivity.
  - unfold move, finish. cbn [vt_tangent]. rewrite Et, Eg. cbn [vt_tangent]. destruct (is_phong e); reflexivity.
  - unfold move, finish. cbn [vt_uv].
    assert (Q : vt_uv (if is_phong e then set_normal g (n_normalize O (vt_normal g)) else g) = uv)
      by (rewrite Eg; destruct (is_phong e); reflexivity).
    rewrite Q. destruct (hget tx (bp_texture plane)); [|exact Eu]. destruct Eu as (r & Er & ->). eauto.
Qed.

Lemma gtb_cases : forall a b, (greater O a b /\ n_gtb O a b = true) \/ (~ greater O a b /\ n_gtb O a b = false).
Proof. intros a b. unfold greater, n_gtb. destruct (n_cmp O a b) as [[]|]; auto; right; split; congruence. Qed.

Lemma phong_smooth : forall (e : entity T) p0 p1 p2, smooth O (hget (e_props e) (lit "_phong_angle")) p0 p1 p2
  (phong_normal O p0 p1 p2 (get_property e (lit "_phong_angle"))).
Proof.
  intros e p0 p1 p2. unfold get_property. destruct (hget (e_props e) (lit "_phong_angle")) as [s|]; unfold phong_normal, smooth; cbv zeta.
  - destruct (n_parse O s) as [a|]; [|reflexivity].
    match goal with |- context [n_gtb O ?a ?b] => destruct (gtb_cases a b) as [[G1 ->]|[G1 ->]] end;
    match goal with |- context [n_gtb O ?a ?b] => destruct (gtb_cases a b) as [[G2 ->]|[G2 ->]] end;
      (eexists; eexists; split; [|split; [|reflexivity]]); solve [left; auto|right; auto].
  - reflexivity.
Qed.

Theorem phong_normals : forall tx e planes plane f v, build_face O tx e planes plane = Ok f -> In v (f_vertices f) -> phong e ->
  exists p1 p2 x n, last_pair O planes plane p1 p2 x
    /\ vt_pos v = v3_add O (v3_sub O x (f_center f)) (f_center f)
    /\ smooth O (hget (e_props e) (lit "_phong_angle")) plane p1 p2 n /\ vt_normal v = n_normalize O n.
Proof.
  intros tx e planes plane f v E Hv P. apply is_phong_iff in P.
  destruct (corner_origin _ _ _ _ _ _ E Hv) as (p1 & p2 & x & Lp & Ep & En & _). rewrite P in En. unfold vertex_normal in En.
  rewrite P in En. eexists p1, p2, x, _. split; [exact Lp|]. split; [exact Ep|]. split; [apply phong_smooth|exact En].
Qed.
End Attribute.

Theorem phong_c64 : forall p tx e planes plane f v, build_face (f32_num p) tx e planes plane = Ok f -> In v (f_vertices f) -> phong e ->
  exists p1 p2 x n, last_pair (f32_num p) planes plane p1 p2 x
    /\ vt_pos v = v3_add (f32_num p) (v3_sub (f32_num p) x (f_center f)) (f_center f)
    /\ smooth (f32_num p) (hget (e_props e) (lit "_phong_angle")) plane p1 p2 n /\ vt_normal v = n_normalize (f32_num p) n.
Proof. intros p. exact (phong_normals _ (f32_eq_laws p)). Qed.
