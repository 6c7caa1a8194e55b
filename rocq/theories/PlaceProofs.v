(** Where the actors of a run stand: lemmas for C109. *)
From Coq Require Import Reals Lra Lia ZArith Permutation.
From Flocq Require Import Core BinarySingleNaN Relative Plus_error.
From Verif Require Import Prelude F32 Text MapModel GeoModel LayerModel GameDataModel SceneModel RunModel
  GatherSpec SurfaceSpec GeoSpec NumberSpec LayerSpec TreeSpec PropertySpec MapSpec Utf8Spec RunSpec InvarianceSpec RealSpec WindSpec ErrorSpec PointsSpec KeptSpec PlaceSpec
  BaseProofs FloatProofs NumberProofs ColorProofs ArithProofs ExactProofs GeoProofs GeoFinal LayerProofs NodeProofs RunProofs SoundProofs InvarianceProofs
  ErrorProofs ErrorFinal PointsProofs PointsFinal KeptProofs KeptFinal.
Local Open Scope R_scope.

(** ** One sum *)
Lemma val_format : forall x, fin x -> format32 (val x).
Proof. intros x F. destruct (finite_bin' x F) as (b & -> & _). unfold val. rewrite SF2R_B2SF. apply generic_format_B2R. Qed.

Lemma sum_err : forall x y, fin x -> fin y -> Rabs (val x) <= B60 -> Rabs (val y) <= B60 ->
  fin (f32_add x y) /\ Rabs (val (f32_add x y) - (val x + val y)) <= u * Rabs (val x + val y).
Proof.
  intros x y Fx Fy Bx By. destruct (add_correct x y Fx Fy) as [F V].
  - apply rnd_big. eapply Rle_trans; [apply Rabs_triang|]. unfold B60 in *. change (IZR (2 ^ 105)) with 40564819207303340847894502572032. lra.
  - split; [exact F|]. rewrite V.
    destruct (FLT_plus_error_N_ex radix2 (SpecFloat.emin 24 128) 24 (fun x => negb (Z.even x)) _ _ (val_format x Fx) (val_format y Fy)) as (eps & E & R).
    change (FLT_exp (SpecFloat.emin 24 128) 24) with fexp32 in R. rewrite R. replace ((val x + val y) * (1 + eps) - (val x + val y)) with (eps * (val x + val y)) by ring.
    rewrite Rabs_mult. apply Rmult_le_compat_r; [apply Rabs_pos|]. eapply Rle_trans; [exact E|].
    unfold u_ro. change (bpow radix2 (- (24) + 1)) with (/ 8388608). apply Rle_trans with (/ 2 * / 8388608 / 1); [|lra].
    apply Rmult_le_compat_l; [lra|]. apply Rinv_le_contravar; lra.
Qed.

Lemma pow60 : 2 ^ 60 = B60.
Proof. unfold B60. rewrite pow_IZR. reflexivity. Qed.

Section WithPlatform.
Context (p : platform).
Local Notation O := (f32_num p).

Lemma vneg_correct : forall x, fin x -> fin (n_vneg O x) /\ val (n_vneg O x) = - val x.
Proof.
  intros x F. cbn [n_vneg f32_num]. destruct (p_simd p); [|now apply neg_correct].
  assert (Z0 : fin f32_zero) by (split; reflexivity). assert (V0 : val f32_zero = 0) by reflexivity.
  assert (G : format32 (- val x)) by (apply generic_format_opp, val_format, F).
  destruct (sub_correct f32_zero x Z0 F) as [F' V].
  - rewrite V0, Rminus_0_l, round_generic by (try apply valid_rnd_N; exact G). rewrite Rabs_Ropp. destruct (finite_bin' x F) as (b & -> & _). unfold val. rewrite SF2R_B2SF. apply abs_B2R_lt_emax.
  - split; [exact F'|]. rewrite V, V0, Rminus_0_l. apply round_generic; [apply valid_rnd_N|exact G].
Qed.

Lemma step_tame : forall a b, tame a -> tame b -> let o := v3_add O (v3_neg O a) b in
  norm (minus (shift (point_of a) (point_of o)) (point_of b)) <= u * norm (minus (point_of b) (point_of a)).
Proof.
  intros a b (Fa & A1 & A2 & A3) (Fb & B1 & B2 & B3). cbn zeta. apply finite_fins in Fa, Fb. destruct Fa as (Fa1 & Fa2 & Fa3), Fb as (Fb1 & Fb2 & Fb3).
  rewrite pow60 in *. cbn [point_of vx vy vz] in *.
  assert (H : forall x y, fin x -> fin y -> Rabs (val x) <= B60 -> Rabs (val y) <= B60 ->
    Rabs (val x + val (f32_add (n_vneg O x) y) - val y) <= u * Rabs (val y - val x)).
  { intros x y Fx Fy Bx By. destruct (vneg_correct x Fx) as [Fn Vn]. destruct (sum_err (n_vneg O x) y Fn Fy) as [_ E]; [rewrite Vn, Rabs_Ropp; exact Bx|exact By|].
    rewrite Vn in E. replace (val x + val (f32_add (n_vneg O x) y) - val y) with (val (f32_add (n_vneg O x) y) - (- val x + val y)) by ring.
    replace (val y - val x) with (- val x + val y) by ring. exact E. }
  pose proof (H _ _ Fa1 Fb1 A1 B1) as H1. pose proof (H _ _ Fa2 Fb2 A2 B2) as H2. pose proof (H _ _ Fa3 Fb3 A3 B3) as H3.
  assert (N : forall s t : vec3 R, Rabs (vx s) <= u * Rabs (vx t) -> Rabs (vy s) <= u * Rabs (vy t) -> Rabs (vz s) <= u * Rabs (vz t) -> norm s <= u * norm t).
  { clear. intros s t S1 S2 S3. apply norm_le; [apply Rmult_le_pos; [lra|apply norm_pos]|].
    replace (u * norm t * (u * norm t)) with (u * u * (norm t * norm t)) by ring. rewrite norm_sq. unfold inner.
    assert (Q : forall x y, Rabs x <= u * Rabs y -> x * x <= u * u * (y * y)).
    { intros x y L. replace (x * x) with (Rabs x * Rabs x) by (rewrite <- Rabs_mult; apply Rabs_pos_eq, Rle_0_sqr).
      replace (u * u * (y * y)) with (u * Rabs y * (u * Rabs y)) by (replace (y * y) with (Rabs y * Rabs y) by (rewrite <- Rabs_mult; apply Rabs_pos_eq, Rle_0_sqr); ring).
      apply Rmult_le_compat; auto using Rabs_pos. }
    pose proof (Q _ _ S1). pose proof (Q _ _ S2). pose proof (Q _ _ S3). lra. }
  apply N; cbn [minus shift point_of vx vy vz v3_add v3_neg n_add f32_num]; assumption.
Qed.

Lemma step_whole : forall a b, whole_point a -> whole_point b -> let o := v3_add O (v3_neg O a) b in shift (point_of a) (point_of o) = point_of b.
Proof.
  intros a b (Fa & i & j & k & Ea & La) (Fb & i' & j' & k' & Eb & Lb). cbn zeta. apply finite_fins in Fa, Fb. destruct Fa as (Fa1 & Fa2 & Fa3), Fb as (Fb1 & Fb2 & Fb3).
  injection Ea as A1 A2 A3. injection Eb as B1 B2 B3.
  assert (H : forall x y m n, fin x -> fin y -> val x = IZR m -> val y = IZR n -> (Z.abs m < 2 ^ 22)%Z -> (Z.abs n < 2 ^ 22)%Z -> val x + val (f32_add (n_vneg O x) y) = val y).
  { intros x y m n Fx Fy Vx Vy Lm Ln. destruct (int_add (n_vneg O x) y (- m) n) as [_ V]; [destruct (vneg_correct x Fx) as [Fn Vn]; split; [exact Fn|rewrite Vn, Vx; now rewrite opp_IZR]|split; assumption|lia|].
    rewrite V, Vx, Vy, <- plus_IZR. f_equal. lia. }
  unfold shift, point_of. cbn [vx vy vz v3_add v3_neg n_add f32_num].
  f_equal; eapply H; try eassumption; lia.
Qed.

Lemma zero_add : forall c, finite_point c -> point_of (v3_add O (v3_zero O) c) = point_of c.
Proof.
  intros c F. apply finite_fins in F. destruct F as (F1 & F2 & F3).
  assert (H : forall x, fin x -> val (f32_add f32_zero x) = val x).
  { intros x Fx. assert (Z0 : fin f32_zero) by (split; reflexivity). assert (V0 : val f32_zero = 0) by reflexivity.
    pose proof (val_format x Fx) as G. destruct (add_correct f32_zero x Z0 Fx) as [_ V].
    - rewrite V0, Rplus_0_l, round_generic by (try apply valid_rnd_N; exact G). destruct (finite_bin' x Fx) as (b & -> & _). unfold val. rewrite SF2R_B2SF. apply abs_B2R_lt_emax.
    - rewrite V, V0, Rplus_0_l. apply round_generic; [apply valid_rnd_N|exact G]. }
  unfold point_of. cbn [vx vy vz v3_add v3_zero n_add n_zero f32_num]. f_equal; now apply H.
Qed.

(** ** Scenes *)
Lemma stands_top : forall c, stands_at [c] (point_of (v3_add O (v3_zero O) c)).
Proof.
  intros c. split; intros H; inversion H as [|? ? (F & _)]; subst.
  - rewrite (zero_add c F). cbn [map way]. rewrite Rmult_0_r. right. unfold norm, minus, inner. cbn [vx vy vz]. rewrite <- sqrt_0. f_equal. ring.
  - apply zero_add. exact F.
Qed.

Lemma stands_step : forall c cs x c', stands_at (c :: cs) x -> stands_at (c' :: c :: cs) (shift x (point_of (v3_add O (v3_neg O c) c'))).
Proof.
  intros c cs x c' (A & B). split; intros H; inversion H as [|? ? H' Hs]; subst; inversion Hs as [|? ? Hc _]; subst.
  - specialize (A Hs). pose proof (step_tame c c' Hc H') as S. cbn zeta in S. cbn [map way] in *. set (o := point_of (v3_add O (v3_neg O c) c')) in *.
    set (W := way (point_of c :: map point_of cs)) in *. replace (2 ^ 24) with 16777216 in * by ring.
    pose proof (minus_triangle (shift x o) (shift (point_of c) o) (point_of c')) as T.
    replace (minus (shift x o) (shift (point_of c) o)) with (minus x (point_of c)) in T by (unfold minus, shift; cbn [vx vy vz]; f_equal; ring).
    lra.
  - rewrite (B Hs). now apply step_whole.
Qed.

Section Scene.
Context (gd : game_data f32) (fd : forge_data f32) (bl : blacklist) (data : list (entity f32 * entity_geo f32)).

Definition made (origin : vec3 f32) (x : entity f32 * entity_geo f32) (n : node f32) : Prop := exists fuel, build_entity O fuel gd fd bl data origin x = Ok n.

Inductive line : list (entity f32 * entity_geo f32) -> Prop :=
| LineTop x : In x (firstn 1 data) \/ In x (tl data) /\ get_property (fst x) (lit "_tb_group") = None -> line [x]
| LineBelow y x l : line (x :: l) -> In y (tl data) -> is_child (fst x) (fst y) = true -> line (y :: x :: l).

Definition actor_data (n : node f32) (x : entity f32 * entity_geo f32) : Prop :=
  exists o a ch, n = NActor o a ch /\ get_property (fst x) (lit "classname") = Some (a_name a)
    /\ (forall o' v, In (NVisual o' v) ch -> o' = eg_center (snd x)) /\ (forall o' k, In (NCollision o' k) ch -> o' = eg_center (snd x)).

Lemma made_actor : forall origin x n, made origin x n -> actor_data n x
  /\ (exists a ch, n = NActor (v3_add O origin (eg_center (snd x))) a ch)
  /\ (forall o a ch, In (NActor o a ch) (children n) -> exists y, In y (tl data) /\ is_child (fst x) (fst y) = true /\ made (v3_neg O (eg_center (snd x))) y (NActor o a ch))
  /\ (forall y, In y (tl data) -> is_child (fst x) (fst y) = true -> exists m, In m (children n) /\ made (v3_neg O (eg_center (snd x))) y m).
Proof.
  intros origin [e g] n (fuel & E). destruct fuel as [|fuel]; [discriminate|]. cbn [build_entity] in E. apply bind_ok in E. destruct E as (v & _ & E). apply bind_ok in E. destruct E as (k & _ & E).
  apply bind_ok in E. destruct E as (ch & Ec & E). apply bind_ok in E. destruct E as (nm & En & E). apply bind_ok in E. destruct E as (pr & _ & E). injection E as <-. apply mapM_ok in Ec.
  assert (Nm : get_property e (lit "classname") = Some nm) by (unfold unwrap in En; destruct (get_property e (lit "classname")); [injection En as ->; reflexivity|discriminate]).
  assert (Act : forall m, In m ch -> exists y, In y (tl data) /\ is_child e (fst y) = true /\ made (v3_neg O (eg_center g)) y m).
  { intros m Hm. destruct (Forall2_in_r _ _ _ _ _ _ Ec Hm) as (y & Hy & Ey). apply filter_In in Hy. destruct Hy as (Hy & Cy). exists y. split; [exact Hy|]. split; [exact Cy|]. now exists fuel. }
  assert (Shape : forall m, In m ch -> exists o a c, m = NActor o a c).
  { intros m Hm. destruct (Act m Hm) as ([e' g'] & _ & _ & f & Em). destruct f as [|f]; [discriminate|]. cbn [build_entity] in Em. apply bind_ok in Em. destruct Em as (v' & _ & Em).
    apply bind_ok in Em. destruct Em as (k' & _ & Em). apply bind_ok in Em. destruct Em as (ch' & _ & Em). apply bind_ok in Em. destruct Em as (nm' & _ & Em). apply bind_ok in Em. destruct Em as (pr' & _ & Em).
    injection Em as <-. eauto. }
  assert (Geo : forall m, In m (visual_nodes (eg_center g) v ++ collision_nodes (eg_center g) k ++ ch) ->
    (exists w, m = NVisual (eg_center g) w) \/ (exists w, m = NCollision (eg_center g) w) \/ In m ch).
  { intros m Hm. apply in_app_or in Hm. destruct Hm as [Hm|Hm]; [destruct v; [destruct Hm|destruct Hm as [<-|[]]; left; eauto]|].
    apply in_app_or in Hm. destruct Hm as [Hm|Hm]; [destruct k; [destruct Hm| |]; destruct Hm as [<-|[]]; right; left; eauto|auto]. }
  split; [|split; [eauto|split]].
  - do 3 eexists. split; [reflexivity|]. split; [exact Nm|]. cbn [snd]. split; intros o' w Hw; apply Geo in Hw; destruct Hw as [(z & Z)|[(z & Z)|Z]]; try congruence;
      destruct (Shape _ Z) as (? & ? & ? & K); discriminate.
  - intros o a c Hc. cbn [children] in Hc. apply Geo in Hc. destruct Hc as [(z & Z)|[(z & Z)|Z]]; try discriminate. now apply Act.
  - intros y Hy Cy. destruct (Forall2_in_l _ _ _ _ _ y Ec) as (m & Hm & Em); [apply filter_In; auto|]. exists m. split; [|now exists fuel].
    cbn [children]. apply in_or_app. right. apply in_or_app. now right.
Qed.

Context (fuel : nat) (layers : list (str * list (brush_geo f32))) (nodes : list (node f32)) (Es : build_scene O fuel gd fd bl data layers = Ok nodes).

Definition shown (path : list (node f32)) (l : list (entity f32 * entity_geo f32)) (x : vec3 R) : Prop :=
  Forall2 actor_data path l /\ stands_at (map (fun d => eg_center (snd d)) l) x
  /\ match path, l with n :: _, d :: _ => exists origin, made origin d n | _, _ => False end.

Theorem stands_line : forall path x, stands nodes path x ->
  (exists n t bs, path = [n] /\ In (t, bs) layers /\ build_layer O gd (t, bs) = Ok (Some n) /\ x = V3 0 0 0)
  \/ exists l, line l /\ shown path l x.
Proof.
  unfold build_scene in Es. pose proof Es as E. clear Es. apply bind_ok in E. destruct E as (w & Ew & E). apply bind_ok in E. destruct E as (ls & Els & E).
  apply bind_ok in E. destruct E as (os & Eo & E). injection E as <-. apply mapM_ok in Ew, Els, Eo.
  intros path x S. induction S as [o a ch I|n path x o a ch S IH I].
  - apply in_app_or in I. destruct I as [I|I]; [|apply in_app_or in I; destruct I as [I|I]].
    + right. destruct (Forall2_in_r _ _ _ _ _ _ Ew I) as (y & Hy & Ey). exists [y]. split; [constructor; now left|].
      destruct (made_actor (v3_zero O) y (NActor o a ch)) as (A & (a' & ch' & K) & _); [now exists fuel|]. injection K as -> -> ->.
      split; [constructor; [exact A|constructor]|]. split; [apply stands_top|]. exists (v3_zero O). now exists fuel.
    + left. apply filter_map_In in I. destruct I as (r & Ir & ->). destruct (Forall2_in_r _ _ _ _ _ _ Els Ir) as ([t bs] & Hd & Ed).
      exists (NActor o a ch), t, bs. split; [reflexivity|]. split; [exact Hd|]. split; [exact Ed|].
      unfold build_layer in Ed. destruct (filter _ (gd_layers gd)) as [|l0 [|]]; try discriminate. apply bind_ok in Ed. destruct Ed as (v & _ & Ed). apply bind_ok in Ed. destruct Ed as (k & _ & Ed).
      destruct (visual_nodes _ _ ++ _); [discriminate|]. injection Ed as <- _ _. reflexivity.
    + right. destruct (Forall2_in_r _ _ _ _ _ _ Eo I) as (y & Hy & Ey). apply filter_In in Hy. destruct Hy as (Hy & Gy). exists [y].
      split; [constructor; right; split; [exact Hy|]; destruct (get_property (fst y) _); [discriminate|reflexivity]|].
      destruct (made_actor (v3_zero O) y (NActor o a ch)) as (A & (a' & ch' & K) & _); [now exists fuel|]. injection K as -> -> ->.
      split; [constructor; [exact A|constructor]|]. split; [apply stands_top|]. exists (v3_zero O). now exists fuel.
  - destruct IH as [(n' & t & bs & Ep & _ & Ed & _)|(l & Ll & F & At & M)].
    + exfalso. injection Ep as -> ->. unfold build_layer in Ed. destruct (filter _ (gd_layers gd)) as [|l0 [|]]; try discriminate.
      apply bind_ok in Ed. destruct Ed as (v & _ & Ed). apply bind_ok in Ed. destruct Ed as (k & _ & Ed).
      assert (G : forall m, In m (visual_nodes (v3_zero O) v ++ collision_nodes (v3_zero O) k) -> m <> NActor o a ch).
      { intros m Hm ->. apply in_app_or in Hm. destruct Hm as [Hm|Hm]; [destruct v; [destruct Hm|destruct Hm as [Hm|[]]; discriminate]|destruct k; [destruct Hm| |]; destruct Hm as [Hm|[]]; discriminate]. }
      destruct (visual_nodes _ _ ++ _); [discriminate|]. injection Ed as <-. cbn [children] in I. exact (G _ I eq_refl).
    + right. destruct l as [|d l]; [destruct M|]. destruct M as (origin & M). destruct (made_actor _ _ _ M) as (_ & _ & Ch & _).
      destruct (Ch _ _ _ I) as (y & Hy & Cy & My). exists (y :: d :: l). split; [now constructor|].
      destruct (made_actor _ _ _ My) as (A & (a' & ch' & K) & _). injection K as -> -> ->.
      split; [constructor; assumption|]. split; [apply stands_step; exact At|]. now exists (v3_neg O (eg_center (snd d))).
Qed.

Theorem line_stands : forall l, line l -> exists path x, stands nodes path x /\ shown path l x.
Proof.
  unfold build_scene in Es. pose proof Es as E. clear Es. apply bind_ok in E. destruct E as (w & Ew & E). apply bind_ok in E. destruct E as (ls & Els & E).
  apply bind_ok in E. destruct E as (os & Eo & E). injection E as <-. apply mapM_ok in Ew, Els, Eo.
  intros l L. induction L as [y [Hy|[Hy Gy]]|y d l L IH Hy Cy].
  - destruct (Forall2_in_l _ _ _ _ _ _ Ew Hy) as (n & Hn & En). destruct (made_actor (v3_zero O) y n) as (A & (a & ch & ->) & _); [now exists fuel|].
    eexists [_], _. split; [constructor; apply in_or_app; left; exact Hn|]. split; [constructor; [exact A|constructor]|]. split; [apply stands_top|]. exists (v3_zero O). now exists fuel.
  - destruct (Forall2_in_l _ _ _ _ _ y Eo) as (n & Hn & En); [apply filter_In; split; [exact Hy|now rewrite Gy]|]. destruct (made_actor (v3_zero O) y n) as (A & (a & ch & ->) & _); [now exists fuel|].
    eexists [_], _. split; [constructor; apply in_or_app; right; apply in_or_app; right; exact Hn|]. split; [constructor; [exact A|constructor]|]. split; [apply stands_top|]. exists (v3_zero O). now exists fuel.
  - destruct IH as (path & x & S & F & At & M). destruct path as [|n path]; [destruct M|]. destruct M as (origin & M). destruct (made_actor _ _ _ M) as (_ & _ & _ & Ch).
    destruct (Ch y Hy Cy) as (m & Hm & Mm). destruct (made_actor _ _ _ Mm) as (A & (a & ch & ->) & _).
    eexists (_ :: n :: path), _. split; [econstructor; [exact S|exact Hm]|]. split; [constructor; assumption|]. split; [apply stands_step; exact At|]. eexists. exact Mm.
Qed.
End Scene.
End WithPlatform.
