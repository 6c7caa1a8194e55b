(** When planes are idle: in exact arithmetic and in floats (C115). *)
From Coq Require Import Reals Lra Lia.
From Verif Require Import Prelude F32 Text MapModel GeoModel GeoSpec RealSpec ErrorSpec CornerSpec IdleSpec GrowSpec BaseProofs GeoProofs ReworkProofs RealProofs CornerProofs IdleProofs.
Local Open Scope R_scope.

Section Exact.
Context (parse : str -> option R) (cosine radians : R -> R) (atan2 : R -> R -> R) (quat : vec3 R -> R -> vec3 R -> vec3 R) (mat2 : R -> vec2 R -> vec2 R).
Local Notation O := (real_num parse cosine radians atan2 quat mat2).

Theorem real_idle : forall b q, (forall x, (forall r, In r b -> within (/ 1000) r x) -> inner (facing q) (minus x (bp_v0 q)) < 0) -> idle O b q.
Proof.
  intros b q H. split.
  - intros p0 p1 p2 x _ (_ & _ & _ & IN). rewrite inside_iff in IN. apply behind_iff. specialize (H x IN). unfold within. pose proof (sqrt_pos (inner (facing q) (facing q))). fold (norm (facing q)) in *. lra.
  - intros p0 p1 p2 x _ (_ & _ & E & IN). rewrite inside_iff in IN. specialize (H x (fun r Hr => IN r (or_intror Hr))). apply intersect_iff in E.
    destruct E as (_ & _ & _ & _ & O0 & O1 & O2). unfold on_plane in *. split; [|split]; intros ->; lra.
Qed.
End Exact.

Theorem float_idle : forall p b q, (forall r, In r (q :: b) -> grid_plane r) -> (forall r, In r b -> clear b r) -> (forall r, In r (q :: b) -> clear (q :: b) r) ->
  (forall x, in_solid b x -> inner (facing (plane_of q)) (minus x (bp_v0 (plane_of q))) < 0) -> idle (f32_num p) b q.
Proof.
  intros p b q G C C' H. split.
  - intros p0 p1 p2 r I0 (I1 & I2 & E & IN). destruct (meeting_crossing p p0 p1 p2 r) as (x & X); try (apply G; right; assumption); [exact E|].
    assert (S : in_solid b x). { apply (kept_true p b p0 p1 p2 r x); try assumption; [|apply C; exact I0]. intros y [<-|Hy]; apply G; right; assumption. }
    assert (S' : in_solid (q :: b) x). { intros y [<-|Hy]; [|apply S; exact Hy]. specialize (H x S). unfold within. lra. }
    destruct (true_kept p (q :: b) p0 p1 p2 x) as (r' & E' & IN'); try (right; assumption); try assumption.
    + intros y [<-|Hy]; apply G; [right; assumption|exact Hy].
    + apply C'. right. exact I0.
    + assert (Er : r' = r) by congruence. subst r'. apply IN'. left. reflexivity.
  - intros p0 p1 p2 r I0 (I1 & I2 & E & IN). destruct (meeting_crossing p p0 p1 p2 r) as (x & X); try (apply G; assumption); [exact E|].
    assert (S : in_solid (q :: b) x). { apply (kept_true p (q :: b) p0 p1 p2 r x); try assumption; [|apply C'; exact I0]. intros y [<-|Hy]; apply G; assumption. }
    specialize (H x (fun y Hy => S y (or_intror Hy))). destruct X as (O0 & O1 & O2 & _). unfold on_plane in *. split; [|split]; intros ->; lra.
Qed.

(** ** Centres *)
Section Centre.
Context (parse : str -> option R) (cosine radians : R -> R) (atan2 : R -> R -> R) (quat : vec3 R -> R -> vec3 R -> vec3 R) (mat2 : R -> vec2 R -> vec2 R).
Local Notation O := (real_num parse cosine radians atan2 quat mat2).
Local Notation total l := (fold_left (v3_add O) l (V3 0 0 0)).

Lemma empty_center : forall tx e b plane f, build_face O tx e b plane = Ok f -> f_vertices f = [] -> f_center f = V3 0 0 0.
Proof.
  intros tx e b plane f E N. unfold build_face in E. apply bind_ok in E. destruct E as (vs & _ & E). injection E as <-. cbn [f_vertices f_center] in *.
  apply map_eq_nil in N. apply (f_equal (@length _)) in N. rewrite sort_by_length, map_length in N. destruct (unique_vertices O (is_phong e) vs); [|discriminate].
  unfold mean, v3_divs, v3_zero. cbn. f_equal; field.
Qed.
Lemma total_stuffed : forall fs fs' (Q : face R -> Prop), merged eq Q fs fs' -> (forall f, In f fs' -> Q f -> f_center f = V3 0 0 0) ->
  forall acc, fold_left (v3_add O) (map f_center fs') acc = fold_left (v3_add O) (map f_center fs) acc.
Proof.
  intros fs fs' Q M. induction M as [|x y l l' -> M IH|y l l' Ny M IH]; intros H acc; [reflexivity| |]; cbn [map fold_left].
  - apply IH. intros f Hf. apply H. now right.
  - rewrite (H y (or_introl eq_refl) Ny). rewrite IH by (intros f Hf; apply H; now right). f_equal. destruct acc as [a b c]. unfold v3_add. cbn. f_equal; ring.
Qed.
Theorem real_centre : forall tx e b b' g g', padded O b b' -> build_brush O tx e b = Ok g -> build_brush O tx e b' = Ok g' ->
  v3_scale O (bg_center g') (INR (length b')) = v3_scale O (bg_center g) (INR (length b)).
Proof.
  intros tx e b b' g g' P E E'. destruct (proj1 (brush_padded O tx e b b' P) g E) as (g2 & E2 & S). assert (g2 = g') by congruence. subst g2. unfold stuffed in S.
  unfold build_brush in E, E'. apply bind_ok in E, E'. destruct E as (fs & F & E), E' as (fs' & F' & E'). injection E as <-. injection E' as <-. cbn [bg_faces bg_center] in *.
  assert (T : forall acc, fold_left (v3_add O) (map f_center fs') acc = fold_left (v3_add O) (map f_center fs) acc).
  { apply (total_stuffed _ _ _ S). intros f Hf (N & _). apply mapM_ok in F'. destruct (Forall2_in_r _ _ _ _ _ _ F' Hf) as (pl & _ & B). exact (empty_center _ _ _ _ _ B N). }
  apply mapM_length in F, F'. 
  assert (L : b = [] -> b' = []). { intros ->. inversion P as [|l m q _ _ I]; [reflexivity|contradiction]. }
  destruct b as [|p0 b]; [rewrite (L eq_refl); destruct fs, fs'; cbn in F, F'; try discriminate; unfold v3_scale; cbn; f_equal; ring|].
  assert (length b' <> 0)%nat. { inversion P; subst; [discriminate|]. rewrite app_length. cbn. lia. }
  unfold mean. rewrite !map_length, T, F, F'. set (s := fold_left _ _ _). unfold v3_scale, v3_divs. cbn [vx vy vz n_mul n_div n_of_N real_num].
  rewrite !Nat.max_l by (cbn; lia). rewrite !INR_IZR_INZ, !nat_N_Z. f_equal; field; split; apply not_0_IZR; cbn; lia.
Qed.
Lemma real_centres : forall tx e b b' g g', padded O b b' -> build_brush O tx e b = Ok g -> build_brush O tx e b' = Ok g' ->
  INR (length b') * vx (bg_center g') = INR (length b) * vx (bg_center g) /\ INR (length b') * vy (bg_center g') = INR (length b) * vy (bg_center g)
  /\ INR (length b') * vz (bg_center g') = INR (length b) * vz (bg_center g).
Proof.
  intros tx e b b' g g' P E E'. pose proof (real_centre tx e b b' g g' P E E') as H. unfold v3_scale in H. cbn [n_mul real_num] in H. injection H as H1 H2 H3.
  rewrite !(Rmult_comm (INR _)). auto.
Qed.
End Centre.
