(** Sorting corners gives one result, whichever stable algorithm sorts (C133). *)
From Coq Require Import Reals SpecFloat Sorted Permutation Lia.
From Verif Require Import Prelude F32 Text MapModel GeoModel GatherSpec GeoSpec NumberSpec BaseProofs GatherProofs GeoProofs GeoFinal OrderProofs
  FloatProofs NumberProofs RealSpec ErrorSpec ErrorProofs ErrorFinal WoundProofs StableSpec.
Local Close Scope R_scope.
Local Open Scope nat_scope.

(** ** Insertion sort *)
Section Sort.
Context {A : Type} (before : A -> A -> Prop) (cmp : A -> A -> comparison).

Lemma insert_map : forall (x : nat * A) l, map snd (sort_insert (fun a b => cmp (snd a) (snd b)) x l) = sort_insert cmp (snd x) (map snd l).
Proof. intros x l. induction l as [|y l IH]; [reflexivity|]. cbn. destruct (cmp (snd y) (snd x)); cbn; congruence. Qed.
Lemma sort_map : forall (l acc : list (nat * A)),
  map snd (fold_left (fun acc x => sort_insert (fun a b => cmp (snd a) (snd b)) x acc) l acc) = fold_left (fun acc x => sort_insert cmp x acc) (map snd l) (map snd acc).
Proof. induction l as [|x l IH]; intros acc; [reflexivity|]. cbn. now rewrite IH, insert_map. Qed.

Context (B : forall a b, before a b <-> cmp b a = Gt) (l : list A) (W : total_order before l).
Lemma before_or : forall a b, before a b \/ ~ before a b.
Proof. intros a b. rewrite B. destruct (cmp b a); [right|right|left]; congruence. Qed.
Lemma tied_or : forall a b, before a b \/ before b a \/ tied before a b.
Proof. intros a b. destruct (before_or a b); [auto|]. destruct (before_or b a); [auto|]. right. right. split; assumption. Qed.

(** The order on the elements of [l]. *)
Definition placed_before (x y : nat * A) : Prop := In (snd x) l /\ In (snd y) l /\ stable_order before x y.
Lemma placed_chain : forall x y z, placed_before x y -> placed_before y z -> placed_before x z.
Proof.
  intros [i a] [j b] [k c] (Ia & Ib & H1) (_ & Ic & H2). unfold placed_before, stable_order in *. cbn in *. split; [exact Ia|]. split; [exact Ic|].
  destruct W as [On Ch Ti]. destruct H1 as [H1|[T1 L1]], H2 as [H2|[T2 L2]].
  - left. eauto.
  - left. destruct (tied_or a c) as [X|[X|X]]; [exact X| |].
    + exfalso. apply (proj2 T2). eauto.
    + exfalso. apply (proj1 (Ti a c b Ia Ic Ib X (conj (proj2 T2) (proj1 T2)))). exact H1.
  - left. destruct (tied_or a c) as [X|[X|X]]; [exact X| |].
    + exfalso. apply (proj2 T1). eauto.
    + exfalso. apply (proj1 (Ti b a c Ib Ia Ic (conj (proj2 T1) (proj1 T1)) X)). exact H2.
  - right. split; [eauto|lia].
Qed.
Lemma placed_once : forall x y, placed_before x y -> placed_before y x -> False.
Proof.
  intros [i a] [j b] (Ia & Ib & H1) (_ & _ & H2). unfold stable_order in *. cbn in *. destruct W as [On _ _].
  destruct H1 as [H1|[T1 L1]], H2 as [H2|[T2 L2]]; [exact (On a b Ia Ib H1 H2)|now apply (proj2 T2)|now apply (proj2 T1)|lia].
Qed.

Lemma insert_places : forall m acc, (forall x, In x (acc ++ m) -> In (snd x) l) -> StronglySorted (fun x y => fst x < fst y) m ->
  (forall x y, In x acc -> In y m -> fst x < fst y) -> StronglySorted placed_before acc ->
  StronglySorted placed_before (fold_left (fun acc x => sort_insert (fun a b => cmp (snd a) (snd b)) x acc) m acc).
Proof.
  induction m as [|x m IH]; intros acc I S L P; [exact P|]. cbn [fold_left]. inversion_clear S as [|? ? S1 H]. rewrite Forall_forall in H.
  assert (Pm : forall y, In y (sort_insert (fun a b => cmp (snd a) (snd b)) x acc) -> y = x \/ In y acc).
  { intros y Hy. apply (Permutation_in _ (sort_insert_perm _ _ x acc)) in Hy. destruct Hy; auto. }
  apply IH; [|exact S1| |].
  - intros y Hy. apply I. rewrite in_app_iff in *. cbn. destruct Hy as [Hy|Hy]; [|auto]. destruct (Pm y Hy) as [->|]; auto.
  - intros y z Hy Hz. destruct (Pm y Hy) as [->|Hy']; [auto|apply L; cbn; auto].
  - assert (Ix : In (snd x) l) by (apply I; rewrite in_app_iff; cbn; auto).
    assert (Iy : forall y, In y acc -> In (snd y) l) by (intros y Hy; apply I; rewrite in_app_iff; auto).
    apply insert_sorted; [| |exact placed_chain|exact P].
    + intros y Hy N. split; [auto|]. split; [exact Ix|]. unfold stable_order. destruct (tied_or (snd y) (snd x)) as [X|[X|X]]; [auto| |].
      * apply B in X. congruence.
      * right. split; [exact X|]. apply L; cbn; auto.
    + intros y Hy G. split; [exact Ix|]. split; [auto|]. left. now apply B.
Qed.

Lemma places_increase : forall (m : list A) k, StronglySorted (fun x y : nat * A => fst x < fst y) (combine (seq k (length m)) m).
Proof.
  induction m as [|x m IH]; intros k; cbn; constructor; [apply IH|]. apply Forall_forall. intros [j y] H. apply in_combine_l, in_seq in H. cbn. lia.
Qed.
Lemma snd_places : forall (m : list A) k, map snd (combine (seq k (length m)) m) = m.
Proof. induction m as [|x m IH]; intros k; cbn; [reflexivity|]. now rewrite IH. Qed.
Lemma fold_perm : forall X (c : X -> X -> comparison) m acc, Permutation (m ++ acc) (fold_left (fun acc x => sort_insert c x acc) m acc).
Proof.
  intros X c m. induction m as [|x m IH]; intros acc; [reflexivity|]. cbn [fold_left]. rewrite <- IH. cbn [app].
  rewrite (sort_insert_perm _ c x acc). apply Permutation_middle.
Qed.

Theorem sort_stable : stably_sorted before l (sort_by cmp l) /\ forall s, stably_sorted before l s -> s = sort_by cmp l.
Proof.
  set (m := combine (seq 0 (length l)) l).
  set (r := fold_left (fun acc x => sort_insert (fun a b => cmp (snd a) (snd b)) x acc) m []).
  assert (Pr : Permutation m r) by (unfold r; rewrite <- fold_perm, app_nil_r; reflexivity).
  assert (Er : map snd r = sort_by cmp l) by (unfold r, m; rewrite sort_map, snd_places; reflexivity).
  assert (Im : forall x, In x m -> In (snd x) l) by (intros [i x] H; eapply in_combine_r; exact H).
  assert (Sr : StronglySorted placed_before r).
  { apply insert_places; [exact Im|apply places_increase|intros x y []|constructor]. }
  split.
  - exists r. split; [exact Pr|]. split; [exact Er|]. clear -Sr. induction Sr as [|x t S IH H]; constructor; [exact IH|].
    rewrite Forall_forall in *. intros y Hy. apply (H y Hy).
  - intros s (t & Pt & <- & St). rewrite <- Er. f_equal. apply (sorted_unique _ placed_before placed_once).
    + assert (It : forall x, In x t -> In (snd x) l) by (intros x Hx; apply Im; eapply Permutation_in; [symmetry; exact Pt|exact Hx]).
      clear -St It. induction St as [|x t S IH H]; constructor; [apply IH; intros; apply It; now right|].
      rewrite Forall_forall in *. intros y Hy. split; [apply It; now left|]. split; [apply It; now right|]. exact (H y Hy).
    + exact Sr.
    + now rewrite <- Pt.
Qed.
End Sort.

(** ** Corners *)
Section WithPlatform.
Variable p : platform.
Notation O := (f32_num p).

Lemma angles_order : forall plane l, (forall v, In v l -> angle_of O plane v <> S754_nan) \/ (forall v, In v l -> angle_of O plane v = S754_nan) ->
  total_order (ahead p plane) l.
Proof.
  intros plane l H. unfold ahead, tied, greater. destruct H as [H|H].
  - pose proof (f32_order p) as W. set (P := fun x : f32 => x <> S754_nan) in W.
    assert (N : forall a b, In a l -> In b l -> (~ greater O (angle_of O plane a) (angle_of O plane b) <-> not_above O (angle_of O plane a) (angle_of O plane b))).
    { intros a b Ia Ib. split.
      - intros G. destruct (law_total O P W _ _ (H a Ia) (H b Ib)) as [X|X]; [exact X|contradiction].
      - unfold greater. intros [X|X]; rewrite X; discriminate. }
    assert (F : forall a b, In a l -> In b l -> greater O (angle_of O plane a) (angle_of O plane b) -> ~ greater O (angle_of O plane b) (angle_of O plane a)).
    { intros a b Ia Ib G. apply N; [assumption..|]. apply (law_flip O P W). exact G. }
    split.
    + exact F.
    + intros a b c Ia Ib Ic G1 G2. destruct (law_total O P W _ _ (H a Ia) (H c Ic)) as [X|X]; [|exact X]. exfalso.
      assert (Y : not_above O (angle_of O plane b) (angle_of O plane c)) by (eapply (law_chain O P W); [apply (law_flip O P W); exact G1|exact X]).
      apply N in Y; auto.
    + intros a b c Ia Ib Ic [T1 T2] [T3 T4].
      assert (Q : forall x y, In x l -> In y l -> n_cmp O (angle_of O plane x) (angle_of O plane y) <> Some Gt -> not_above O (angle_of O plane x) (angle_of O plane y)) by (intros x y Ix Iy; apply N; assumption).
      split; (apply N; [assumption..|]); [apply (law_chain O P W _ (angle_of O plane b)); apply Q; assumption|apply (law_chain O P W _ (angle_of O plane b)); apply Q; assumption].
  - assert (Z : forall a b, In a l -> n_cmp O (angle_of O plane a) (angle_of O plane b) <> Some Gt) by (intros a b Ia; rewrite (H a Ia); discriminate).
    split.
    + intros a b Ia _ G. destruct (Z a b Ia G).
    + intros a b c Ia _ _ G. destruct (Z a b Ia G).
    + intros a b c Ia _ Ic _ _. split; apply Z; assumption.
Qed.

Theorem corners_stable : forall tx e planes plane f, build_face O tx e planes plane = Ok f ->
  exists centred, gathered p planes plane f centred
    /\ ((forall v, In v centred -> angle_of O plane v <> S754_nan) \/ (forall v, In v centred -> angle_of O plane v = S754_nan) ->
        total_order (ahead p plane) centred
        /\ exists sorted, stably_sorted (ahead p plane) centred sorted /\ Forall2 (displaced (fun x => v3_add O x (f_center f))) sorted (f_vertices f)
             /\ forall s, stably_sorted (ahead p plane) centred s -> s = sorted).
Proof.
  intros tx e planes plane f E. destruct (face_inv _ _ _ _ _ _ E) as (vs & raw & Ev & -> & C & V & _).
  exists (map (move (fun x => v3_sub O x (f_center f))) (map (finish O (is_phong e)) (lasts O vs))). split.
  - eexists. split; [eapply raw_corners; [apply f32_eq_laws|exact Ev]|]. split; [rewrite C; apply mean_is|apply move_moved].
  - intros H. pose proof (angles_order plane _ H) as W. split; [exact W|]. set (l := map (move (fun x => v3_sub O x (f_center f))) _) in *.
    destruct (sort_stable (ahead p plane) (wind_cmp O (first_edge O plane) (second_axis O plane))) with (l := l) as [S U]; [|exact W|].
    { intros a b. unfold ahead, greater, wind_cmp, angle, angle_of. destruct (n_cmp O _ _); split; congruence. }
    eexists. split; [exact S|]. split; [rewrite V; apply move_moved|exact U].
Qed.

(** Corners of written planes have angles. *)
Lemma angles_numbers : forall planes plane f centred, (forall q, In q (plane :: planes) -> grid_plane q) -> (Z.of_nat (length planes) <= 4000)%Z ->
  total_angle (p_atan2 p) -> gathered p planes plane f centred -> forall v, In v centred -> angle_of O plane v <> S754_nan.
Proof.
  intros planes plane f centred G L A (raw & CS & M & D) v Hv.
  pose proof (raw_length p planes plane raw G CS) as RL. destruct CS as (CS & _).
  assert (AL : forall x, In x (map vt_pos raw) -> fins x /\ below corner_bound (point_of x)).
  { intros x Hx. apply in_map_iff in Hx. destruct Hx as (w & <- & Hw). apply (meeting_fins p planes plane); auto. }
  destruct (mean_bound p _ _ M) as (Fc & Bc); [rewrite map_length; nia|exact AL|].
  destruct (Forall2_right _ _ _ _ D Hv) as (w & Hw & (E & _)). destruct (AL (vt_pos w)) as (Fw & Bw); [now apply in_map|].
  destruct (local_err p _ _ Fw Fc Bw Bc) as (Fl & Bl & _). destruct (axes_near p plane) as (Fu & Bu & _ & _ & Fv & Bv & _); [apply G; now left|].
  unfold angle_of. rewrite E. cbn [n_atan2 f32_num]. rewrite !(dot_swap p (v3_sub O (vt_pos w) (f_center f))).
  apply A; apply finite_fin; [exact (proj1 (dot_err p _ _ Fv Fl Bv Bl))|exact (proj1 (dot_err p _ _ Fu Fl Bu Bl))].
Qed.

Theorem written_stable : forall tx e planes plane f, build_face O tx e planes plane = Ok f ->
  (forall q, In q (plane :: planes) -> grid_plane q) -> (Z.of_nat (length planes) <= 4000)%Z -> total_angle (p_atan2 p) ->
  exists centred sorted, gathered p planes plane f centred /\ total_order (ahead p plane) centred /\ stably_sorted (ahead p plane) centred sorted
    /\ Forall2 (displaced (fun x => v3_add O x (f_center f))) sorted (f_vertices f) /\ forall s, stably_sorted (ahead p plane) centred s -> s = sorted.
Proof.
  intros tx e planes plane f E G L A. destruct (corners_stable _ _ _ _ _ E) as (centred & C & H).
  destruct H as (W & sorted & S & D & U); [left; eapply angles_numbers; eassumption|]. exists centred, sorted. auto.
Qed.
End WithPlatform.
