(** Geometry gathering: deduplication and index bookkeeping (C30 to C32). *)
From Coq Require Import SpecFloat Sorted.
From Verif Require Import Prelude F32 Text MapModel GeoModel LayerModel GameDataModel SceneModel GatherSpec BaseProofs.

Lemma cmp_eq : forall a b, f32_cmp a b = Some Eq <->
  (a <> S754_nan /\ a = b) \/ (exists s t, a = S754_zero s /\ b = S754_zero t).
Proof.
  intros a b. unfold f32_cmp. split.
  - destruct a as [[]|[]| |[] ma ea], b as [[]|[]| |[] mb eb]; simpl; intros H; try discriminate;
      try (right; eauto; fail); try (left; split; [discriminate|reflexivity]).
    + left. split; [discriminate|]. destruct (Z.compare_spec ea eb) as [->| |]; try discriminate.
      change (Some (CompOpp (Pos.compare ma mb)) = Some Eq) in H.
      destruct (Pos.compare_spec ma mb); try discriminate. now subst.
    + left. split; [discriminate|]. destruct (Z.compare_spec ea eb) as [->| |]; try discriminate.
      change (Some (Pos.compare ma mb) = Some Eq) in H.
      destruct (Pos.compare_spec ma mb); try discriminate. now subst.
  - intros [[Hn ->]|(s & t & -> & ->)]; [|reflexivity].
    destruct b as [[]|[]| |[] m e]; simpl; try reflexivity; try congruence.
    + rewrite Z.compare_refl. change (Some (CompOpp (Pos.compare m m)) = Some Eq). now rewrite Pos.compare_refl.
    + rewrite Z.compare_refl. change (Some (Pos.compare m m) = Some Eq). now rewrite Pos.compare_refl.
Qed.

Lemma f32_eq_laws : forall p, eq_laws (f32_num p).
Proof.
  intros p. split; simpl; intros a b.
  - rewrite !cmp_eq. intros [[H ->]|(s & t & -> & ->)]; [left; auto|right; eauto].
  - intros c. rewrite !cmp_eq. intros [[H ->]|(s & t & -> & ->)]; [auto|].
    intros [[H <-]|(s' & t' & E & ->)]; right; eauto.
Qed.

Section Gather.
Context {T : Type} (O : num T).

Lemma eqb_num : forall a b, n_eqb O a b = true <-> num_eq O a b.
Proof. intros a b. unfold n_eqb, num_eq. destruct (n_cmp O a b) as [[]|]; split; intros H; auto; discriminate. Qed.

Lemma eqb_pos : forall a b, v3_eqb O a b = true <-> pos_eq O a b.
Proof. intros a b. unfold v3_eqb, pos_eq. rewrite !andb_true_iff, !eqb_num. tauto. Qed.

Lemma eqb_position : forall a b, same_position O a b = true <-> vertex_pos_eq O a b.
Proof. intros a b. apply eqb_pos. Qed.

Lemma eqb_vertex : forall a b, same_vertex O a b = true <-> vertex_eq O a b.
Proof.
  intros a b. unfold same_vertex, vertex_eq. rewrite !andb_true_iff, !eqb_pos, eqb_num.
  assert (U : option_eqb (v2_eqb O) (vt_uv a) (vt_uv b) = true <->
     opt_eq (fun x y => num_eq O (ux x) (ux y) /\ num_eq O (uy x) (uy y)) (vt_uv a) (vt_uv b)).
  { destruct (vt_uv a), (vt_uv b); simpl; try (split; [discriminate|tauto]); try tauto.
    unfold v2_eqb. rewrite andb_true_iff, !eqb_num. tauto. }
  assert (C : option_eqb (color_eqb O) (vt_color a) (vt_color b) = true <->
     opt_eq (fun x y => num_eq O (c_r x) (c_r y) /\ num_eq O (c_g x) (c_g y) /\ num_eq O (c_b x) (c_b y)) (vt_color a) (vt_color b)).
  { destruct (vt_color a), (vt_color b); simpl; try (split; [discriminate|tauto]); try tauto.
    unfold color_eqb. rewrite !andb_true_iff, !eqb_num. tauto. }
  rewrite U, C. tauto.
Qed.

(** ** The filter loop *)
Section Filter.
Context (pred : nat -> vertex T -> list (vertex T) -> bool) (vs : list (vertex T)).

Definition kept (i : nat) : bool := match nth_error vs i with Some v => pred i v vs | None => true end.
Definition dest (i : nat) : nat :=
  match nth_error vs i with
  | Some v => match position (fun c => same_position O c v) vs with Some k => k | None => i end
  | None => i
  end.

(** A dropped vertex has an earlier one at its position, and the first such one is kept. *)
Hypothesis dropped : forall i v, nth_error vs i = Some v -> pred i v vs = false ->
  exists k, position (fun c => same_position O c v) vs = Some k /\ k < i /\ kept k = true.

Definition target (i : nat) : nat := if kept i then i else dest i.
Definition moved (j n x : nat) : nat := if (x <? j) || (j + n <=? x) then x else target x.

Lemma moved_in : forall j n x, j <= x < j + n -> moved j n x = target x.
Proof. intros. unfold moved. replace (x <? j) with false by lia. replace (j + n <=? x) with false by lia. reflexivity. Qed.
Lemma moved_before : forall j n x, x < j -> moved j n x = x.
Proof. intros. unfold moved. replace (x <? j) with true by lia. reflexivity. Qed.
Lemma moved_step : forall j n x, x <> j -> moved (S j) n x = moved j (S n) x.
Proof. intros. unfold moved. replace (x <? S j) with (x <? j) by lia. rewrite Nat.add_succ_r. reflexivity. Qed.

Lemma filter_loop_spec : forall l j indices ni nv,
  (forall k, k < length l -> nth_error vs (j + k) = nth_error l k) -> j + length l = length vs ->
  filter_loop O pred vs (enumerate_from j l) indices ni nv =
  Ok (map (moved j (length l)) indices,
      ni ++ map fst (filter (fun x => kept (fst x)) (enumerate_from j l)),
      nv ++ map snd (filter (fun x => kept (fst x)) (enumerate_from j l))).
Proof.
  induction l as [|v l IH]; intros j indices ni nv Hl Hn.
  - simpl. rewrite !app_nil_r. do 3 f_equal. symmetry. rewrite <- map_id. apply map_ext.
    intros x. unfold moved. simpl. destruct (x <? j) eqn:A; [reflexivity|]. simpl.
    replace (j + 0 <=? x) with true by lia. reflexivity.
  - cbn [enumerate_from filter_loop].
    assert (Hv : nth_error vs j = Some v).
    { specialize (Hl 0 ltac:(simpl; lia)). rewrite Nat.add_0_r in Hl. exact Hl. }
    assert (IH' : forall ix a b, filter_loop O pred vs (enumerate_from (S j) l) ix a b =
      Ok (map (moved (S j) (length l)) ix,
          a ++ map fst (filter (fun x => kept (fst x)) (enumerate_from (S j) l)),
          b ++ map snd (filter (fun x => kept (fst x)) (enumerate_from (S j) l)))).
    { intros. apply IH; [|simpl in Hn; lia]. intros k Hk. specialize (Hl (S k) ltac:(simpl; lia)).
      rewrite Nat.add_succ_r in Hl. exact Hl. }
    assert (Kj : kept j = pred j v vs) by (unfold kept; now rewrite Hv).
    cbn [filter fst]. rewrite Kj.
    destruct (pred j v vs) eqn:P.
    + rewrite IH'. cbn [map fst snd]. rewrite <- !app_assoc. do 3 f_equal.
      apply map_ext. intros x. cbn [length]. destruct (Nat.eq_dec x j) as [->|]; [|now apply moved_step].
      rewrite moved_before, moved_in by lia. unfold target, kept. rewrite Hv, P. reflexivity.
    + destruct (dropped j v Hv P) as (k & Hk & Hlt & _). rewrite Hk. cbn [unwrap bind]. rewrite IH'.
      do 3 f_equal. unfold remap. rewrite map_map. apply map_ext. intros x. cbn [length].
      destruct (Nat.eqb_spec x j) as [->|]; [|now apply moved_step].
      rewrite moved_before, moved_in by lia. unfold target, kept, dest. rewrite Hv, P, Hk. reflexivity.
Qed.

Definition survivors : list (nat * vertex T) := filter (fun x => kept (fst x)) (enumerate vs).

Lemma enumerate_In : forall A (l : list A) i x, In (i, x) (enumerate l) <-> nth_error l i = Some x.
Proof.
  intros A l i x. unfold enumerate. split.
  - intros H. apply In_nth_error in H. destruct H as [k H]. rewrite nth_error_enumerate_from in H.
    destruct (nth_error l k) eqn:E; [|discriminate]. simpl in H. inv H. exact E.
  - intros H. apply nth_error_In with (n := i). rewrite nth_error_enumerate_from, H. reflexivity.
Qed.

Lemma survivors_index : forall i v, nth_error vs i = Some v -> kept i = true ->
  exists q, position (fun c => c =? i) (map fst survivors) = Some q /\ nth_error (map snd survivors) q = Some v.
Proof.
  intros i v Hv Hk.
  assert (I : In (i, v) survivors).
  { unfold survivors. apply filter_In. split; [apply enumerate_In; exact Hv|exact Hk]. }
  destruct (position (fun c => c =? i) (map fst survivors)) as [q|] eqn:E.
  - exists q. split; [reflexivity|]. apply position_some in E. destruct E as ((x & Hx & Ex) & _).
    rewrite nth_error_map in Hx. destruct (nth_error survivors q) as [[i' v']|] eqn:S; [|discriminate].
    simpl in Hx. inv Hx. apply Nat.eqb_eq in Ex. subst x.
    rewrite nth_error_map, S. simpl. apply nth_error_In in S. unfold survivors in S.
    apply filter_In in S. destruct S as [S _]. apply enumerate_In in S. congruence.
  - exfalso. assert (N := proj1 (position_none _ _ _) E i).
    simpl in N. rewrite Nat.eqb_refl in N. discriminate N. apply in_map_iff. exists (i, v). auto.
Qed.

Lemma target_kept : forall i, i < length vs -> kept (target i) = true /\ target i < length vs.
Proof.
  intros i Hi. unfold target. destruct (kept i) eqn:K; [auto|].
  unfold kept in K. destruct (nth_error vs i) as [v|] eqn:V; [|discriminate].
  destruct (dropped i v V K) as (k & Hk & Hlt & Hkk). unfold dest. rewrite V, Hk. split; [exact Hkk|lia].
Qed.

Theorem filter_vertices_spec : forall indices, (forall i, In i indices -> i < length vs) ->
  exists ix, filter_vertices O vs indices pred = Ok (map snd survivors, ix)
    /\ Forall2 (fun i q => nth_error (map snd survivors) q = nth_error vs (target i)
                           /\ q < length (map snd survivors)) indices ix.
Proof.
  intros indices H. unfold filter_vertices, enumerate.
  rewrite filter_loop_spec; [|intros; reflexivity|simpl; lia]. cbn [bind app]. fold (@enumerate (vertex T) vs).
  fold survivors.
  replace (map (moved 0 (length vs)) indices) with (map target indices).
  2:{ apply map_ext_in. intros x Hx. specialize (H x Hx). rewrite moved_in by lia. reflexivity. }
  induction indices as [|i indices IH]; [exists []; simpl; auto|].
  destruct IH as (ix & E & F); [intros; apply H; simpl; auto|].
  destruct (target_kept i (H i (or_introl eq_refl))) as [K L].
  destruct (nth_error vs (target i)) as [v|] eqn:V; [|apply nth_error_None in V; lia].
  destruct (survivors_index _ _ V K) as (q & Q1 & Q2).
  exists (q :: ix). cbn [map filter_map]. rewrite Q1. split.
  - injection E as E. rewrite E. reflexivity.
  - constructor; [|exact F]. rewrite Q2, V. split; [reflexivity|]. apply nth_error_Some. congruence.
Qed.
End Filter.

(** ** The two predicates *)
Section Pred.
Hypothesis laws : eq_laws O.
Context (eqb : vertex T -> vertex T -> bool).
Hypothesis refines : forall a b, eqb a b = true -> same_position O a b = true.

Lemma pos_sym : forall a b, same_position O a b = true -> same_position O b a = true.
Proof.
  intros a b. rewrite !eqb_position. unfold vertex_pos_eq, pos_eq, num_eq.
  intros (A & B & C). repeat split; now apply (law_sym O laws).
Qed.
Lemma pos_trans : forall a b c, same_position O a b = true -> same_position O b c = true -> same_position O a c = true.
Proof.
  intros a b c. rewrite !eqb_position. unfold vertex_pos_eq, pos_eq, num_eq.
  intros (A & B & C) (D & E & F). repeat split; eapply (law_trans O laws); eauto.
Qed.

Lemma first_at_dropped : forall vs i v, nth_error vs i = Some v -> first_at eqb i v vs = false ->
  exists k, position (fun c => same_position O c v) vs = Some k /\ k < i /\ kept (first_at eqb) vs k = true.
Proof.
  intros vs i v Hv H. unfold first_at in H.
  destruct (position (fun comp => eqb comp v) vs) as [k0|] eqn:E; [|discriminate].
  assert (L : k0 < i) by lia.
  apply position_some in E. destruct E as ((x & Hx & Ex) & _). apply refines in Ex.
  destruct (position (fun c => same_position O c v) vs) as [k|] eqn:Ek.
  - exists k. split; [reflexivity|]. apply position_some in Ek. destruct Ek as ((y & Hy & Ey) & Hf).
    assert (k <= k0).
    { destruct (Compare_dec.le_lt_dec k k0) as [|G]; [auto|]. specialize (Hf k0 x G Hx). simpl in Hf. congruence. }
    split; [lia|]. unfold kept. rewrite Hy. unfold first_at.
    destruct (position (fun comp => eqb comp y) vs) as [j|] eqn:Ej; [|reflexivity].
    apply Nat.leb_le. destruct (Compare_dec.le_lt_dec k j) as [|G]; [auto|]. exfalso.
    apply position_some in Ej. destruct Ej as ((z & Hz & Ez) & _). apply refines in Ez.
    specialize (Hf j z G Hz). simpl in Hf. rewrite (pos_trans z y v) in Hf; auto. discriminate.
  - exfalso. apply position_none with (x := x) in Ek; [congruence|]. eapply nth_error_In; eauto.
Qed.

Lemma kept_first : forall vs i, i < length vs ->
  kept (first_at eqb) vs i = true <-> first_of_equals (fun a b => eqb a b = true) vs i.
Proof.
  intros vs i Hi. unfold kept, first_of_equals.
  destruct (nth_error vs i) as [v|] eqn:V; [|apply nth_error_None in V; lia].
  unfold first_at. split.
  - intros H. exists v. split; [reflexivity|]. intros j w Hj Hw E.
    destruct (position (fun comp => eqb comp v) vs) as [k|] eqn:P.
    + apply position_some in P. destruct P as (_ & P). apply Nat.leb_le in H.
      specialize (P j w ltac:(lia) Hw). simpl in P. congruence.
    + apply position_none with (x := w) in P; [congruence|]. eapply nth_error_In; eauto.
  - intros (v' & Ev & H). injection Ev as <-.
    destruct (position (fun comp => eqb comp v) vs) as [k|] eqn:P; [|reflexivity].
    apply position_some in P. destruct P as ((x & Hx & Ex) & _). apply Nat.leb_le.
    destruct (Compare_dec.le_lt_dec i k) as [|G]; [auto|]. exfalso. eapply H; eauto.
Qed.
End Pred.

(** ** Index concatenation *)
Lemma concat_indices_corners : forall A (l : list (list A * list nat)) pre,
  (forall vs ix i, In (vs, ix) l -> In i ix -> i < length vs) ->
  map (nth_error (pre ++ flat_map fst l)) (concat_indices (length pre) l)
    = flat_map (fun p => map (nth_error (fst p)) (snd p)) l.
Proof.
  intros A l. induction l as [|[vs ix] l IH]; intros pre H; [reflexivity|].
  cbn [concat_indices flat_map fst snd]. rewrite map_app, map_map. f_equal.
  - apply map_ext_in. intros i Hi. rewrite nth_error_app2 by lia.
    rewrite nth_error_app1; [f_equal; lia|]. specialize (H vs ix i (or_introl eq_refl) Hi). lia.
  - rewrite <- app_length, app_assoc. apply IH. intros; eapply H; [right|]; eauto.
Qed.

Lemma concat_indices_bound : forall A (l : list (list A * list nat)) n,
  (forall vs ix i, In (vs, ix) l -> In i ix -> i < length vs) ->
  forall i, In i (concat_indices n l) -> i < n + length (flat_map fst l).
Proof.
  intros A l. induction l as [|[vs ix] l IH]; intros n H i Hi; [contradiction|].
  cbn [concat_indices flat_map fst] in *. rewrite app_length. apply in_app_or in Hi. destruct Hi as [Hi|Hi].
  - apply in_map_iff in Hi. destruct Hi as (k & <- & Hk). specialize (H vs ix k (or_introl eq_refl) Hk). lia.
  - apply IH in Hi; [lia|]. intros; eapply H; [right|]; eauto.
Qed.

Lemma corner_positions_model : forall faces : list (face T),
  concat_indices 0 (map (fun f => (f_vertices f, f_indices f)) faces) = corner_positions faces.
Proof.
  intros faces. unfold corner_positions.
  enough (G : forall l pre, concat_indices (length (face_vertices pre)) (map (fun f : face T => (f_vertices f, f_indices f)) l)
    = flat_map (fun kf => map (fun i => length (face_vertices (firstn (fst kf) (pre ++ l))) + i) (f_indices (snd kf)))
      (combine (seq (length pre) (length l)) l)) by exact (G faces []).
  induction l as [|f l IH]; intros pre; [reflexivity|].
  cbn [map concat_indices length seq combine flat_map fst snd]. f_equal.
  - rewrite firstn_app, firstn_all, Nat.sub_diag. simpl. rewrite app_nil_r. apply map_ext. intros; lia.
  - specialize (IH (pre ++ [f])). unfold face_vertices in *. rewrite flat_map_app, !app_length in IH. simpl in IH.
    rewrite app_nil_r, Nat.add_1_r in IH. rewrite IH. rewrite <- app_assoc. reflexivity.
Qed.

Lemma corner_positions_corners : forall faces : list (face T), (forall f, In f faces -> in_bounds f) ->
  map (nth_error (face_vertices faces)) (corner_positions faces) = flat_map face_corners faces.
Proof.
  intros faces H. rewrite <- corner_positions_model.
  pose proof (concat_indices_corners _ (map (fun f : face T => (f_vertices f, f_indices f)) faces) []) as E.
  simpl in E. rewrite <- flat_map_concat_map in E || idtac.
  assert (V : flat_map fst (map (fun f : face T => (f_vertices f, f_indices f)) faces) = face_vertices faces).
  { unfold face_vertices. rewrite !flat_map_concat_map, map_map. reflexivity. }
  rewrite V in E. rewrite E.
  - rewrite !flat_map_concat_map, map_map. reflexivity.
  - intros vs ix i Hin Hi. apply in_map_iff in Hin. destruct Hin as (f & Ef & Hf). inv Ef. now apply (H f).
Qed.

Lemma corner_positions_bound : forall faces : list (face T), (forall f, In f faces -> in_bounds f) ->
  forall i, In i (corner_positions faces) -> i < length (face_vertices faces).
Proof.
  intros faces H i Hi. rewrite <- corner_positions_model in Hi.
  apply concat_indices_bound in Hi.
  - simpl in Hi. unfold face_vertices. rewrite flat_map_concat_map in *. rewrite map_map in Hi. exact Hi.
  - intros vs ix k Hin Hk. apply in_map_iff in Hin. destruct Hin as (f & Ef & Hf). inv Ef. now apply (H f).
Qed.

(** ** One brush *)
Section Brush.
Hypothesis laws : eq_laws O.
Context (eqb : vertex T -> vertex T -> bool) (R : vertex T -> vertex T -> Prop).
Hypothesis reflects : forall a b, eqb a b = true <-> R a b.
Hypothesis refines : forall a b, R a b -> vertex_pos_eq O a b.

Lemma refines' : forall a b, eqb a b = true -> same_position O a b = true.
Proof. intros a b H. apply eqb_position, refines, reflects, H. Qed.

Lemma kept_spec : forall vs i, i < length vs -> kept (first_at eqb) vs i = true <-> first_of_equals R vs i.
Proof.
  intros vs i H. rewrite (kept_first eqb refines' vs i H). unfold first_of_equals.
  split; intros (v & Hv & F); exists v; split; auto; intros j w Hj Hw E; apply (F j w Hj Hw), reflects, E.
Qed.

Lemma target_resolves : forall vs i v, i < length vs ->
  nth_error vs (target (first_at eqb) vs i) = Some v -> resolves O R vs i v.
Proof.
  intros vs i v Hi H. unfold target in H. destruct (kept (first_at eqb) vs i) eqn:K.
  - left. split; [now apply kept_spec|exact H].
  - right. split; [rewrite <- (kept_spec vs i Hi); congruence|].
    unfold kept in K. unfold dest in H. destruct (nth_error vs i) as [w|] eqn:W; [|discriminate].
    destruct (first_at_dropped laws eqb refines' vs i w W K) as (k & Ek & _ & _). rewrite Ek in H.
    exists w, k. split; [reflexivity|]. apply position_some in Ek. destruct Ek as ((x & Hx & Ex) & F).
    assert (x = v) by congruence. subst x. split; [exact H|]. split; [now apply eqb_position|].
    intros j y Hj Hy E. apply eqb_position in E. specialize (F j y Hj Hy). simpl in F. congruence.
Qed.

Lemma enumerate_from_sorted : forall A (p : nat * A -> bool) (l : list A) j,
  StronglySorted lt (map fst (filter p (enumerate_from j l)))
  /\ Forall (fun x => j <= x) (map fst (filter p (enumerate_from j l))).
Proof.
  intros A p l. induction l as [|x l IH]; intros j; simpl; [split; constructor|].
  destruct (IH (S j)) as [St F].
  assert (F' : Forall (fun y => j <= y) (map fst (filter p (enumerate_from (S j) l)))).
  { eapply Forall_impl; [|exact F]. simpl. intros; lia. }
  destruct (p (j, x)); simpl; [|auto]. split; constructor; auto.
Qed.

Lemma survivors_restriction : forall vs,
  restriction (first_of_equals R vs) vs (map snd (survivors (first_at eqb) vs)).
Proof.
  intros vs. exists (map fst (survivors (first_at eqb) vs)). split; [|split].
  - apply enumerate_from_sorted.
  - intros i. rewrite in_map_iff. unfold survivors. split.
    + intros ((i' & v) & E & H). simpl in E. subst i'. apply filter_In in H. destruct H as [H K].
      apply enumerate_In in H. assert (i < length vs) by (apply nth_error_Some; congruence).
      split; [assumption|]. now apply kept_spec.
    + intros (L & F). destruct (nth_error vs i) as [v|] eqn:V; [|apply nth_error_None in V; lia].
      exists (i, v). split; [reflexivity|]. apply filter_In. split; [now apply enumerate_In|].
      now apply kept_spec.
  - rewrite !map_map. apply map_ext_in. intros [i v] H. unfold survivors in H. apply filter_In in H.
    destruct H as [H _]. now apply enumerate_In.
Qed.

Theorem gather_brush_spec : forall fp b, (forall f, In f (bg_faces b) -> fp f = true -> in_bounds f) ->
  exists out ix, gather_brush O fp (Some (first_at eqb)) b = Ok (out, ix)
    /\ restriction (first_of_equals R (face_vertices (filter fp (bg_faces b)))) (face_vertices (filter fp (bg_faces b))) out
    /\ Forall2 (fun i q => exists v, nth_error out q = Some v /\ resolves O R (face_vertices (filter fp (bg_faces b))) i v)
         (corner_positions (filter fp (bg_faces b))) ix.
Proof.
  intros fp b H. set (faces := filter fp (bg_faces b)). unfold gather_brush. fold faces.
  assert (B : forall f, In f faces -> in_bounds f) by (intros f Hf; apply filter_In in Hf; now apply H).
  change (flat_map f_vertices faces) with (face_vertices faces). rewrite corner_positions_model.
  pose proof (corner_positions_bound faces B) as CB.
  destruct (filter_vertices_spec (first_at eqb) (face_vertices faces)
    (first_at_dropped laws eqb refines' (face_vertices faces)) (corner_positions faces) CB) as (ix & E & F).
  exists (map snd (survivors (first_at eqb) (face_vertices faces))), ix. split; [exact E|]. split; [apply survivors_restriction|].
  clear E. revert CB. induction F as [|i q l l' [E L] F IH]; intros CB; constructor.
  - destruct (nth_error (map snd (survivors (first_at eqb) (face_vertices faces))) q) as [v|] eqn:Q.
    + exists v. split; [reflexivity|]. apply target_resolves; [apply CB; simpl; auto|]. congruence.
    + apply nth_error_None in Q. lia.
  - apply IH. intros; apply CB; simpl; auto.
Qed.

Lemma resolves_pos : forall vs i v w, nth_error vs i = Some w -> resolves O R vs i v -> v = w \/ vertex_pos_eq O v w.
Proof.
  intros vs i v w Hw [[_ H]|(_ & w' & k & H & _ & P & _)]; [left; congruence|].
  right. assert (w' = w) by congruence. subst. exact P.
Qed.

Lemma sorted_nth : forall sel i j a b, StronglySorted lt sel -> i < j ->
  nth_error sel i = Some a -> nth_error sel j = Some b -> a < b.
Proof.
  induction sel as [|x sel IH]; intros i j a b S Hij Ha Hb; [destruct i; discriminate|].
  apply StronglySorted_inv in S. destruct S as [S F]. destruct i, j; try lia; simpl in *.
  - inv Ha. rewrite Forall_forall in F. apply F. eapply nth_error_In; eauto.
  - eapply (IH i j); eauto. lia.
Qed.

Lemma restriction_pairwise : forall vs out, restriction (first_of_equals R vs) vs out -> pairwise_not R out.
Proof.
  intros vs out (sel & S & I & E) i j a b Hij Ha Hb.
  assert (G : forall k c, nth_error out k = Some c -> exists p, nth_error sel k = Some p /\ nth_error vs p = Some c).
  { intros k c Hk. assert (M : nth_error (map (nth_error vs) sel) k = Some (Some c)).
    { rewrite E, nth_error_map, Hk. reflexivity. }
    rewrite nth_error_map in M. destruct (nth_error sel k) as [p|]; [|discriminate]. simpl in M. inv M. eauto. }
  destruct (G i a Ha) as (pa & Sa & Va). destruct (G j b Hb) as (pb & Sb & Vb).
  assert (pa < pb) by (eapply sorted_nth; eauto).
  destruct (proj1 (I pb) (nth_error_In _ _ Sb)) as (_ & v & Vv & F).
  assert (v = b) by congruence. subst v. eapply F; eauto.
Qed.

(** ** The whole entity *)
Theorem gather_entity_full : forall bp fp g,
  (forall f, In f (selected_faces bp fp g) -> in_bounds f) ->
  exists kept_lists resolved vs ix, gather_entity O bp fp (Some (first_at eqb)) g = Ok (vs, ix)
    /\ vs = concat kept_lists
    /\ Forall2 (fun b out => restriction (first_of_equals R (face_vertices (filter fp (bg_faces b))))
                                (face_vertices (filter fp (bg_faces b))) out) (filter bp (eg_brushes g)) kept_lists
    /\ map (nth_error vs) ix = map Some (concat resolved)
    /\ Forall2 (fun b rs => Forall2 (resolves O R (face_vertices (filter fp (bg_faces b))))
                               (corner_positions (filter fp (bg_faces b))) rs) (filter bp (eg_brushes g)) resolved.
Proof.
  intros bp fp g H. unfold gather_entity, selected_faces in *. set (bs := filter bp (eg_brushes g)) in *. clearbody bs.
  assert (P : exists parts resolved, mapM (gather_brush O fp (Some (first_at eqb))) bs = Ok parts
    /\ Forall2 (fun b part => restriction (first_of_equals R (face_vertices (filter fp (bg_faces b))))
                                (face_vertices (filter fp (bg_faces b))) (fst part)) bs parts
    /\ Forall2 (fun part rs => map (nth_error (fst part)) (snd part) = map Some rs) parts resolved
    /\ Forall2 (fun b rs => Forall2 (resolves O R (face_vertices (filter fp (bg_faces b))))
                               (corner_positions (filter fp (bg_faces b))) rs) bs resolved).
  { induction bs as [|b bs IH]; [exists [], []; repeat split; constructor|].
    destruct IH as (parts & rs & M & P1 & P2 & P3); [intros f Hf; apply H; simpl; apply in_or_app; auto|].
    destruct (gather_brush_spec fp b) as (out & ix & E & Rs & F).
    { intros f Hf Pf. apply H. simpl. apply in_or_app. left. apply filter_In. auto. }
    assert (X : exists r, map (nth_error out) ix = map Some r
      /\ Forall2 (resolves O R (face_vertices (filter fp (bg_faces b)))) (corner_positions (filter fp (bg_faces b))) r).
    { clear E. induction F as [|i q l l' (v & Ev & Rv) F (r & E & G)]; [exists []; split; constructor|].
      exists (v :: r). split; [simpl; rewrite Ev, E; reflexivity|constructor; auto]. }
    destruct X as (r & Er & Fr). exists ((out, ix) :: parts), (r :: rs). cbn [mapM]. rewrite E, M. cbn [bind].
    repeat split; constructor; auto. }
  destruct P as (parts & resolved & M & P1 & P2 & P3). rewrite M. cbn [bind].
  exists (map fst parts), resolved, (flat_map fst parts), (concat_indices 0 parts).
  split; [reflexivity|]. split; [apply flat_map_concat_map|]. split.
  { apply Forall2_map_r. exact P1. }
  split; [|exact P3].
  pose proof (concat_indices_corners _ parts []) as C. simpl in C. rewrite C.
  - clear - P2. induction P2 as [|part rs parts l E F IH]; [reflexivity|]. simpl. rewrite map_app, E, IH. reflexivity.
  - intros vs ix i Hin Hi. destruct (Forall2_in_l _ _ _ _ _ _ P2 Hin) as (rs & _ & E). cbn [fst snd] in E.
    apply nth_error_Some. apply in_map with (f := nth_error vs) in Hi. rewrite E in Hi.
    apply in_map_iff in Hi. destruct Hi as (r & <- & _). discriminate.
Qed.

(** Positions and bounds follow. *)
Theorem gather_entity_spec : forall bp fp g,
  (forall f, In f (selected_faces bp fp g) -> in_bounds f) ->
  exists vs ix, gather_entity O bp fp (Some (first_at eqb)) g = Ok (vs, ix)
    /\ Forall (fun i => i < length vs) ix
    /\ Forall2 (fun i c => exists v w, nth_error vs i = Some v /\ c = Some w /\ (v = w \/ vertex_pos_eq O v w))
         ix (flat_map face_corners (selected_faces bp fp g)).
Proof.
  intros bp fp g H. destruct (gather_entity_full bp fp g H) as (kl & rs & vs & ix & E & _ & _ & M & F).
  exists vs, ix. split; [exact E|].
  assert (B : Forall (fun i => i < length vs) ix).
  { apply Forall_forall. intros i Hi. apply nth_error_Some. apply in_map with (f := nth_error vs) in Hi. rewrite M in Hi.
    apply in_map_iff in Hi. destruct Hi as (r & <- & _). discriminate. }
  split; [exact B|].
  assert (G : Forall2 (fun v c => exists w, c = Some w /\ (v = w \/ vertex_pos_eq O v w))
    (concat rs) (flat_map face_corners (selected_faces bp fp g))).
  { unfold selected_faces in *. revert F H. generalize (filter bp (eg_brushes g)). intros bs F H. clear E M B.
    induction F as [|b r bs rs F1 F IH]; [constructor|].
    simpl. rewrite flat_map_app. apply Forall2_app; [|apply IH; intros f Hf; apply H; simpl; apply in_or_app; auto].
    assert (Bf : forall f, In f (filter fp (bg_faces b)) -> in_bounds f).
    { intros f Hf. apply H. simpl. apply in_or_app. auto. }
    rewrite <- corner_positions_corners by exact Bf. pose proof (corner_positions_bound _ Bf) as CB.
    revert F1 CB. generalize (corner_positions (filter fp (bg_faces b))). intros cp F1 CB.
    induction F1 as [|i v l l' Rv F1 IHF]; simpl; constructor; [|apply IHF; intros; apply CB; simpl; auto].
    specialize (CB i (or_introl eq_refl)). destruct (nth_error (face_vertices (filter fp (bg_faces b))) i) as [w|] eqn:W;
      [|apply nth_error_None in W; lia].
    exists w. split; [reflexivity|]. eapply resolves_pos; eauto. }
  clear - G M. revert ix M. induction G as [|v c l l' (w & Ec & Ew) G IH]; intros [|i ix] M; try discriminate; constructor.
  - simpl in M. injection M as E1 E2. exists v, w. auto.
  - apply IH. simpl in M. now injection M.
Qed.
End Brush.

End Gather.
