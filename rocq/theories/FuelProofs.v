(** The group recursion: a depth limit of the number of entities decides whether it ends (C58, C67). *)
From Verif Require Import Prelude F32 Text MapModel GeoModel LayerModel GameDataModel SceneModel TreeSpec BaseProofs TreeProofs.

Lemma repeated : forall l : list nat, ~ NoDup l -> exists x l1 l2 l3, l = l1 ++ x :: l2 ++ x :: l3.
Proof.
  induction l as [|y l IH]; intros H; [exfalso; apply H; constructor|].
  destruct (in_dec Nat.eq_dec y l) as [I|I].
  - apply in_split in I. destruct I as (l2 & l3 & ->). exists y, [], l2, l3. reflexivity.
  - destruct IH as (x & l1 & l2 & l3 & ->); [intros N; apply H; now constructor|]. exists x, (y :: l1), l2, l3. reflexivity.
Qed.

Section Fuel.
Context {T : Type} (O : num T) (gd : game_data T) (fd : forge_data T) (bl : blacklist).
Context (data : list (entity T * entity_geo T)).
Notation build f o d := (build_entity O f gd fd bl data o d).
Notation kids e := (filter (fun x => is_child e (fst x)) (tl data)).

Lemma mapM_stuck : forall A B (f : A -> res B) l, mapM f l = OutOfFuel ->
  exists pre x post ys, l = pre ++ x :: post /\ mapM f pre = Ok ys /\ f x = OutOfFuel.
Proof.
  induction l as [|x l IH]; intros E; [discriminate|]. simpl in E. destruct (f x) as [y| | |] eqn:Ef; simpl in E; try discriminate.
  - destruct (mapM f l) as [ys| | |] eqn:Em; simpl in E; try discriminate. destruct (IH eq_refl) as (pre & z & post & zs & -> & P & Z).
    exists (x :: pre), z, post, (y :: zs). repeat split; auto. simpl. rewrite Ef, P. reflexivity.
  - exists [], x, l, []. repeat split; auto.
Qed.
Lemma mapM_stuck_intro : forall A B (f : A -> res B) pre x post, (forall y, In y pre -> is_ok (f y) = true \/ f y = OutOfFuel) ->
  f x = OutOfFuel -> mapM f (pre ++ x :: post) = OutOfFuel.
Proof.
  induction pre as [|y pre IH]; intros x post H E; simpl; [rewrite E; reflexivity|].
  destruct (H y (or_introl eq_refl)) as [K|K].
  - destruct (f y); try discriminate. simpl. rewrite IH; auto. intros; apply H; simpl; auto.
  - rewrite K. reflexivity.
Qed.

(** Only the value depends on the origin. *)
Lemma origin_stuck : forall f o o' d, build f o d = OutOfFuel -> build f o' d = OutOfFuel.
Proof.
  intros [|f] o o' [e g] E; [reflexivity|]. cbn [build_entity] in *.
  destruct (entity_visual O gd bl e g); simpl in *; try discriminate; auto.
  destruct (entity_collision O gd e g); simpl in *; try discriminate; auto.
  destruct (mapM _ _); simpl in *; try discriminate; auto.
  destruct (unwrap _ _); simpl in *; try discriminate; auto.
  destruct (get_properties O fd e); simpl in *; try discriminate; auto.
Qed.
Lemma origin_ok : forall f o o' d, is_ok (build f o d) = true -> is_ok (build f o' d) = true.
Proof.
  intros [|f] o o' [e g] E; [discriminate|]. cbn [build_entity] in *.
  destruct (entity_visual O gd bl e g); simpl in *; try discriminate; auto.
  destruct (entity_collision O gd e g); simpl in *; try discriminate; auto.
  destruct (mapM _ _); simpl in *; try discriminate; auto.
  destruct (unwrap _ _); simpl in *; try discriminate; auto.
  destruct (get_properties O fd e); simpl in *; try discriminate; auto.
Qed.

Definition stuck (f : nat) (d : entity T * entity_geo T) : Prop := build f (v3_zero O) d = OutOfFuel.
Definition fine (d : entity T * entity_geo T) : Prop := exists f, is_ok (build f (v3_zero O) d) = true.

Lemma stuck_less : forall f f' d, f' <= f -> stuck f d -> stuck f' d.
Proof.
  intros f f' d L H. unfold stuck in *. destruct (build f' (v3_zero O) d) eqn:E; [| | |reflexivity];
    exfalso; rewrite (build_entity_mono O gd fd bl data f' f) in H by (auto; congruence); congruence.
Qed.
Lemma fine_any : forall d f, fine d -> is_ok (build f (v3_zero O) d) = true \/ stuck f d.
Proof.
  intros d f (f' & H). unfold stuck. destruct (build f (v3_zero O) d) eqn:E; auto; exfalso;
  (destruct (le_lt_dec f f') as [L|L];
   [rewrite (build_entity_mono O gd fd bl data f f') in H by (auto; congruence); rewrite E in H; discriminate
   |rewrite (build_entity_mono O gd fd bl data f' f) in E by (try lia; destruct (build f' (v3_zero O) d); congruence || discriminate);
    rewrite E in H; discriminate]).
Qed.

(** The recursion that does not end in time goes from [d] on to [c], a member of its group. *)
Definition leads (d c : entity T * entity_geo T) : Prop :=
  exists v k pre post, entity_visual O gd bl (fst d) (snd d) = Ok v /\ entity_collision O gd (fst d) (snd d) = Ok k
    /\ kids (fst d) = pre ++ c :: post /\ Forall fine pre.

Lemma stuck_leads : forall f d, stuck (S f) d -> exists c, leads d c /\ stuck f c.
Proof.
  intros f [e g] E. unfold stuck in E. cbn [build_entity] in E.
  pose proof (entity_visual_not_fuel O gd bl e g) as N1. pose proof (entity_collision_not_fuel O gd e g) as N2.
  destruct (entity_visual O gd bl e g) as [v| | |] eqn:Ev; try discriminate; [|congruence]. cbn [bind] in E.
  destruct (entity_collision O gd e g) as [k| | |] eqn:Ek; try discriminate; [|congruence]. cbn [bind] in E.
  match type of E with bind ?m _ = _ => destruct m as [ch| | |] eqn:M; try discriminate end.
  { cbn [bind] in E. pose proof (unwrap_not_fuel _ (lit "classname") (get_property e (lit "classname"))).
    destruct (unwrap _ _); try discriminate; [|congruence]. cbn [bind] in E.
    pose proof (get_properties_not_fuel O fd e). destruct (get_properties O fd e); try discriminate. congruence. }
  apply mapM_stuck in M. destruct M as (pre & c & post & ys & F & P & C). exists c. split; [|now apply origin_stuck with (1 := C)].
  exists v, k, pre, post. cbn [fst snd]. repeat split; auto. apply Forall_forall. intros x Hx. exists f.
  apply mapM_ok in P. destruct (Forall2_in_l _ _ _ _ _ _ P Hx) as (y & _ & Ey). apply origin_ok with (o := v3_neg O (eg_center g)).
  rewrite Ey. reflexivity.
Qed.

Lemma leads_stuck : forall f d c, leads d c -> stuck f c -> stuck (S f) d.
Proof.
  intros f [e g] c (v & k & pre & post & Ev & Ek & F & P) C. unfold stuck. cbn [build_entity fst snd] in *.
  rewrite Ev, Ek, F. cbn [bind]. rewrite mapM_stuck_intro; [reflexivity| |now apply origin_stuck with (1 := C)].
  intros y Hy. rewrite Forall_forall in P. destruct (fine_any y f (P y Hy)) as [K|K]; [left|right].
  - now apply origin_ok with (1 := K).
  - now apply origin_stuck with (1 := K).
Qed.

(** Chains of such steps, by position. *)
Inductive trail : nat -> list nat -> entity T * entity_geo T -> Prop :=
| TrailEnd : forall i d, nth_error data i = Some d -> trail i [] d
| TrailStep : forall i j js d c, nth_error data i = Some d -> trail j js c -> leads d c -> 1 <= j -> trail i (j :: js) d.

Lemma leads_index : forall d c, leads d c -> exists j, nth_error data j = Some c /\ 1 <= j < length data.
Proof.
  intros d c (v & k & pre & post & _ & _ & F & _).
  assert (I : In c (tl data)) by (apply (incl_filter (fun x => is_child (fst d) (fst x)) (tl data)); rewrite F; apply in_or_app; simpl; auto).
  destruct data as [|x l]; [contradiction|]. simpl in I. apply In_nth_error in I. destruct I as (j & Hj). exists (S j).
  split; [exact Hj|]. assert (j < length l) by (apply nth_error_Some; congruence). simpl. lia.
Qed.

Lemma stuck_trail : forall f i d, nth_error data i = Some d -> stuck f d -> exists js, length js = f /\ trail i js d.
Proof.
  induction f as [|f IH]; intros i d Hi Hs; [exists []; split; [reflexivity|now constructor]|].
  destruct (stuck_leads f d Hs) as (c & L & C). destruct (leads_index d c L) as (j & Hj & Bj).
  destruct (IH j c Hj C) as (js & Ej & Tj). exists (j :: js). split; [simpl; lia|]. econstructor; eauto. lia.
Qed.
Lemma trail_bounds : forall i js d, trail i js d -> Forall (fun j => 1 <= j < length data) js.
Proof.
  intros i js d H. induction H as [|i j js d c Hi Tr IH L B]; [constructor|]. constructor; [|exact IH]. split; [exact B|].
  inversion Tr; subst; apply nth_error_Some; congruence.
Qed.
Lemma trail_start : forall i js d, trail i js d -> nth_error data i = Some d.
Proof. intros i js d H. now inversion H. Qed.
Lemma trail_back : forall i js d, trail i js d -> forall pre j rest, js = pre ++ j :: rest ->
  exists c, nth_error data j = Some c /\ trail j rest c /\ forall f, stuck f c -> stuck (S (length pre) + f) d.
Proof.
  intros i js d H. induction H as [|i j' js d c Hi Tr IH L B]; intros pre j rest E; [now destruct pre|].
  destruct pre as [|j0 pre]; injection E as -> E.
  - subst rest. exists c. split; [eapply trail_start; eauto|]. split; [exact Tr|]. intros f C. simpl. now apply leads_stuck with c.
  - destruct (IH pre j rest E) as (c' & N & Tc & St). exists c'. split; [exact N|]. split; [exact Tc|].
    intros f C. simpl. apply leads_stuck with c; [exact L|]. now apply St.
Qed.

Lemma stuck_cycle : forall d k, (forall f, stuck f d -> stuck (S k + f) d) -> forall f, stuck f d.
Proof.
  intros d k H f. apply stuck_less with (f := f * S k); [lia|].
  induction f as [|f IH]; [reflexivity|]. simpl Nat.mul. now apply (H (f * S k)).
Qed.

Lemma stuck_forever : forall i d, nth_error data i = Some d -> stuck (length data) d -> forall f, stuck f d.
Proof.
  intros i d Hi Hs f. destruct (stuck_trail _ i d Hi Hs) as (js & Lj & Tr).
  pose proof (trail_bounds _ _ _ Tr) as B.
  assert (D : ~ NoDup js).
  { intros N. assert (I : incl js (seq 1 (length data - 1))).
    { intros j Hj. rewrite Forall_forall in B. apply in_seq. specialize (B j Hj). lia. }
    pose proof (NoDup_incl_length N I) as L. rewrite seq_length, Lj in L.
    assert (0 < length data) by (apply Nat.le_lt_trans with i; [lia|apply nth_error_Some; congruence]). lia. }
  apply repeated in D. destruct D as (j & l1 & l2 & l3 & E).
  destruct (trail_back _ _ _ Tr l1 j (l2 ++ j :: l3) E) as (c & Nc & Tc & S1).
  destruct (trail_back _ _ _ Tc l2 j l3 eq_refl) as (c' & Nc' & _ & S2).
  assert (c' = c) by congruence. subst c'.
  apply stuck_less with (f := S (length l1) + f); [lia|]. apply S1. eapply stuck_cycle. exact S2.
Qed.

Theorem scene_stuck : forall layers, build_scene O (length data) gd fd bl data layers = OutOfFuel ->
  forall fuel, build_scene O fuel gd fd bl data layers = OutOfFuel.
Proof.
  intros layers E fuel.
  assert (M : forall l, incl l data -> mapM (build_entity O (length data) gd fd bl data (v3_zero O)) l = OutOfFuel ->
    mapM (build_entity O fuel gd fd bl data (v3_zero O)) l = OutOfFuel).
  { intros l I H. apply mapM_stuck in H. destruct H as (pre & x & post & ys & -> & P & X). apply mapM_stuck_intro.
    - intros y Hy. apply fine_any. exists (length data). apply mapM_ok in P. destruct (Forall2_in_l _ _ _ _ _ _ P Hy) as (z & _ & ->). reflexivity.
    - assert (Hx : In x data) by (apply I, in_or_app; simpl; auto). apply In_nth_error in Hx. destruct Hx as (i & Hi).
      now apply stuck_forever with i. }
  assert (I1 : incl (firstn 1 data) data) by (intros x Hx; destruct data; [contradiction|]; destruct Hx as [<-|[]]; simpl; auto).
  assert (I2 : incl (tl data) data) by (intros x Hx; destruct data; [contradiction|]; simpl; auto).
  unfold build_scene in *.
  destruct (mapM (build_entity O (length data) gd fd bl data (v3_zero O)) (firstn 1 data)) as [w| | |] eqn:W; try discriminate.
  2: { rewrite (M _ I1 W). reflexivity. }
  cbn [bind] in E.
  assert (NL : mapM (build_layer O gd) layers <> OutOfFuel) by (apply mapM_not_fuel; intros; apply build_layer_not_fuel).
  destruct (mapM (build_layer O gd) layers) as [ls| | |] eqn:Ly; try discriminate; [|congruence]. cbn [bind] in E.
  match type of E with bind ?m _ = _ => destruct m eqn:Eo; try discriminate end.
  apply M in Eo. 2: { intros x Hx. apply filter_In in Hx. now apply I2. }
  assert (W' : (exists w', mapM (build_entity O fuel gd fd bl data (v3_zero O)) (firstn 1 data) = Ok w')
    \/ mapM (build_entity O fuel gd fd bl data (v3_zero O)) (firstn 1 data) = OutOfFuel).
  { generalize (firstn 1 data), w, W. clear. intros l. induction l as [|x l IH]; intros w W; [left; eauto|].
    cbn [mapM] in *. apply bind_ok in W. destruct W as (y & Ey & W). apply bind_ok in W. destruct W as (ys & Ew & W).
    assert (Fx : fine x) by (exists (length data); rewrite Ey; reflexivity).
    destruct (fine_any x fuel Fx) as [K|K]; [|right; rewrite K; reflexivity].
    destruct (build_entity O fuel gd fd bl data (v3_zero O) x); try discriminate. cbn [bind].
    destruct (IH ys Ew) as [(w' & ->)| ->]; [left; cbn; eauto|right; reflexivity]. }
  destruct W' as [(w' & ->)| ->]; [|reflexivity]. cbn [bind]. rewrite Eo. reflexivity.
Qed.
End Fuel.
