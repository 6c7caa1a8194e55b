(** Scene tree: termination, forest structure, order, origins (C25 to C29, C40). *)
From Coq Require Import SpecFloat Permutation.
From Verif Require Import Prelude F32 Text MapModel GeoModel LayerModel GameDataModel SceneModel
  GatherSpec SurfaceSpec TreeSpec BaseProofs SurfaceProofs.

(** ** f32 addition *)
Lemma sub_as_add : forall a b, f32_add (f32_neg b) a = f32_sub a b.
Proof.
  intros a b. unfold f32_add, f32_sub, f32_neg.
  destruct a as [[]|[]| |sa ma ea], b as [[]|[]| |sb mb eb]; try reflexivity.
  unfold SFopp, SFadd, SFsub. rewrite (Z.min_comm eb ea). cbv zeta. f_equal.
  rewrite Z.add_comm. destruct sb; simpl; lia.
Qed.

Lemma sub_zero : forall b, f32_sub f32_zero b = f32_neg b \/ (b = S754_zero false /\ f32_sub f32_zero b = f32_zero).
Proof. intros [[]|[]| |[] m e]; try (left; reflexivity). right. split; reflexivity. Qed.

Lemma vneg_add : forall (simd : bool) a b,
  same_f32 (f32_add (if simd then f32_sub f32_zero b else f32_neg b) a) (f32_sub a b).
Proof.
  intros [] a b.
  - destruct (sub_zero b) as [->|[-> ->]]; [left; apply sub_as_add|].
    destruct a as [[]|[]| |s m e]; unfold same_f32; try (left; reflexivity). right; exists false, true; split; reflexivity.
  - left. apply sub_as_add.
Qed.

Lemma zero_add : forall c, same_f32 (f32_add f32_zero c) c.
Proof.
  intros [[]|[]| |s m e]; unfold same_f32; try (left; reflexivity); right; exists false, true; split; reflexivity.
Qed.

(** ** Lists by position *)
Lemma filter_positions : forall A (P : A -> bool) (Q : nat -> bool) (l : list A) k pre,
  length pre = k -> (forall j d, nth_error l j = Some d -> Q (k + j) = P d) ->
  Forall2 (fun j d => nth_error (pre ++ l) j = Some d) (filter Q (seq k (length l))) (filter P l).
Proof.
  intros A P Q l. induction l as [|d l IH]; intros k pre Hk H; simpl; [constructor|].
  pose proof (H 0 d eq_refl) as H0. rewrite Nat.add_0_r in H0. rewrite H0.
  assert (I : Forall2 (fun j x => nth_error (pre ++ d :: l) j = Some x) (filter Q (seq (S k) (length l))) (filter P l)).
  { assert (G := IH (S k) (pre ++ [d])). rewrite <- app_assoc in G. apply G.
    - rewrite app_length. simpl. lia.
    - intros j x Hj. rewrite <- (H (S j) x Hj). f_equal. lia. }
  destruct (P d); [|exact I]. constructor; [|exact I].
  rewrite nth_error_app2 by lia. rewrite Hk, Nat.sub_diag. reflexivity.
Qed.

Section Tree.
Context {T : Type} (O : num T) (gd : game_data T) (fd : forge_data T) (bl : blacklist).
Context (data : list (entity T * entity_geo T)).

Lemma prop_of_nth : forall i e g k, nth_error data i = Some (e, g) -> prop_of data i k = get_property e k.
Proof. intros i e g k H. unfold prop_of. rewrite H. reflexivity. Qed.

Lemma is_child_spec : forall i j e g e' g', nth_error data i = Some (e, g) -> nth_error data j = Some (e', g') ->
  in_group_b data i j = is_child e e'.
Proof.
  intros i j e g e' g' Hi Hj. unfold in_group_b, is_child, group_of, id_of.
  rewrite (prop_of_nth _ _ _ _ Hi), (prop_of_nth _ _ _ _ Hj).
  destruct (get_property e' (lit "_tb_group")) as [x|]; [|reflexivity].
  destruct (opt_dec (get_property e (lit "_tb_id")) (Some x)) as [E|E].
  - rewrite E. symmetry. now apply opt_str_eqb_eq.
  - destruct (opt_str_eqb (Some x) (get_property e (lit "_tb_id"))) eqn:F; [|reflexivity].
    apply opt_str_eqb_eq in F. congruence.
Qed.

Lemma members_children : forall i e g, nth_error data i = Some (e, g) ->
  Forall2 (fun j d => nth_error data j = Some d) (members data i) (filter (fun c => is_child e (fst c)) (tl data)).
Proof.
  intros i e g Hi. unfold members. destruct data as [|d0 rest] eqn:D; [destruct i; discriminate|].
  cbn [length tl]. rewrite Nat.sub_succ, Nat.sub_0_r.
  apply (filter_positions _ _ _ rest 1 [d0] eq_refl).
  intros j [e' g'] Hj. rewrite <- D in *. apply (is_child_spec _ _ _ _ _ g' Hi). rewrite D. exact Hj.
Qed.

Lemma ungrouped_others :
  Forall2 (fun j d => nth_error data j = Some d) (filter (ungrouped data) (seq 1 (length data - 1)))
    (filter (fun d => match get_property (fst d) (lit "_tb_group") with None => true | _ => false end) (tl data)).
Proof.
  destruct data as [|d0 rest] eqn:D; [constructor|]. cbn [length tl]. rewrite Nat.sub_succ, Nat.sub_0_r.
  apply (filter_positions _ _ _ rest 1 [d0] eq_refl).
  intros j [e' g'] Hj. rewrite <- D in *. unfold ungrouped, group_of. cbn [fst].
  rewrite (prop_of_nth (1 + j) e' g'); [reflexivity|]. rewrite D. exact Hj.
Qed.

Lemma in_group_bool : forall i j, In j (members data i) <-> in_group data i j.
Proof.
  intros i j. unfold members, in_group. rewrite filter_In, in_seq. unfold in_group_b.
  split.
  - intros (H & B). split; [lia|]. destruct (group_of data j) as [g|]; [|discriminate].
    destruct (opt_dec (id_of data i) (Some g)) as [E|]; [eauto|discriminate].
  - intros (H & g & Hg & Hi). split; [lia|]. rewrite Hg. destruct (opt_dec (id_of data i) (Some g)); [reflexivity|contradiction].
Qed.

Lemma members_NoDup : forall i, NoDup (members data i).
Proof. intros i. apply NoDup_filter, seq_NoDup. Qed.

Lemma roots_spec : forall i, In i (roots data) <-> i < length data /\ (i = 0 \/ group_of data i = None).
Proof.
  intros i. unfold roots. rewrite in_app_iff, filter_In, in_seq. unfold ungrouped.
  destruct data as [|d l] eqn:D; [simpl; split; [intros [[]|[? _]]; lia|lia]|]. rewrite <- D.
  assert (L : 0 < length data) by (rewrite D; simpl; lia).
  replace (firstn 1 (seq 0 (length data))) with [0] by (rewrite D; reflexivity). simpl. split.
  - intros [[<-|[]]|[H G]]; [auto|]. split; [lia|]. right. destruct (group_of data i); [discriminate|reflexivity].
  - intros (H & [->|G]); [auto|]. destruct i; [auto|]. right. split; [lia|]. now rewrite G.
Qed.

Lemma roots_NoDup : NoDup (roots data).
Proof.
  unfold roots. destruct data as [|d l] eqn:D; [constructor|]. cbn [length seq firstn app]. constructor.
  - rewrite filter_In, in_seq. lia.
  - rewrite <- D. apply NoDup_filter, seq_NoDup.
Qed.

(** ** Ancestor chains *)
Inductive chain : list nat -> nat -> Prop :=
| ChainRoot : forall i, In i (roots data) -> chain [] i
| ChainStep : forall anc i j, chain anc i -> in_group data i j -> chain (i :: anc) j.

Lemma reaches_chain : forall i, reaches data i <-> exists anc, chain anc i.
Proof.
  split.
  - intros H. induction H as [i H|i j H [anc IH] G]; [exists []; now constructor|]. exists (i :: anc). now constructor.
  - intros [anc H]. induction H as [i H|anc i j H IH G]; [now constructor|]. eapply ReachGroup; eauto.
Qed.

Lemma chain_bound : forall anc i, chain anc i -> i < length data /\ Forall (fun j => j < length data) anc.
Proof.
  intros anc i H. induction H as [i H|anc i j H [IH1 IH2] G].
  - split; [|constructor]. now apply roots_spec.
  - split; [apply G|]. constructor; auto.
Qed.

Section Distinct.
Hypothesis distinct : distinct_ids data.

Lemma chain_unique : forall anc i, chain anc i -> forall anc', chain anc' i -> anc = anc'.
Proof.
  intros anc i H. induction H as [i H|anc i j H IH (L & g & Gj & Ii)]; intros anc' H'.
  - destruct H' as [i H'|anc' i' j H' (L & g & Gj & Ii)]; [reflexivity|]. apply roots_spec in H. destruct H as [_ [->|E]]; [lia|congruence].
  - destruct H' as [j H'|anc' i' j H' (L' & g' & Gj' & Ii')].
    + apply roots_spec in H'. destruct H' as [_ [->|E]]; [lia|congruence].
    + assert (g' = g) by congruence. subst g'. assert (i' = i) by (eapply distinct; eauto). subst i'. f_equal. now apply IH.
Qed.

Lemma chain_suffix : forall anc i, chain anc i -> forall pre x rest, anc = pre ++ x :: rest -> chain rest x.
Proof.
  intros anc i H. induction H as [i H|anc i j H IH G]; intros pre x rest E; [destruct pre; discriminate|].
  destruct pre as [|y pre]; simpl in E; inv E; [exact H|]. eapply IH; eauto.
Qed.

Lemma chain_fresh : forall anc i, chain anc i -> ~ In i anc.
Proof.
  intros anc i H Hin. apply in_split in Hin. destruct Hin as (pre & rest & E).
  pose proof (chain_suffix _ _ H _ _ _ E) as H'. pose proof (chain_unique _ _ H _ H') as U.
  apply f_equal with (f := @length nat) in U. rewrite E, app_length in U. simpl in U. lia.
Qed.

Lemma chain_NoDup : forall anc i, chain anc i -> NoDup (i :: anc).
Proof.
  intros anc i H. constructor; [now apply chain_fresh|].
  induction H as [i H|anc i j H IH G]; [constructor|]. constructor; [now apply chain_fresh|exact IH].
Qed.

Lemma chain_short : forall anc i, chain anc i -> length anc < length data.
Proof.
  intros anc i H. pose proof (chain_NoDup _ _ H) as N. pose proof (chain_bound _ _ H) as [B F].
  assert (I : incl (i :: anc) (seq 0 (length data))).
  { intros x [<-|Hx]; apply in_seq; [lia|]. rewrite Forall_forall in F. specialize (F x Hx). lia. }
  pose proof (NoDup_incl_length N I) as L. rewrite seq_length in L. simpl in L. lia.
Qed.

End Distinct.

(** ** Termination *)
Lemma mapM_not_fuel : forall A B (f : A -> res B) l, (forall x, In x l -> f x <> OutOfFuel) -> mapM f l <> OutOfFuel.
Proof.
  induction l as [|x l IH]; intros H; simpl; [discriminate|].
  pose proof (H x (or_introl eq_refl)) as Hx.
  assert (Hl : mapM f l <> OutOfFuel) by (apply IH; intros; apply H; simpl; auto).
  destruct (f x); simpl; try congruence; try discriminate. destruct (mapM f l); simpl; congruence.
Qed.

Lemma bind_not_fuel : forall A B (r : res A) (f : A -> res B), r <> OutOfFuel ->
  (forall a, r = Ok a -> f a <> OutOfFuel) -> bind r f <> OutOfFuel.
Proof. intros A B r f H K. destruct r; simpl; try congruence; try discriminate. now apply K. Qed.

Lemma unwrap_not_fuel : forall A w (o : option A), unwrap w o <> OutOfFuel.
Proof. intros A w [a|]; discriminate. Qed.

Lemma filter_loop_not_fuel : forall pred vs todo ix ni nv, filter_loop O pred vs todo ix ni nv <> OutOfFuel.
Proof.
  intros pred vs todo. induction todo as [|[i v] todo IH]; intros ix ni nv; simpl; [discriminate|].
  destruct (pred i v vs); [apply IH|]. apply bind_not_fuel; [apply unwrap_not_fuel|]. intros; apply IH.
Qed.

Lemma gather_entity_not_fuel : forall bp fp vp g, gather_entity O bp fp vp g <> OutOfFuel.
Proof.
  intros bp fp vp g. unfold gather_entity. apply bind_not_fuel; [|discriminate].
  apply mapM_not_fuel. intros b _. unfold gather_brush. destruct vp; [|discriminate].
  unfold filter_vertices. apply bind_not_fuel; [apply filter_loop_not_fuel|]. intros [[a b'] c] _. discriminate.
Qed.

Lemma texture_surface_not_fuel : forall g bl t, texture_surface O g bl t <> OutOfFuel.
Proof.
  intros g b t. unfold texture_surface. apply bind_not_fuel; [apply gather_entity_not_fuel|]. intros [vs ix] _. discriminate.
Qed.

Lemma brush_visual_not_fuel : forall e g bd bl, brush_visual O e g bd bl <> OutOfFuel.
Proof.
  intros e g bd b. unfold brush_visual. destruct (bd_visual bd); [discriminate|].
  apply bind_not_fuel; [apply mapM_not_fuel; intros; apply texture_surface_not_fuel|].
  intros l _. destruct (filter_map (fun o => o) l); discriminate.
Qed.

Lemma collision_of_not_fuel : forall t g, collision_of O t g <> OutOfFuel.
Proof.
  intros [] g; simpl; try discriminate. unfold concave_collision.
  apply bind_not_fuel; [apply gather_entity_not_fuel|]. intros [vs ix] _. discriminate.
Qed.

Lemma entity_visual_not_fuel : forall e g, entity_visual O gd bl e g <> OutOfFuel.
Proof.
  intros e g. unfold entity_visual. destruct (get_property e (lit "classname")); [|discriminate].
  destruct (find_def gd s); [|discriminate]. destruct (ed_data e0); [discriminate|apply brush_visual_not_fuel].
Qed.

Lemma entity_collision_not_fuel : forall e g, entity_collision O gd e g <> OutOfFuel.
Proof.
  intros e g. unfold entity_collision. destruct (get_property e (lit "classname")); [|discriminate].
  destruct (find_def gd s); [|discriminate]. destruct (ed_data e0); [discriminate|apply collision_of_not_fuel].
Qed.

Lemma get_properties_not_fuel : forall e, get_properties O fd e <> OutOfFuel.
Proof.
  intros e. unfold get_properties. destruct (find_forge fd _); [|discriminate].
  assert (A : forall k m, add_internal_integer e k m <> OutOfFuel).
  { intros k m. unfold add_internal_integer. destruct (get_property e k); [|discriminate].
    apply bind_not_fuel; [apply unwrap_not_fuel|discriminate]. }
  apply bind_not_fuel; [apply A|]. intros m _. apply bind_not_fuel; [apply A|]. discriminate.
Qed.

Lemma build_layer_not_fuel : forall l, build_layer O gd l <> OutOfFuel.
Proof.
  intros [t bs]. unfold build_layer. destruct (filter _ (gd_layers gd)) as [|l [|]]; try discriminate.
  apply bind_not_fuel.
  - unfold layer_visual. destruct (wl_visual l); [discriminate|]. apply bind_not_fuel; [apply texture_surface_not_fuel|discriminate].
  - intros v _. apply bind_not_fuel; [apply collision_of_not_fuel|]. intros k _.
    destruct (visual_nodes _ v ++ collision_nodes _ k); discriminate.
Qed.

Lemma build_entity_terminates : distinct_ids data -> forall fuel anc i d origin, chain anc i ->
  nth_error data i = Some d -> length data <= length anc + fuel -> build_entity O fuel gd fd bl data origin d <> OutOfFuel.
Proof.
  intros D fuel. induction fuel as [|fuel IH]; intros anc i [e g] origin C Hd L.
  - pose proof (chain_short D anc i C). lia.
  - cbn [build_entity]. apply bind_not_fuel; [apply entity_visual_not_fuel|]. intros v _.
    apply bind_not_fuel; [apply entity_collision_not_fuel|]. intros k _.
    apply bind_not_fuel.
    + apply mapM_not_fuel. intros c Hc. destruct (Forall2_in_r _ _ _ _ _ _ (members_children i e g Hd) Hc) as (j & Hj & Ej).
      apply (IH (i :: anc) j); [|exact Ej|simpl; lia]. constructor; [exact C|]. now apply in_group_bool.
    + intros ch _. apply bind_not_fuel; [apply unwrap_not_fuel|]. intros n _.
      apply bind_not_fuel; [apply get_properties_not_fuel|]. discriminate.
Qed.

Theorem build_scene_terminates : distinct_ids data -> forall fuel layers, length data <= fuel ->
  build_scene O fuel gd fd bl data layers <> OutOfFuel.
Proof.
  intros D fuel layers L. unfold build_scene. apply bind_not_fuel.
  - apply mapM_not_fuel. intros d Hd.
    assert (E : nth_error data 0 = Some d) by (destruct data as [|x l]; [contradiction|]; destruct Hd as [<-|[]]; reflexivity).
    apply (build_entity_terminates D fuel [] 0); [|exact E|simpl; lia]. constructor. apply roots_spec. split; [|auto].
    apply nth_error_Some. congruence.
  - intros w _. apply bind_not_fuel; [apply mapM_not_fuel; intros; apply build_layer_not_fuel|]. intros ls _.
    apply bind_not_fuel; [|discriminate]. apply mapM_not_fuel. intros d Hd.
    destruct (Forall2_in_r _ _ _ _ _ _ ungrouped_others Hd) as (j & Hj & Ej).
    apply (build_entity_terminates D fuel [] j); [|exact Ej|simpl; lia]. constructor. unfold roots. apply in_or_app. auto.
Qed.

(** More fuel does not change a result. *)
Lemma mapM_mono : forall A B (f g : A -> res B) l, (forall x, In x l -> f x <> OutOfFuel -> g x = f x) ->
  mapM f l <> OutOfFuel -> mapM g l = mapM f l.
Proof.
  induction l as [|x l IH]; intros H N; simpl in *; [reflexivity|].
  rewrite (H x (or_introl eq_refl)) by (intros E; rewrite E in N; apply N; reflexivity).
  destruct (f x); simpl in *; try reflexivity. rewrite IH; [reflexivity|intros; apply H; auto|].
  intros E. rewrite E in N. apply N. reflexivity.
Qed.

Lemma build_entity_mono : forall fuel fuel' origin d, fuel <= fuel' ->
  build_entity O fuel gd fd bl data origin d <> OutOfFuel ->
  build_entity O fuel' gd fd bl data origin d = build_entity O fuel gd fd bl data origin d.
Proof.
  induction fuel as [|fuel IH]; intros fuel' origin [e g] L N; [simpl in N; congruence|].
  destruct fuel' as [|fuel']; [lia|]. cbn [build_entity] in *.
  destruct (entity_visual O gd bl e g); simpl in *; try reflexivity.
  destruct (entity_collision O gd e g); simpl in *; try reflexivity.
  rewrite (mapM_mono _ _ (build_entity O fuel gd fd bl data (v3_neg O (eg_center g)))
    (build_entity O fuel' gd fd bl data (v3_neg O (eg_center g)))); [reflexivity| |].
  - intros x _ Nx. apply IH; [lia|exact Nx].
  - intros E. rewrite E in N. apply N. reflexivity.
Qed.

Theorem build_scene_mono : forall fuel fuel' layers, fuel <= fuel' ->
  build_scene O fuel gd fd bl data layers <> OutOfFuel ->
  build_scene O fuel' gd fd bl data layers = build_scene O fuel gd fd bl data layers.
Proof.
  intros fuel fuel' layers L N. unfold build_scene in *.
  rewrite (mapM_mono _ _ (build_entity O fuel gd fd bl data (v3_zero O)) (build_entity O fuel' gd fd bl data (v3_zero O)));
    [|intros; apply build_entity_mono; [lia|assumption]|intros E; rewrite E in N; apply N; reflexivity].
  destruct (mapM (build_entity O fuel gd fd bl data (v3_zero O)) (firstn 1 data)); simpl in *; try reflexivity.
  destruct (mapM (build_layer O gd) layers); simpl in *; try reflexivity.
  rewrite (mapM_mono _ _ (build_entity O fuel gd fd bl data (v3_zero O)) (build_entity O fuel' gd fd bl data (v3_zero O)));
    [reflexivity|intros; apply build_entity_mono; [lia|assumption]|intros E; rewrite E in N; apply N; reflexivity].
Qed.

(** ** Forest facts *)
Fixpoint paths (anc : list nat) (t : tree) : list (list nat * nat) :=
  match t with Tree i kids => (anc, i) :: flat_map (paths (i :: anc)) kids end.

Fixpoint tree_ind' (P : tree -> Prop) (H : forall i kids, Forall P kids -> P (Tree i kids)) (t : tree) : P t :=
  match t with
  | Tree i kids => H i kids ((fix go l : Forall P l := match l with [] => Forall_nil P | x :: r => Forall_cons x (tree_ind' P H x) (go r) end) kids)
  end.

Lemma paths_flatten : forall t anc, map snd (paths anc t) = flatten t.
Proof.
  intros t. induction t as [i kids IH] using tree_ind'; intros anc. simpl. f_equal.
  rewrite flat_map_concat_map, concat_map, map_map, flat_map_concat_map. f_equal.
  apply map_ext_in. intros k Hk. rewrite Forall_forall in IH. now apply IH.
Qed.

Lemma paths_shape : forall t anc a x, In (a, x) (paths anc t) ->
  (a = anc /\ x = root_of t) \/ exists pre, a = pre ++ root_of t :: anc.
Proof.
  intros t. induction t as [i kids IH] using tree_ind'; intros anc a x H. simpl in H. destruct H as [H|H].
  - inv H. left. auto.
  - right. apply in_flat_map in H. destruct H as (k & Hk & H). rewrite Forall_forall in IH.
    destruct (IH k Hk _ _ _ H) as [[-> ->]|(pre & ->)].
    + exists []. reflexivity.
    + exists (pre ++ [root_of k]). rewrite <- app_assoc. reflexivity.
Qed.

Lemma app_same_tail : forall (pre pre' : list nat) x y anc, pre ++ x :: anc = pre' ++ y :: anc -> x = y.
Proof.
  intros pre pre' x y anc H.
  assert (L : length pre = length pre').
  { apply f_equal with (f := @length nat) in H. rewrite !app_length in H. simpl in H. lia. }
  revert pre' L H. induction pre as [|a pre IH]; intros [|b pre'] L H; simpl in *; try lia; inv H; [reflexivity|eauto].
Qed.

Lemma forest_paths_NoDup : forall ts anc, NoDup (map root_of ts) -> (forall t, In t ts -> NoDup (paths anc t)) ->
  NoDup (flat_map (paths anc) ts).
Proof.
  induction ts as [|t ts IH]; intros anc N F; simpl; [constructor|]. inv N.
  assert (D : forall p, In p (paths anc t) -> ~ In p (flat_map (paths anc) ts)).
  { intros [a x] H H'. apply in_flat_map in H'. destruct H' as (t' & Ht & H').
    assert (R : root_of t <> root_of t').
    { intros E. apply H1. rewrite E. apply in_map, Ht. }
    destruct (paths_shape _ _ _ _ H) as [[-> ->]|(pre & ->)]; destruct (paths_shape _ _ _ _ H') as [[E E']|(pre' & E)].
    - congruence.
    - apply f_equal with (f := @length nat) in E. rewrite app_length in E. simpl in E. lia.
    - apply f_equal with (f := @length nat) in E. rewrite app_length in E. simpl in E. lia.
    - apply R. eapply app_same_tail; eauto. }
  assert (N1 : NoDup (paths anc t)) by (apply F; simpl; auto).
  assert (N2 : NoDup (flat_map (paths anc) ts)) by (apply IH; [assumption|intros; apply F; simpl; auto]).
  clear - N1 N2 D. induction N1 as [|p l Hp N1 IHl]; simpl; [exact N2|]. constructor.
  - intros Hin. apply in_app_or in Hin. destruct Hin as [Hin|Hin]; [contradiction|]. apply (D p); simpl; auto.
  - apply IHl. intros; apply D; simpl; auto.
Qed.

Lemma tree_paths_NoDup : forall t anc, group_tree data t -> NoDup (paths anc t).
Proof.
  intros t. induction t as [i kids IH] using tree_ind'; intros anc G. inv G. simpl. constructor.
  - intros H. apply in_flat_map in H. destruct H as (k & Hk & H). destruct (paths_shape _ _ _ _ H) as [[E _]|(pre & E)].
    + apply f_equal with (f := @length nat) in E. simpl in E. lia.
    + apply f_equal with (f := @length nat) in E. rewrite app_length in E. simpl in E. lia.
  - apply forest_paths_NoDup.
    + rewrite H2. apply members_NoDup.
    + intros k Hk. rewrite Forall_forall in IH, H3. apply IH; auto.
Qed.

Lemma tree_paths_chain : forall t anc, group_tree data t -> chain anc (root_of t) ->
  forall a x, In (a, x) (paths anc t) -> chain a x.
Proof.
  intros t. induction t as [i kids IH] using tree_ind'; intros anc G C a x H. inv G. simpl in *.
  destruct H as [H|H]; [inv H; exact C|]. apply in_flat_map in H. destruct H as (k & Hk & H).
  rewrite Forall_forall in IH, H4. apply (IH k Hk (i :: anc)); auto.
  constructor; [exact C|]. apply in_group_bool. rewrite <- H3. apply in_map, Hk.
Qed.

Lemma tree_closed : forall t, group_tree data t -> forall i j, In i (flatten t) -> in_group data i j -> In j (flatten t).
Proof.
  intros t. induction t as [r kids IH] using tree_ind'; intros G i j Hi Hij. inv G. simpl in *. destruct Hi as [<-|Hi].
  - right. apply in_group_bool in Hij. rewrite <- H2 in Hij. apply in_map_iff in Hij. destruct Hij as (k & <- & Hk).
    apply in_flat_map. exists k. split; [exact Hk|]. destruct k. simpl. auto.
  - right. apply in_flat_map in Hi. destruct Hi as (k & Hk & Hi). apply in_flat_map. exists k. split; [exact Hk|].
    rewrite Forall_forall in IH, H3. eapply IH; eauto.
Qed.

Theorem forest_spec : forall ts, map root_of ts = roots data -> Forall (group_tree data) ts ->
  (distinct_ids data -> NoDup (flat_map flatten ts)) /\ (forall i, In i (flat_map flatten ts) <-> reaches data i).
Proof.
  intros ts R G. rewrite Forall_forall in G. split.
  - intros D. pose proof (forest_paths_NoDup ts []) as N. rewrite R in N. specialize (N roots_NoDup).
    assert (NP : NoDup (flat_map (paths []) ts)) by (apply N; intros; apply tree_paths_NoDup; auto). clear N.
    assert (CP : forall a x, In (a, x) (flat_map (paths []) ts) -> chain a x).
    { intros a x H. apply in_flat_map in H. destruct H as (t & Ht & H). apply (tree_paths_chain t []); auto.
      constructor. rewrite <- R. apply in_map, Ht. }
    assert (E : flat_map flatten ts = map snd (flat_map (paths []) ts)).
    { rewrite !flat_map_concat_map, concat_map, map_map. f_equal. apply map_ext. intros. symmetry. apply paths_flatten. }
    rewrite E. clear E. induction NP as [|[a x] l Hp NP IH]; simpl; [constructor|]. constructor.
    + intros Hin. apply in_map_iff in Hin. destruct Hin as ([a' x'] & Ex & Hin). simpl in Ex. subst x'. apply Hp.
      replace a with a'; [exact Hin|]. eapply (chain_unique D); apply CP; simpl; eauto.
    + apply IH. intros; apply CP; simpl; auto.
  - intros i. split.
    + intros H. apply in_flat_map in H. destruct H as (t & Ht & H). rewrite <- (paths_flatten t []) in H.
      apply in_map_iff in H. destruct H as ([a x] & Ex & H). simpl in Ex. subst x. apply reaches_chain. exists a.
      apply (tree_paths_chain t []); auto. constructor. rewrite <- R. apply in_map, Ht.
    + intros H. induction H as [i H|i j H IH Gij].
      * rewrite <- R in H. apply in_map_iff in H. destruct H as (t & <- & Ht). apply in_flat_map. exists t. split; [exact Ht|].
        destruct t. simpl. auto.
      * apply in_flat_map in IH. destruct IH as (t & Ht & IH). apply in_flat_map. exists t. split; [exact Ht|].
        eapply tree_closed; eauto.
Qed.

Lemma reaches_bound : forall i, reaches data i -> i < length data.
Proof. intros i H. destruct H as [i H|i j H G]; [now apply roots_spec|apply G]. Qed.

Theorem forest_complete : forall ts, map root_of ts = roots data -> Forall (group_tree data) ts -> distinct_ids data ->
  (forall i, i < length data -> reaches data i) -> Permutation (flat_map flatten ts) (seq 0 (length data)).
Proof.
  intros ts R G D A. destruct (forest_spec ts R G) as [N I]. apply NoDup_Permutation; [auto|apply seq_NoDup|].
  intros i. rewrite I, in_seq. split; [intros H; apply reaches_bound in H; lia|intros H; apply A; lia].
Qed.
End Tree.

(** ** Rendering (f32) *)
Section Shows.
Context (p : platform) (gd : game_data f32) (fd : forge_data f32) (bl : blacklist).
Context (data : list (entity f32 * entity_geo f32)).
Let O := f32_num p.

Definition origin_for (parent : option nat) : vec3 f32 :=
  match parent with
  | None => v3_zero O
  | Some j => match nth_error data j with Some (_, g) => v3_neg O (eg_center g) | None => v3_zero O end
  end.

Lemma placed_origin : forall parent i e g, nth_error data i = Some (e, g) ->
  match parent with Some j => j < length data | None => True end ->
  placed data parent i (v3_add O (origin_for parent) (eg_center g)).
Proof.
  intros parent i e g Hi Hp. exists e, g. split; [exact Hi|]. destruct parent as [j|].
  - simpl. destruct (nth_error data j) as [[e' g']|] eqn:J; [|apply nth_error_None in J; lia].
    exists e', g'. split; [reflexivity|]. unfold same_vec3, minus. cbn. repeat split; apply vneg_add.
  - unfold same_vec3. cbn. repeat split; apply zero_add.
Qed.

Lemma geometry_nodes : forall c (v : visual f32) k, Forall geometry_node (visual_nodes c v ++ collision_nodes c k)
  /\ length (visual_nodes c v ++ collision_nodes c k) <= 2.
Proof. intros c [|l] [|s|s]; simpl; repeat constructor. Qed.

Lemma build_entity_shows : forall fuel parent i d n, nth_error data i = Some d ->
  match parent with Some j => j < length data | None => True end ->
  build_entity O fuel gd fd bl data (origin_for parent) d = Ok n ->
  exists t, root_of t = i /\ group_tree data t /\ shows data parent t n.
Proof.
  induction fuel as [|fuel IH]; intros parent i [e g] n Hi Hp E; [discriminate|]. cbn [build_entity] in E.
  apply bind_ok in E. destruct E as (v & Ev & E). apply bind_ok in E. destruct E as (k & Ek & E).
  apply bind_ok in E. destruct E as (ch & Ech & E). apply bind_ok in E. destruct E as (name & En & E).
  apply bind_ok in E. destruct E as (props & Epr & E). apply unwrap_ok in En.
  assert (Li : i < length data) by (apply nth_error_Some; congruence).
  assert (K : exists kids, map root_of kids = members data i /\ Forall (group_tree data) kids
     /\ Forall2 (shows data (Some i)) kids ch).
  { pose proof (members_children data i e g Hi) as M. apply mapM_ok in Ech.
    assert (Eo : v3_neg O (eg_center g) = origin_for (Some i)) by (simpl; rewrite Hi; reflexivity).
    rewrite Eo in Ech. clear Eo. revert M Ech. generalize (members data i). intros js M.
    clear E. revert ch. induction M as [|j d js ds Hj M IHM]; intros ch F; inv F; [exists []; repeat split; constructor|].
    destruct (IHM _ H3) as (kids & R & G & S).
    destruct (IH (Some i) j d y Hj Li H1) as (t & Rt & Gt & St).
    exists (t :: kids). simpl. rewrite Rt, R. repeat split; constructor; auto. }
  destruct K as (kids & R & G & S). injection E as <-.
  exists (Tree i kids). split; [reflexivity|]. split; [constructor; auto|].
  rewrite app_assoc. destruct (geometry_nodes (eg_center g) v k) as [Fg Lg].
  constructor; auto.
  - eapply placed_origin; eauto.
  - rewrite (prop_of_nth data i e g); [exact En|exact Hi].
Qed.

Theorem build_scene_shows : forall fuel layers nodes,
  build_scene O fuel gd fd bl data layers = Ok nodes ->
  exists ts ls world others, map root_of ts = roots data /\ Forall (group_tree data) ts
    /\ mapM (build_layer O gd) layers = Ok ls
    /\ nodes = world ++ filter_map (fun o => o) ls ++ others
    /\ length world = length (firstn 1 data)
    /\ Forall2 (shows data None) ts (world ++ others).
Proof.
  intros fuel layers nodes E. unfold build_scene in E.
  apply bind_ok in E. destruct E as (w & Ew & E). apply bind_ok in E. destruct E as (ls & El & E).
  apply bind_ok in E. destruct E as (os & Eo & E). injection E as <-.
  assert (Step : forall js ds ns, Forall2 (fun j d => nth_error data j = Some d) js ds ->
    mapM (build_entity O fuel gd fd bl data (v3_zero O)) ds = Ok ns ->
    exists ts, map root_of ts = js /\ Forall (group_tree data) ts /\ Forall2 (shows data None) ts ns).
  { intros js ds ns M F. apply mapM_ok in F. revert ns F.
    induction M as [|j d js ds Hj M IHM]; intros ns F; inv F; [exists []; repeat split; constructor|].
    destruct (IHM _ H3) as (ts & R & G & S).
    destruct (build_entity_shows fuel None j d y Hj I H1) as (t & Rt & Gt & St).
    exists (t :: ts). simpl. rewrite Rt, R. repeat split; constructor; auto. }
  destruct (Step (firstn 1 (seq 0 (length data))) (firstn 1 data) w) as (t1 & R1 & G1 & S1); [|exact Ew|].
  { destruct data as [|d l]; simpl; repeat constructor. }
  destruct (Step _ _ os (ungrouped_others data) Eo) as (t2 & R2 & G2 & S2).
  exists (t1 ++ t2), ls, w, os. split; [rewrite map_app, R1, R2; reflexivity|].
  split; [apply Forall_app; auto|]. split; [exact El|]. split; [reflexivity|].
  split; [eapply mapM_length; eauto|]. apply Forall2_app; auto.
Qed.
End Shows.

(** ** Order of layers *)
Lemma mapM_perm : forall A B (f : A -> res B) l l' r, Permutation l l' -> mapM f l = Ok r ->
  exists r', mapM f l' = Ok r' /\ Permutation r r'.
Proof.
  intros A B f l l' r P. revert r. induction P as [|x l l' P IH|x y l|l l' l'' P1 IH1 P2 IH2]; intros r E.
  - exists r. split; [exact E|apply Permutation_refl].
  - simpl in *. destruct (f x) as [a| | |]; try discriminate. simpl in *.
    destruct (mapM f l) as [rs| | |] eqn:M; try discriminate. simpl in E. injection E as <-.
    destruct (IH rs eq_refl) as (r' & -> & Pr). exists (a :: r'). split; [reflexivity|]. now constructor.
  - simpl in *. destruct (f y) as [b| | |]; try discriminate. simpl in *. destruct (f x) as [a| | |]; try discriminate. simpl in *.
    destruct (mapM f l) as [rs| | |]; try discriminate. simpl in *. injection E as <-. eexists. split; [reflexivity|]. constructor.
  - destruct (IH1 r E) as (r1 & E1 & Q1). destruct (IH2 r1 E1) as (r2 & E2 & Q2). exists r2. split; [exact E2|].
    eapply Permutation_trans; eauto.
Qed.

Lemma filter_map_perm : forall A B (f : A -> option B) l l', Permutation l l' -> Permutation (filter_map f l) (filter_map f l').
Proof.
  intros A B f l l' P. induction P; simpl.
  - constructor.
  - destruct (f x); auto.
  - destruct (f x), (f y); auto using Permutation_refl. constructor.
  - eapply Permutation_trans; eauto.
Qed.

Theorem scene_order : forall T (O : num T) fuel gd fd bl data layers layers' nodes, Permutation layers layers' ->
  build_scene O fuel gd fd bl data layers = Ok nodes ->
  exists nodes' world l l' others, build_scene O fuel gd fd bl data layers' = Ok nodes'
    /\ nodes = world ++ l ++ others /\ nodes' = world ++ l' ++ others /\ Permutation l l'
    /\ length l <= length layers.
Proof.
  intros T O fuel gd fd bl data layers layers' nodes P E. unfold build_scene in *.
  apply bind_ok in E. destruct E as (w & Ew & E). apply bind_ok in E. destruct E as (ls & El & E).
  apply bind_ok in E. destruct E as (os & Eo & E). injection E as <-. rewrite Ew, Eo. cbn [bind].
  destruct (mapM_perm _ _ _ _ _ _ P El) as (ls' & El' & Pl). rewrite El'. cbn [bind].
  do 5 eexists. split; [reflexivity|]. split; [reflexivity|]. split; [reflexivity|].
  split; [now apply filter_map_perm|]. rewrite <- (mapM_length _ _ _ _ _ El). apply filter_map_length_le.
Qed.

(** ** Divergence *)
Section Diverge.
Context (p : platform).
Let O := f32_num p.
Let none : vec3 f32 := V3 f32_zero f32_zero f32_zero.
Definition ent (props : list (str * str)) : entity f32 * entity_geo f32 := (Entity props [], EntityGeo none []).
Definition loop_world := ent [(lit "classname", lit "worldspawn")].
Definition loop_a := ent [(lit "classname", lit "func_group"); (lit "_tb_id", lit "1")].
Definition loop_b := ent [(lit "classname", lit "func_group"); (lit "_tb_id", lit "1"); (lit "_tb_group", lit "1")].
Definition loop_data := [loop_world; loop_a; loop_b].

Lemma build_entity_stuck : forall T (O : num T) fuel gd fd bl data origin e g v k c,
  entity_visual O gd bl e g = Ok v -> entity_collision O gd e g = Ok k ->
  filter (fun x => is_child e (fst x)) (tl data) = [c] ->
  (forall o, build_entity O fuel gd fd bl data o c = OutOfFuel) ->
  build_entity O (S fuel) gd fd bl data origin (e, g) = OutOfFuel.
Proof.
  intros T O' fuel gd fd bl data origin e g v k c V K C H. cbn [build_entity]. rewrite V, K, C. cbn [bind mapM].
  now rewrite H.
Qed.

Lemma loop_b_diverges : forall fuel origin,
  build_entity O fuel (GameData [] []) (ForgeData [] [] []) (Blacklist [] []) loop_data origin loop_b = OutOfFuel.
Proof.
  induction fuel as [|fuel IH]; intros origin; [reflexivity|].
  unfold loop_b at 1. eapply (build_entity_stuck _ _ _ _ _ _ _ _ _ _ _ _ loop_b); [reflexivity..|exact IH].
Qed.

Lemma loop_diverges : forall fuel,
  build_scene O fuel (GameData [] []) (ForgeData [] [] []) (Blacklist [] []) loop_data [] = OutOfFuel.
Proof.
  intros [|[|fuel]]; [reflexivity|reflexivity|].
  assert (A : build_entity O (S (S fuel)) (GameData [] []) (ForgeData [] [] []) (Blacklist [] []) loop_data (v3_zero O) loop_a = OutOfFuel).
  { unfold loop_a. eapply (build_entity_stuck _ _ _ _ _ _ _ _ _ _ _ _ loop_b); [reflexivity..|apply loop_b_diverges]. }
  unfold build_scene.
  match goal with |- context [mapM ?f (firstn 1 loop_data)] => assert (W : exists n, mapM f (firstn 1 loop_data) = Ok n) by (eexists; reflexivity) end.
  destruct W as (n & W). rewrite W. cbn [bind mapM].
  match goal with |- context [mapM ?f (filter ?g (tl loop_data))] =>
    change (filter g (tl loop_data)) with [loop_a]; assert (M : mapM f [loop_a] = OutOfFuel) by (cbn [mapM]; rewrite A; reflexivity) end.
  rewrite M. reflexivity.
Qed.
End Diverge.
