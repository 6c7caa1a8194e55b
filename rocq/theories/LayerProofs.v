(** Layer filter: lemmas for C22 to C24. *)
From Coq Require Import Permutation.
From Verif Require Import Prelude F32 Text MapModel GeoModel LayerModel DiffSpec LayerSpec BaseProofs DiffProofs.

Section Layer.
  Context {T : Type}.
  Implicit Types (data others : list (entity T * entity_geo T)) (b : brush_geo T).

  Lemma is_worldspawn_spec : forall d : entity T * entity_geo T, is_worldspawn d = true <-> worldspawn (fst d).
  Proof.
    intros [e g]. unfold is_worldspawn, worldspawn, get_property. simpl. destruct (hget _ _) as [c|].
    - rewrite str_eqb_eq. split; congruence.
    - split; discriminate.
  Qed.

  Lemma partition_filter : forall A (f : A -> bool) l, partition f l = (filter f l, filter (fun x => negb (f x)) l).
  Proof. induction l as [|x l IH]; [reflexivity|]. simpl. rewrite IH. destruct (f x); reflexivity. Qed.

  Lemma filter_none : forall A (f : A -> bool) l, (forall x, In x l -> f x = false) -> filter f l = [].
  Proof.
    induction l as [|x l IH]; intros H; [reflexivity|]. simpl. rewrite (H x) by (left; reflexivity).
    apply IH. intros y Hy. apply H. right. exact Hy.
  Qed.
  Lemma filter_all : forall A (f : A -> bool) l, (forall x, In x l -> f x = true) -> filter f l = l.
  Proof.
    induction l as [|x l IH]; intros H; [reflexivity|]. simpl. rewrite (H x) by (left; reflexivity).
    f_equal. apply IH. intros y Hy. apply H. right. exact Hy.
  Qed.

  Lemma filter_single : forall A (f : A -> bool) l x, filter f l = [x] ->
    exists pre post, l = pre ++ x :: post /\ filter (fun x => negb (f x)) l = pre ++ post /\ f x = true /\
      forall y, In y (pre ++ post) -> f y = false.
  Proof.
    induction l as [|y l IH]; intros x H; [discriminate|]. simpl in H. destruct (f y) eqn:E.
    - injection H as -> H. exists [], l. simpl. rewrite E. simpl.
      assert (Hn : forall z, In z l -> f z = false).
      { intros z Hz. destruct (f z) eqn:Ez; [|reflexivity].
        assert (Hi : In z (filter f l)) by (apply filter_In; auto). rewrite H in Hi. destruct Hi. }
      repeat split; auto. apply filter_all. intros z Hz. rewrite Hn by exact Hz. reflexivity.
    - apply IH in H as (pre & post & -> & H1 & H2 & H3). exists (y :: pre), post. repeat split.
      + simpl. rewrite E. simpl. f_equal. exact H1.
      + exact H2.
      + intros z [<-|Hz]; auto.
  Qed.

  Lemma world_filter : forall data we wg others,
    single_world data we wg others ->
    filter is_worldspawn data = [(we, wg)] /\ filter (fun x => negb (is_worldspawn x)) data = others.
  Proof.
    intros data we wg others (pre & post & -> & -> & Hw & Hn).
    assert (Hf : forall d, In d (pre ++ post) -> is_worldspawn d = false).
    { intros d Hd. destruct (is_worldspawn d) eqn:E; [|reflexivity]. apply is_worldspawn_spec in E. exfalso. eapply Hn; eauto. }
    assert (Hw' : is_worldspawn (we, wg) = true) by (apply is_worldspawn_spec; exact Hw).
    rewrite !filter_app. simpl. rewrite Hw'. simpl.
    rewrite !filter_none with (f := is_worldspawn) by (intros; apply Hf, in_or_app; auto).
    rewrite !filter_all by (intros; rewrite Hf by (apply in_or_app; auto); reflexivity).
    split; reflexivity.
  Qed.

  Lemma filter_world : forall data we wg,
    filter is_worldspawn data = [(we, wg)] ->
    single_world data we wg (filter (fun x => negb (is_worldspawn x)) data).
  Proof.
    intros data we wg H. destruct (filter_single _ _ _ _ H) as (pre & post & E & H1 & H2 & H3).
    exists pre, post. repeat split; auto.
    - apply is_worldspawn_spec in H2. exact H2.
    - rewrite H1. intros d Hd Hw. apply is_worldspawn_spec in Hw. rewrite H3 in Hw by exact Hd. discriminate.
  Qed.

  Lemma in_layer_spec : forall name b, in_layer name b = true <-> all_faces name b.
  Proof.
    intros name b. unfold in_layer, all_faces. rewrite forallb_forall. split; intros H f Hf; specialize (H f Hf).
    - destruct (f_texture f); [|discriminate]. apply str_eqb_eq in H. congruence.
    - rewrite H. apply str_eqb_refl.
  Qed.

  Lemma layers_split : forall bs : list (brush_geo T),
    split_layers layer_textures bs [] =
      (filter (fun b => negb (in_layer slime b)) (filter (fun b => negb (in_layer water b)) bs),
       [(water, filter (in_layer water) bs);
        (slime, filter (in_layer slime) (filter (fun b => negb (in_layer water b)) bs))]).
  Proof.
    intros bs. unfold layer_textures, split_layers. rewrite !partition_filter. reflexivity.
  Qed.

  Lemma layer_filter_ok : forall data we wg others, single_world data we wg others ->
    layer_filter data = Ok ((we, EntityGeo (eg_center wg)
        (filter (fun b => negb (in_layer slime b)) (filter (fun b => negb (in_layer water b)) (eg_brushes wg)))) :: others,
      [(water, filter (in_layer water) (eg_brushes wg));
       (slime, filter (in_layer slime) (filter (fun b => negb (in_layer water b)) (eg_brushes wg)))]).
  Proof.
    intros data we wg others H. unfold layer_filter. rewrite partition_filter.
    destruct (world_filter _ _ _ _ H) as [-> ->]. rewrite layers_split. reflexivity.
  Qed.

  Lemma layer_filter_single : forall data r, layer_filter data = Ok r -> exists we wg others, single_world data we wg others.
  Proof.
    intros data r H. unfold layer_filter in H. rewrite partition_filter in H.
    destruct (filter is_worldspawn data) as [|[we wg] [|? ?]] eqn:E; try discriminate.
    exists we, wg. eexists. apply filter_world. exact E.
  Qed.

  Lemma layer_filter_panic : forall data,
    (forall we wg others, ~ single_world data we wg others) -> exists w, layer_filter data = Panic w.
  Proof.
    intros data H. unfold layer_filter. rewrite partition_filter.
    destruct (filter is_worldspawn data) as [|[we wg] [|? ?]] eqn:E; eauto.
    exfalso. eapply H. apply filter_world. exact E.
  Qed.

  Lemma selected_filter2 : forall A (f g : A -> bool) (P Q : A -> Prop) l,
    (forall x, f x = true <-> P x) -> (forall x, g x = true <-> Q x) ->
    selected (fun x => P x /\ Q x) l (filter g (filter f l)).
  Proof.
    intros A f g P Q l Hf Hg. induction l as [|x l IH]; simpl; [constructor|].
    destruct (f x) eqn:Ef.
    - simpl. destruct (g x) eqn:Eg.
      + constructor; [split; [apply Hf|apply Hg]; assumption|exact IH].
      + apply SelDrop; [|exact IH]. intros [_ H]. apply Hg in H. congruence.
    - apply SelDrop; [|exact IH]. intros [H _]. apply Hf in H. congruence.
  Qed.

  Lemma negb_spec : forall (f : brush_geo T -> bool) P, (forall x, f x = true <-> P x) ->
    forall x, negb (f x) = true <-> ~ P x.
  Proof. intros f P H x. rewrite negb_true_iff. rewrite <- H. destruct (f x); split; congruence. Qed.

  Lemma filter_permutation : forall A (f : A -> bool) l, Permutation (filter f l ++ filter (fun x => negb (f x)) l) l.
  Proof.
    induction l as [|x l IH]; simpl; [constructor|]. destruct (f x); simpl.
    - constructor. exact IH.
    - symmetry. apply Permutation_cons_app. symmetry. exact IH.
  Qed.

  Lemma filter_subseq : forall A (f : A -> bool) l, subseq (filter f l) l.
  Proof. induction l as [|x l IH]; simpl; [constructor|]. destruct (f x); constructor; exact IH. Qed.

  Lemma subseq_trans : forall A (a b c : list A), subseq a b -> subseq b c -> subseq a c.
  Proof.
    intros A a b c H1 H2. revert a H1. induction H2; intros a H1; auto.
    - constructor. apply IHsubseq. exact H1.
    - inv H1; constructor; apply IHsubseq; assumption.
  Qed.

  Lemma two_layers_ok : forall w s : list (brush_geo T), two_layers [(water, w); (slime, s)] w s.
  Proof.
    intros w s. repeat split. intros k Hw Hs. simpl.
    rewrite (proj2 (str_eqb_neq k water)) by exact Hw. rewrite (proj2 (str_eqb_neq k slime)) by exact Hs. reflexivity.
  Qed.

  (** ** Final forms *)
  Lemma conserve : forall data out layers, layer_filter data = Ok (out, layers) ->
    exists we wg others rest w s,
      single_world data we wg others /\
      out = (we, EntityGeo (eg_center wg) rest) :: others /\
      two_layers layers w s /\
      Permutation (rest ++ w ++ s) (eg_brushes wg) /\
      subseq rest (eg_brushes wg) /\ subseq w (eg_brushes wg) /\ subseq s (eg_brushes wg).
  Proof.
    intros data out layers H. destruct (layer_filter_single _ _ H) as (we & wg & others & Hs).
    rewrite (layer_filter_ok _ _ _ _ Hs) in H. injection H as <- <-.
    exists we, wg, others. do 3 eexists. split; [exact Hs|]. split; [reflexivity|]. split; [apply two_layers_ok|].
    set (bs := eg_brushes wg). split; [|split; [|split]].
    - rewrite (Permutation_app_comm (filter (in_layer water) bs)), app_assoc.
      rewrite (Permutation_app_comm (filter (fun b => negb (in_layer slime b)) _)), filter_permutation.
      rewrite Permutation_app_comm. apply filter_permutation.
    - eapply subseq_trans; apply filter_subseq.
    - apply filter_subseq.
    - eapply subseq_trans; apply filter_subseq.
  Qed.

  Lemma membership : forall data out layers, layer_filter data = Ok (out, layers) ->
    exists we wg others rest w s,
      single_world data we wg others /\
      out = (we, EntityGeo (eg_center wg) rest) :: others /\
      two_layers layers w s /\
      selected (all_faces water) (eg_brushes wg) w /\
      selected (fun b => ~ all_faces water b /\ all_faces slime b) (eg_brushes wg) s /\
      selected (fun b => ~ all_faces water b /\ ~ all_faces slime b) (eg_brushes wg) rest.
  Proof.
    intros data out layers H. destruct (layer_filter_single _ _ H) as (we & wg & others & Hs).
    rewrite (layer_filter_ok _ _ _ _ Hs) in H. injection H as <- <-.
    exists we, wg, others. do 3 eexists. split; [exact Hs|]. split; [reflexivity|]. split; [apply two_layers_ok|].
    split; [|split].
    - apply selected_filter. apply in_layer_spec.
    - apply selected_filter2; [apply negb_spec, in_layer_spec|apply in_layer_spec].
    - apply selected_filter2; apply negb_spec, in_layer_spec.
  Qed.

  Lemma layer_unique : forall b, bg_faces b <> [] -> all_faces slime b -> ~ all_faces water b.
  Proof.
    intros b Hne Hs Hw. destruct (bg_faces b) as [|f fs] eqn:E; [contradiction|].
    assert (Hi : In f (bg_faces b)) by (rewrite E; left; reflexivity).
    specialize (Hs f Hi). specialize (Hw f Hi). rewrite Hs in Hw. discriminate.
  Qed.

  Lemma membership_iff : forall data out layers, layer_filter data = Ok (out, layers) ->
    forall we wg others, single_world data we wg others ->
    exists w s, two_layers layers w s /\
      (forall b, In b w <-> In b (eg_brushes wg) /\ all_faces water b) /\
      (forall b, bg_faces b <> [] -> (In b s <-> In b (eg_brushes wg) /\ all_faces slime b)) /\
      (forall b, In b (eg_brushes wg) -> bg_faces b = [] -> In b w /\ ~ In b s).
  Proof.
    intros data out layers H we wg others Hs.
    rewrite (layer_filter_ok _ _ _ _ Hs) in H. injection H as <- <-.
    do 2 eexists. split; [apply two_layers_ok|]. split; [|split].
    - intros b. rewrite filter_In, in_layer_spec. tauto.
    - intros b Hne. rewrite filter_In, filter_In, in_layer_spec, (negb_spec _ _ (in_layer_spec water)).
      split; [tauto|]. intros [H1 H2]. repeat split; auto. apply layer_unique; assumption.
    - intros b Hb Hf. assert (Hw : all_faces water b) by (intros f Hff; rewrite Hf in Hff; destruct Hff).
      rewrite !filter_In, in_layer_spec, (negb_spec _ _ (in_layer_spec water)). tauto.
  Qed.

  Lemma single : forall data,
    (forall we wg others, single_world data we wg others ->
       exists geo layers, layer_filter data = Ok ((we, geo) :: others, layers)) /\
    ((forall we wg others, ~ single_world data we wg others) -> exists w, layer_filter data = Panic w) /\
    (forall r, layer_filter data = Ok r -> exists we wg others, single_world data we wg others).
  Proof.
    intros data. split; [|split].
    - intros we wg others H. do 2 eexists. apply layer_filter_ok. exact H.
    - apply layer_filter_panic.
    - apply layer_filter_single.
  Qed.
End Layer.
