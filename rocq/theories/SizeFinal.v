(** The size of the tree: lemmas for C126. *)
From Coq Require Import Permutation Lia.
From Verif Require Import Prelude F32 Text MapModel GeoModel LayerModel GameDataModel SceneModel RunModel
  GatherSpec GeoSpec LayerSpec DiffSpec TreeSpec MapSpec Utf8Spec RunSpec SizeSpec
  BaseProofs TextProofs GeoProofs GeoFinal GatherProofs SurfaceProofs LayerProofs NodeProofs TreeProofs RunProofs PointsProofs PlaceProofs PlaceFinal SizeProofs.

Lemma sum_incl : forall A (f : A -> nat) l m, NoDup l -> incl l m -> list_sum (map f l) <= list_sum (map f m).
Proof.
  intros A f l. induction l as [|x l IH]; intros m N I; [cbn; lia|]. inversion N as [|? ? Nx N']; subst.
  destruct (in_split x m (I x (or_introl eq_refl))) as (m1 & m2 & ->). rewrite sum_app, !sum_cons.
  assert (incl l (m1 ++ m2)).
  { intros y Hy. pose proof (I y (or_intror Hy)) as J. apply in_app_iff in J. apply in_app_iff. destruct J as [J|[J|J]]; auto. subst y. contradiction. }
  specialize (IH _ N' H). rewrite sum_app in IH. lia.
Qed.

Lemma Forall2_nth_l : forall A C (R : A -> C -> Prop) l m, Forall2 R l m -> forall i x, nth_error l i = Some x -> exists y, nth_error m i = Some y /\ R x y.
Proof. intros A C R l m H. induction H as [|a c l m Q H IH]; intros [|i] x E; try discriminate; cbn in *; [injection E as ->; eauto|auto]. Qed.

(** ** Trees *)
Section Trees.
Context {T : Type} (O : num T) (gd : game_data T) (fd : forge_data T) (bl : blacklist) (data : list (entity T * entity_geo T)).
Context (w : node T -> nat) (own : entity T * entity_geo T -> nat).
Context (Own : forall e g v k o a ch, entity_visual O gd bl e g = Ok v -> entity_collision O gd e g = Ok k ->
  w (NActor o a ch) + list_sum (map (total w) (visual_nodes (eg_center g) v ++ collision_nodes (eg_center g) k)) <= own (e, g)).
Definition own_at (i : nat) : nat := match nth_error data i with Some d => own d | None => 0 end.

Lemma entity_total : forall fuel origin i d n, nth_error data i = Some d -> build_entity O fuel gd fd bl data origin d = Ok n ->
  exists t, root_of t = i /\ group_tree data t /\ total w n <= list_sum (map own_at (flatten t)).
Proof.
  induction fuel as [|fuel IH]; intros origin i [e g] n Hi E; [discriminate|].
  destruct (build_entity_inv O gd fd bl data _ _ _ _ _ E) as (f' & cl & v & k & ch & pr & Ef & Hc & Ev & Ek & M & Ep & ->). injection Ef as <-.
  assert (Li : i < length data) by (apply nth_error_Some; congruence).
  assert (K : exists kids, map root_of kids = members data i /\ Forall (group_tree data) kids
     /\ list_sum (map (total w) ch) <= list_sum (map own_at (flat_map flatten kids))).
  { pose proof (members_children data i e g Hi) as Me. apply mapM_ok in M. revert Me M. generalize (members data i). intros js Me. clear E.
    revert ch. induction Me as [|j d js ds Hj Me IHM]; intros ch F; inversion F as [|? y ? l' Hy F']; subst; [exists []; repeat split; constructor|].
    destruct (IHM _ F') as (kids & R & G & S). destruct (IH _ j d y Hj Hy) as (t & Rt & Gt & St).
    exists (t :: kids). cbn [map flat_map root_of]. rewrite Rt, R. split; [reflexivity|]. split; [constructor; auto|]. rewrite sum_app. cbn [list_sum fold_right]. unfold list_sum in *. lia. }
  destruct K as (kids & R & G & S). exists (Tree i kids). split; [reflexivity|]. split; [constructor; auto|].
  cbn [flatten]. rewrite sum_cons. unfold own_at at 1. rewrite Hi. cbn [total]. rewrite sum_app.
  specialize (Own e g v k (v3_add O origin (eg_center g)) (Actor cl (get_entity_type gd e) (get_component_class gd e) (get_application_type gd e) pr)
    ((visual_nodes (eg_center g) v ++ collision_nodes (eg_center g) k) ++ ch) Ev Ek). lia.
Qed.

Lemma scene_total : forall fuel layers nodes, build_scene O fuel gd fd bl data layers = Ok nodes ->
  exists ts ls, map root_of ts = roots data /\ Forall (group_tree data) ts /\ mapM (build_layer O gd) layers = Ok ls
    /\ totals w nodes <= list_sum (map own_at (flat_map flatten ts)) + totals w (filter_map (fun o => o) ls).
Proof.
  intros fuel layers nodes E. unfold build_scene in E. apply bind_ok in E. destruct E as (wd & Ew & E). apply bind_ok in E. destruct E as (ls & El & E).
  apply bind_ok in E. destruct E as (os & Eo & E). injection E as <-.
  assert (Step : forall js ds ns, Forall2 (fun j d => nth_error data j = Some d) js ds ->
    mapM (build_entity O fuel gd fd bl data (v3_zero O)) ds = Ok ns ->
    exists ts, map root_of ts = js /\ Forall (group_tree data) ts /\ totals w ns <= list_sum (map own_at (flat_map flatten ts))).
  { intros js ds ns Me F. apply mapM_ok in F. revert ns F. unfold totals.
    induction Me as [|j d js ds Hj Me IHM]; intros ns F; inversion F as [|? y ? l' Hy F']; subst; [exists []; repeat split; constructor|].
    destruct (IHM _ F') as (ts & R & G & S). destruct (entity_total fuel _ j d y Hj Hy) as (t & Rt & Gt & St).
    exists (t :: ts). cbn [map flat_map root_of]. rewrite Rt, R. split; [reflexivity|]. split; [constructor; auto|]. rewrite sum_app. cbn [list_sum fold_right]. unfold list_sum in *. lia. }
  destruct (Step (firstn 1 (seq 0 (length data))) (firstn 1 data) wd) as (t1 & R1 & G1 & S1); [|exact Ew|].
  { destruct data as [|d l]; simpl; repeat constructor. }
  destruct (Step _ _ os (ungrouped_others data) Eo) as (t2 & R2 & G2 & S2).
  exists (t1 ++ t2), ls. split; [rewrite map_app, R1, R2; reflexivity|]. split; [apply Forall_app; auto|]. split; [exact El|].
  unfold totals in *. rewrite flat_map_app, !sum_app. lia.
Qed.

Lemma own_all : list_sum (map own_at (seq 0 (length data))) = list_sum (map own data).
Proof.
  f_equal. unfold own_at. clear Own. induction data as [|d l IH]; [reflexivity|]. cbn [length seq map nth_error]. f_equal. rewrite <- seq_shift, map_map. exact IH.
Qed.

Lemma scene_bound : forall fuel layers nodes, distinct_ids data -> build_scene O fuel gd fd bl data layers = Ok nodes ->
  exists ls, mapM (build_layer O gd) layers = Ok ls /\ totals w nodes <= list_sum (map own data) + totals w (filter_map (fun o => o) ls).
Proof.
  intros fuel layers nodes D E. destruct (scene_total _ _ _ E) as (ts & ls & R & G & El & Le). exists ls. split; [exact El|].
  destruct (forest_spec data ts R G) as [N I]. eapply Nat.le_trans; [exact Le|]. apply Nat.add_le_mono_r. rewrite <- own_all. apply sum_incl; [exact (N D)|].
  intros i Hi. apply I in Hi. apply reaches_bound in Hi. apply in_seq. lia.
Qed.
End Trees.

(** ** Entities and layers *)
Section Parts.
Context {T : Type} (O : num T) (gd : game_data T) (bl : blacklist).

Lemma entity_parts : forall e g v k c, entity_visual O gd bl e g = Ok v -> entity_collision O gd e g = Ok k ->
  list_sum (map (total node_size) (visual_nodes c v ++ collision_nodes c k)) <= 2 * weight (eg_brushes g).
Proof.
  intros e g v k c Ev Ek. unfold entity_visual, entity_collision in *. rewrite sum_app. destruct (get_property e (lit "classname")) as [cl|]; [|discriminate].
  destruct (find_def gd cl) as [df|]; [|injection Ev as <-; injection Ek as <-; cbn; lia]. destruct (ed_data df) as [q|q bd]; [injection Ev as <-; injection Ek as <-; cbn; lia|].
  pose proof (visual_weight O e g bd bl v c Ev). pose proof (collision_weight O (bd_collision bd) g k c Ek). lia.
Qed.
Lemma geometry_count : forall (c : vec3 T) v k, list_sum (map (total any_node) (visual_nodes c v ++ collision_nodes c k)) <= 2.
Proof. intros c [|l] [|s|s]; cbn; lia. Qed.

Lemma layer_parts : forall t bs n, build_layer O gd (t, bs) = Ok (Some n) -> total any_node n <= 3 /\ total node_size n <= 2 * weight bs.
Proof.
  intros t bs n E. unfold build_layer in E. destruct (filter _ (gd_layers gd)) as [|l [|]]; try discriminate.
  apply bind_ok in E. destruct E as (v & Ev & E). apply bind_ok in E. destruct E as (k & Ek & E).
  pose proof (geometry_count (v3_zero O) v k) as C. pose proof (collision_weight O _ _ _ (v3_zero O) Ek) as Wk. cbn [eg_brushes] in Wk.
  assert (Wv : list_sum (map (total node_size) (visual_nodes (v3_zero O) v)) <= weight bs).
  { unfold layer_visual in Ev. destruct (wl_visual l); [injection Ev as <-; cbn; lia|]. apply bind_ok in Ev. destruct Ev as ([s|] & Es & Ev); injection Ev as <-; [|cbn; lia].
    apply surface_weight in Es. cbn [eg_brushes] in Es. cbn. rewrite !Nat.add_0_r. eapply Nat.le_trans; [exact Es|]. apply sum_le. intros b _. apply sum_filter_le. }
  assert (Wb : list_sum (map (total node_size) (visual_nodes (v3_zero O) v ++ collision_nodes (v3_zero O) k)) <= 2 * weight bs) by (rewrite sum_app; lia).
  destruct (visual_nodes (v3_zero O) v ++ collision_nodes (v3_zero O) k) as [|x ch]; [discriminate|]. injection E as <-.
  cbn [total any_node node_size]. split; [cbn in C |- *; lia|exact Wb].
Qed.

Lemma layers_total : forall (w : node T -> nat) (bound : list (brush_geo T) -> nat) layers ls,
  (forall t bs n, build_layer O gd (t, bs) = Ok (Some n) -> total w n <= bound bs) ->
  mapM (build_layer O gd) layers = Ok ls -> totals w (filter_map (fun o => o) ls) <= list_sum (map (fun x => bound (snd x)) layers).
Proof.
  intros w bound layers ls B E. apply mapM_ok in E. unfold totals. induction E as [|[t bs] o layers ls Eo F IH]; [cbn; lia|]. cbn [filter_map]. rewrite sum_cons. cbn [snd].
  destruct o as [n|]; [|lia]. rewrite sum_cons. specialize (B t bs n Eo). lia.
Qed.
End Parts.

(** ** Runs *)
Lemma ids_distinct : forall (f : doc_entity -> option str) (d : doc), NoDup (filter_map f d) ->
  forall i j e e' x, nth_error d i = Some e -> nth_error d j = Some e' -> f e = Some x -> f e' = Some x -> i = j.
Proof.
  intros f d. induction d as [|a d IH]; intros N i j e e' x Hi Hj He He'; [destruct i; discriminate|]. cbn [filter_map] in N.
  assert (Later : forall k y, nth_error d k = Some y -> f y = Some x -> In x (filter_map f d)).
  { intros k y Hk Hy. apply nth_error_In in Hk. clear - Hk Hy. induction d as [|b d IH]; [destruct Hk|]. cbn [filter_map]. destruct Hk as [->|Hk]; [rewrite Hy; now left|]. destruct (f b); [right|]; auto. }
  destruct i as [|i], j as [|j]; cbn [nth_error] in Hi, Hj; [reflexivity| | |].
  - injection Hi as ->. rewrite He in N. inversion N as [|? ? Nx _]; subst. exfalso. exact (Nx (Later j e' Hj He')).
  - injection Hj as ->. rewrite He' in N. inversion N as [|? ? Nx _]; subst. exfalso. exact (Nx (Later i e Hi He)).
  - f_equal. apply (IH (match f a as o return NoDup (match o with Some z => z :: filter_map f d | None => filter_map f d end) -> NoDup (filter_map f d) with
      | Some z => fun N => proj2 (proj1 (NoDup_cons_iff _ _) N) | None => fun N => N end N) i j e e' x); auto.
Qed.

Section Final.
Context (p : platform).
Local Notation O := (f32_num p).
Context (order : hmap (list (brush_geo f32)) -> list (str * list (brush_geo f32))) (permutes : forall m, Permutation (order m) m).
Context (fuel : nat) (c : config) (text : str) (d : doc) (nodes : list (node f32)).
Context (Ft : file_text (cf_map c) text) (Td : text_document p text d) (Er : run p order fuel c = Ok nodes) (Di : NoDup (ids d)).

Definition brush_cube (b : list str) : nat := length b * length b * length b.
Definition entity_cubes (e : doc_entity) : nat := list_sum (map brush_cube (doc_brushes e)).
Definition weighs (e : doc_entity) (x : entity f32 * entity_geo f32) : Prop :=
  (forall k, get_property (fst x) k = doc_value e k) /\ weight (eg_brushes (snd x)) <= 4 * entity_cubes e.

Lemma weighed : exists w others we wg data, Permutation d (w :: others) /\ weighs w (we, wg) /\ Forall2 weighs others data
  /\ exists rest ws ss, weight rest + weight ws + weight ss = weight (eg_brushes wg)
  /\ build_scene O fuel (cf_game c) (cf_forge c) (cf_blacklist c) ((we, EntityGeo (eg_center wg) rest) :: data) (order [(water, ws); (slime, ss)]) = Ok nodes.
Proof.
  pose proof Er as Er'. rewrite run_split in Er'. pose proof Ft as Ft'. apply read_ok in Ft'. rewrite Ft' in Er'. cbn [bind] in Er'.
  apply bind_ok in Er'. destruct Er' as ([ps es] & El & Er'). pose proof (loaded_document p text d ps es Td El) as Ag.
  apply bind_ok in Er'. destruct Er' as (gs & Eg & Er'). apply bind_ok in Er'. destruct Er' as ([data layers] & Ef & Es).
  assert (F : Forall2 weighs d (combine es gs)).
  { apply mapM_ok in Eg. clear - Ag Eg. revert gs Eg. induction Ag as [|e x d es A F IH]; intros gs Eg; inversion Eg as [|? g ? gs' Hg Eg']; subst; [constructor|].
    cbn [combine]. constructor; [|now apply IH]. split; [exact (proj1 A)|]. cbn [snd]. unfold build_entity_geo in Hg. apply bind_ok in Hg. destruct Hg as (bs & Eb & Hg). injection Hg as <-. cbn [eg_brushes].
    apply mapM_ok in Eb. unfold weight, entity_cubes. rewrite <- sum_mul. apply sum_pairs. destruct A as (_ & A). clear - A Eb. revert bs Eb.
    induction A as [|l b ls bs' H F IH]; intros bs Eb; inversion Eb as [|? g ? gs' Hg Eg']; subst; constructor; [|now apply IH].
    apply brush_size in Hg. unfold brush_cube. rewrite (Forall2_length _ _ _ _ _ H). exact Hg. }
  destruct (layer_filter_single _ _ Ef) as (we & wg & others & S). rewrite (layer_filter_ok _ _ _ _ S) in Ef. injection Ef as <- <-.
  pose proof S as (pre & post & Ec & Eo & Ww & Wn). rewrite Ec in F. apply Forall2_app_inv_r in F. destruct F as (d1 & d2 & F1 & F2 & Edd).
  inversion F2 as [|w ? d3 ? Sw F3]; subst d2. subst others. exists w, (d1 ++ d3), we, wg, (pre ++ post). split; [subst d; apply Permutation_sym, Permutation_middle|].
  split; [exact Sw|]. split; [apply Forall2_app; auto|]. do 3 eexists. split; [|exact Es]. unfold weight.
  pose proof (sum_filter _ (@brush_weight f32) (in_layer water) (eg_brushes wg)) as A.
  pose proof (sum_filter _ (@brush_weight f32) (in_layer slime) (filter (fun b => negb (in_layer water b)) (eg_brushes wg))) as B. lia.
Qed.

Lemma run_bounds : totals any_node nodes <= 3 * (length d + 2) /\ totals node_size nodes <= 8 * cubed d.
Proof.
  destruct weighed as (w & others & we & wg & data & Pd & Sw & Sd & rest & ws & ss & Ew & Es).
  assert (D : distinct_ids ((we, EntityGeo (eg_center wg) rest) :: data)).
  { assert (N : NoDup (filter_map (fun e => doc_value e (lit "_tb_id")) (w :: others))) by (eapply Permutation_NoDup; [apply filter_map_perm; exact Pd|exact Di]).
    assert (F : Forall2 (fun (x : entity f32 * entity_geo f32) e => forall k, get_property (fst x) k = doc_value e k) ((we, EntityGeo (eg_center wg) rest) :: data) (w :: others)).
    { constructor; [exact (proj1 Sw)|]. apply Forall2_turned. eapply Forall2_impl; [|exact Sd]. intros a b H. exact (proj1 H). }
    intros i j x Hi Hj. unfold id_of, prop_of in Hi, Hj.
    destruct (nth_error ((we, EntityGeo (eg_center wg) rest) :: data) i) as [[e g]|] eqn:Ni; [|discriminate].
    destruct (nth_error ((we, EntityGeo (eg_center wg) rest) :: data) j) as [[e' g']|] eqn:Nj; [|discriminate].
    destruct (Forall2_nth_l _ _ _ _ _ F _ _ Ni) as (u & Nu & Ku). destruct (Forall2_nth_l _ _ _ _ _ F _ _ Nj) as (u' & Nu' & Ku').
    eapply (ids_distinct _ _ N i j u u' x Nu Nu'); [rewrite <- Ku; exact Hi|rewrite <- Ku'; exact Hj]. }
  pose proof (permutes [(water, ws); (slime, ss)]) as Po. split.
  - destruct (scene_bound O (cf_game c) (cf_forge c) (cf_blacklist c) ((we, EntityGeo (eg_center wg) rest) :: data) any_node (fun _ => 3)) with (fuel := fuel) (layers := order [(water, ws); (slime, ss)]) (nodes := nodes) as (ls & El & Le); auto.
    { intros e g v k o a ch _ _. pose proof (geometry_count (eg_center g) v k). change (any_node (NActor o a ch)) with 1. lia. }
    pose proof (layers_total O (cf_game c) any_node (fun _ => 3) _ _ (fun t bs n E => proj1 (layer_parts O _ t bs n E)) El) as Ll.
    rewrite (sum_perm _ _ _ _ Po) in Ll. cbn in Ll. rewrite sum_const in Le. cbn [length] in Le.
    pose proof (Permutation_length Pd) as L. cbn [length] in L. rewrite (Forall2_length _ _ _ _ _ Sd) in L. lia.
  - destruct (scene_bound O (cf_game c) (cf_forge c) (cf_blacklist c) ((we, EntityGeo (eg_center wg) rest) :: data) node_size (fun x => 2 * weight (eg_brushes (snd x)))) with (fuel := fuel) (layers := order [(water, ws); (slime, ss)]) (nodes := nodes) as (ls & El & Le); auto.
    { intros e g v k o a ch Ev Ek. cbn [node_size snd]. exact (entity_parts O _ _ e g v k _ Ev Ek). }
    pose proof (layers_total O (cf_game c) node_size (fun bs => 2 * weight bs) _ _ (fun t bs n E => proj2 (layer_parts O _ t bs n E)) El) as Ll.
    rewrite (sum_perm _ _ _ _ Po) in Ll. rewrite !sum_cons in Ll. cbn [snd map list_sum fold_right] in Ll. rewrite sum_cons in Le. cbn [snd eg_brushes] in Le.
    change (cubed d) with (list_sum (map entity_cubes d)). rewrite (sum_perm _ _ _ _ Pd), sum_cons.
    destruct Sw as (_ & Sw). cbn [snd] in Sw.
    assert (Q : list_sum (map (fun x : entity f32 * entity_geo f32 => 2 * weight (eg_brushes (snd x))) data) <= list_sum (map (fun e => 8 * entity_cubes e) others)).
    { apply sum_pairs, Forall2_turned. eapply Forall2_impl; [|exact Sd]. intros e x (_ & H). lia. }
    rewrite !sum_mul in Q. rewrite sum_mul in Le. lia.
Qed.
End Final.
