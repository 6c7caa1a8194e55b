(** A small scene, used as witness for C25 to C29 and C38 to C40. *)
From Coq Require Import SpecFloat Permutation.
From Verif Require Import Prelude F32 Text MapModel GeoModel LayerModel GameDataModel SceneModel
  GatherSpec SurfaceSpec TreeSpec BaseProofs GatherProofs SurfaceProofs SurfaceWitness TreeProofs NodeProofs.

Lemma shows_names : forall data t parent n, shows data parent t n ->
  map Some (actor_names n) = map (fun i => prop_of data i (lit "classname")) (flatten t).
Proof.
  intros data t. induction t as [i kids IH] using tree_ind'. intros parent n H. inv H.
  cbn [actor_names flatten map]. f_equal; [congruence|]. rewrite flat_map_app, map_app.
  assert (G : forall l : list (node f32), Forall geometry_node l -> flat_map actor_names l = []).
  { intros l F. induction F as [|x l Hx F IHF]; simpl; [reflexivity|]. rewrite IHF. destruct x; [contradiction|reflexivity..]. }
  rewrite G by assumption. cbn [map app].
  match goal with F : Forall2 _ kids _ |- _ => revert F end. clear - IH. intros F.
  induction F as [|k n kids ns Hk F IHF]; [reflexivity|]. inv IH. cbn [flat_map]. rewrite !map_app. f_equal; eauto.
Qed.

Lemma shows_positioned : forall data t parent n, shows data parent t n -> positioned data parent t n.
Proof.
  intros data t. induction t as [i kids IH] using tree_ind'. intros parent n H. inv H. constructor; auto.
  match goal with F : Forall2 _ kids _ |- _ => revert F end. clear - IH. intros F.
  induction F as [|k n kids ns Hk F IHF]; constructor; inv IH; auto.
Qed.

Section F.
Context (p : platform).
Let O := f32_num p.

Theorem scene_forest : forall fuel gd fd bl data layers nodes, distinct_ids data ->
  build_scene O fuel gd fd bl data layers = Ok nodes ->
  exists ts world between others, nodes = world ++ between ++ others
    /\ map root_of ts = roots data /\ Forall (group_tree data) ts
    /\ Forall2 (shows data None) ts (world ++ others)
    /\ NoDup (flat_map flatten ts)
    /\ (forall i, In i (flat_map flatten ts) <-> reaches data i)
    /\ map Some (flat_map actor_names (world ++ others))
       = map (fun i => prop_of data i (lit "classname")) (flat_map flatten ts).
Proof.
  intros fuel gd fd bl data layers nodes D E.
  destruct (build_scene_shows p gd fd bl data fuel layers nodes E) as (ts & ls & w & os & R & G & _ & -> & _ & S).
  destruct (forest_spec data ts R G) as [N I].
  exists ts, w, (filter_map (fun o => o) ls), os. repeat (split; [solve [auto]|]).
  clear - S. induction S as [|t n ts ns H S IH]; [reflexivity|]. cbn [flat_map]. rewrite !map_app, IH. f_equal. eapply shows_names; eauto.
Qed.

Theorem scene_complete : forall fuel gd fd bl data layers nodes, distinct_ids data ->
  (forall i, i < length data -> reaches data i) ->
  build_scene O fuel gd fd bl data layers = Ok nodes ->
  exists ts world between others, nodes = world ++ between ++ others
    /\ Forall2 (shows data None) ts (world ++ others)
    /\ Permutation (flat_map flatten ts) (seq 0 (length data))
    /\ Permutation (map Some (flat_map actor_names (world ++ others)))
         (map (fun d => hget (e_props (fst d)) (lit "classname")) data).
Proof.
  intros fuel gd fd bl data layers nodes D A E.
  destruct (scene_forest fuel gd fd bl data layers nodes D E) as (ts & w & b & os & N & R & G & S & _ & _ & Nm).
  pose proof (forest_complete data ts R G D A) as P.
  exists ts, w, b, os. repeat (split; [assumption|]). rewrite Nm.
  eapply Permutation_trans; [apply Permutation_map; exact P|].
  assert (X : forall (l pre : list (entity f32 * entity_geo f32)), map (fun i => prop_of (pre ++ l) i (lit "classname")) (seq (length pre) (length l))
     = map (fun d => hget (e_props (fst d)) (lit "classname")) l).
  { induction l as [|[e g] l IH]; intros pre; [reflexivity|]. cbn [length seq map]. f_equal.
    - unfold prop_of. rewrite nth_error_app2, Nat.sub_diag by lia. reflexivity.
    - specialize (IH (pre ++ [(e, g)])). rewrite <- app_assoc in IH. rewrite app_length in IH. simpl in IH.
      rewrite Nat.add_1_r in IH. exact IH. }
  pose proof (X data []) as X0. simpl in X0. rewrite X0. apply Permutation_refl.
Qed.

Theorem scene_top : forall fuel gd fd bl data layers nodes,
  build_scene O fuel gd fd bl data layers = Ok nodes ->
  exists ts ls world others, nodes = world ++ filter_map (fun o => o) ls ++ others
    /\ Forall2 (fun l o => build_layer O gd l = Ok o) layers ls
    /\ Forall2 (shows data None) ts (world ++ others) /\ map root_of ts = roots data
    /\ length world = Nat.min 1 (length data).
Proof.
  intros fuel gd fd bl data layers nodes E.
  destruct (build_scene_shows p gd fd bl data fuel layers nodes E) as (ts & ls & w & os & R & G & L & -> & W & S).
  exists ts, ls, w, os. repeat split; auto; [now apply mapM_ok|]. rewrite W. apply firstn_length.
Qed.

Theorem scene_positions : forall fuel gd fd bl data layers nodes,
  build_scene O fuel gd fd bl data layers = Ok nodes ->
  exists ts world between others, nodes = world ++ between ++ others
    /\ map root_of ts = roots data /\ Forall (group_tree data) ts
    /\ Forall2 (positioned data None) ts (world ++ others).
Proof.
  intros fuel gd fd bl data layers nodes E.
  destruct (build_scene_shows p gd fd bl data fuel layers nodes E) as (ts & ls & w & os & R & G & L & -> & W & S).
  exists ts, w, (filter_map (fun o => o) ls), os. repeat split; auto.
  eapply Forall2_impl; [|exact S]. intros a b. apply shows_positioned.
Qed.
End F.

(** ** Witnesses *)
Definition at_x (x : N) (props : list (str * str)) : entity f32 * entity_geo f32 :=
  (Entity props [], EntityGeo (V3 (f32_of_N x) f32_zero f32_zero) []).
Definition yard : list (entity f32 * entity_geo f32) :=
  [ at_x 1 [(lit "classname", lit "worldspawn")];
    at_x 2 [(lit "classname", lit "handle"); (lit "_tb_group", lit "7")];
    at_x 10 [(lit "classname", lit "door"); (lit "_tb_id", lit "7")];
    at_x 5 [(lit "classname", lit "lamp")];
    at_x 4 [(lit "classname", lit "hinge"); (lit "_tb_group", lit "7")] ].
(** The key's group is missing. *)
Definition yard_lost : list (entity f32 * entity_geo f32) :=
  yard ++ [at_x 4 [(lit "classname", lit "key"); (lit "_tb_group", lit "8")]].


Definition door_def : entity_def f32 :=
  EntityDef (lit "door") (DPoint (PointData (EClass (lit "Door3D")) (CompScript (lit "Door.gd")) AMetadata [])).
Definition wall_def : entity_def f32 :=
  EntityDef (lit "worldspawn") (DBrush (PointData (EClass (lit "Static")) CompNone ADictionary []) (BrushData VMesh CConvex)).
Definition shadowed_def : entity_def f32 :=
  EntityDef (lit "door") (DPoint (PointData EPlaceholder CompNone AProperties [])).
Definition yard_gd : game_data f32 := GameData [wall_def; door_def; shadowed_def]
  [ WorldspawnLayer (lit "Water") (lit "*water") (EClass (lit "Area")) (CompScript (lit "Swim.gd")) VMesh CConvex;
    WorldspawnLayer (lit "Slime") (lit "*slime") (EClass (lit "Area")) CompNone VNone CConvex;
    WorldspawnLayer (lit "Lava") (lit "*lava") (EClass (lit "Area")) CompNone VMesh CNone ].
Definition no_fd : forge_data f32 := ForgeData [] [] [].
Definition yard_layers : list (str * list (brush_geo f32)) := [(lit "*slime", []); (lit "*lava", []); (lit "*water", [])].

Lemma yard_distinct : distinct_ids yard.
Proof.
  intros i j x. unfold id_of, prop_of, yard.
  do 5 (destruct i as [|i]; [do 5 (destruct j as [|j]; [cbn; congruence|]); cbn; destruct j; discriminate|]).
  cbn. destruct i; discriminate.
Qed.
Lemma yard_lost_distinct : distinct_ids yard_lost.
Proof.
  intros i j x. unfold id_of, prop_of, yard_lost, yard.
  do 6 (destruct i as [|i]; [do 6 (destruct j as [|j]; [cbn; congruence|]); cbn; destruct j; discriminate|]).
  cbn. destruct i; discriminate.
Qed.
Lemma yard_roots : roots yard = [0; 2; 3].
Proof. reflexivity. Qed.
Lemma yard_reaches : forall i, i < length yard -> reaches yard i.
Proof.
  assert (R : forall i, In i [0; 2; 3] -> reaches yard i) by (intros i H; apply ReachRoot; now rewrite yard_roots).
  assert (M : forall i, in_group yard 2 i -> reaches yard i) by (intros i; apply ReachGroup, R; simpl; auto).
  intros i H. simpl in H. assert (C : In i [0; 2; 3] \/ i = 1 \/ i = 4) by (simpl; lia).
  destruct C as [C|[-> | ->]]; [now apply R| |]; apply M; (split; [simpl; lia|]); exists (lit "7"); split; reflexivity.
Qed.

(** Only the wanted part of a large result is written out. *)
Lemma shown : forall A B (f : A -> B) (r : res A) v, match r with Ok x => f x = v | _ => False end -> exists x, r = Ok x /\ f x = v.
Proof. intros A B f [x| | |] v H; try contradiction. eauto. Qed.

Lemma lost_entity : forall p : platform, exists gd fd bl data layers e g c nodes, distinct_ids data
  /\ In (e, g) data /\ hget (e_props e) (lit "classname") = Some c
  /\ build_scene (f32_num p) (length data) gd fd bl data layers = Ok nodes
  /\ ~ In c (flat_map actor_names nodes).
Proof.
  intros p. exists yard_gd, no_fd, (Blacklist [] []), yard_lost, [].
  exists (fst (at_x 4 [(lit "classname", lit "key"); (lit "_tb_group", lit "8")])),
         (snd (at_x 4 [(lit "classname", lit "key"); (lit "_tb_group", lit "8")])), (lit "key").
  destruct (shown _ _ (flat_map actor_names) (build_scene (f32_num p) (length yard_lost) yard_gd no_fd (Blacklist [] []) yard_lost [])
    [lit "worldspawn"; lit "door"; lit "handle"; lit "hinge"; lit "lamp"]) as (nodes & E & N); [vm_compute; reflexivity|].
  exists nodes. split; [exact yard_lost_distinct|]. split; [simpl; tauto|]. split; [reflexivity|]. split; [exact E|]. rewrite N.
  vm_compute. intuition discriminate.
Qed.
