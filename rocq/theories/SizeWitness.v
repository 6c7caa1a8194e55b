(** A small map with a large tree (C126). *)
From Coq Require Import Permutation Lia.
From Verif Require Import Prelude F32 Text MapModel GeoModel LayerModel GameDataModel SceneModel RunModel
  GatherSpec GeoSpec LayerSpec DiffSpec TreeSpec MapSpec Utf8Spec RunSpec ActorSpec ValidSpec SizeSpec
  BaseProofs TextProofs RunProofs PrintProofs ActorProofs ValidProofs SizeProofs RunWitness SceneWitness GeoWitness ActorWitness ValidWitness.

Definition mark (k : nat) : str := repeat 49%N k.
Definition base : list map_item := [MProp (lit "classname") (lit "worldspawn"); MProp (lit "_tb_id") (mark 1)].
Definition storey (k : nat) : list map_item :=
  [MProp (lit "classname") (lit "info_notnull"); MProp (lit "_tb_id") (mark (S k)); MProp (lit "_tb_group") (mark k)].
(** A group of two in a group of two in a group of two and so on: the groups of one level share an id. *)
Definition tower (n : nat) : map_source := base :: flat_map (fun k => [storey k; storey k]) (seq 1 n).

Lemma mark_inj : forall j k, mark j = mark k -> j = k.
Proof. intros j k H. apply (f_equal (@length _)) in H. unfold mark in H. now rewrite !repeat_length in H. Qed.
Lemma mark_plain : forall k, plain (mark k).
Proof.
  intros k. assert (E : forall x, In x (mark k) -> x = 49%N) by (intros x; apply repeat_spec). split; [|split].
  - apply Forall_forall. intros x Hx. apply E in Hx. subst x. unfold scalar. lia.
  - intros H. apply E in H. discriminate.
  - intros H. apply E in H. discriminate.
Qed.

Section Tower.
Context (p : platform) (n : nat).

Lemma tower_printable : printable p (tower n).
Proof.
  intros e i He Hi. destruct He as [<-|He].
  - destruct Hi as [<-|[<-|[]]]; split; try apply mark_plain; plainly.
  - apply in_flat_map in He. destruct He as (k & _ & He). assert (e = storey k) by (destruct He as [<-|[<-|[]]]; reflexivity). subst e.
    destruct Hi as [<-|[<-|[<-|[]]]]; split; try apply mark_plain; plainly.
Qed.

Local Notation doc_of := (map (item_doc p)).
Definition floors : doc := flat_map (fun k => [doc_of (storey k); doc_of (storey k)]) (seq 1 n).
Lemma tower_doc : source_doc p (tower n) = doc_of base :: floors.
Proof.
  unfold source_doc, tower, floors. cbn [map]. f_equal. induction (seq 1 n) as [|k l IH]; [reflexivity|]. cbn [flat_map]. rewrite map_app, IH. reflexivity.
Qed.
Lemma floor_in : forall e, In e floors <-> exists k, 1 <= k <= n /\ e = doc_of (storey k).
Proof.
  intros e. unfold floors. rewrite in_flat_map. split.
  - intros (k & Hk & He). apply in_seq in Hk. exists k. split; [lia|]. destruct He as [<-|[<-|[]]]; reflexivity.
  - intros (k & Hk & ->). exists k. split; [apply in_seq; lia|now left].
Qed.
Lemma floor_values : forall k, let e := doc_of (storey k) in doc_class e = Some (lit "info_notnull") /\ doc_value e (lit "_tb_id") = Some (mark (S k))
  /\ doc_value e (lit "_tb_group") = Some (mark k) /\ doc_brushes e = [].
Proof. intros k. repeat split; reflexivity. Qed.
Lemma base_values : doc_class (doc_of base) = Some (lit "worldspawn") /\ doc_value (doc_of base) (lit "_tb_id") = Some (mark 1) /\ doc_brushes (doc_of base) = [].
Proof. repeat split; reflexivity. Qed.

Definition at_level (k : nat) (e : doc_entity) : Prop := doc_value e (lit "_tb_id") = Some (mark (S k)).
Lemma member_next : forall k e e', at_level k e -> In e' floors -> (member e e' <-> e' = doc_of (storey (S k))).
Proof.
  intros k e e' A I. apply floor_in in I. destruct I as (j & Hj & ->). destruct (floor_values j) as (_ & _ & G & _). unfold member. rewrite G. unfold at_level in A. rewrite A. split.
  - intros (g & H1 & H2). assert (E : mark j = mark (S k)) by congruence. apply mark_inj in E. now subst j.
  - intros H. assert (E : mark j = mark (S k)). { destruct (floor_values (S k)) as (_ & _ & G' & _). rewrite <- H in G'. rewrite G in G'. congruence. } rewrite E. eauto.
Qed.
Lemma storey_level : forall k, at_level k (doc_of (storey k)).
Proof. intros k. apply floor_values. Qed.

Lemma below_up : forall e e', below floors e e' -> forall k, at_level k e -> exists j, k < j /\ at_level j e'.
Proof.
  intros e e' B. induction B as [e e' I M|e e' e'' I M B IH]; intros k A; apply (member_next k e e' A I) in M; subst.
  - exists (S k). split; [lia|apply storey_level].
  - destruct (IH (S k) (storey_level _)) as (j & Hj & Aj). exists j. split; [lia|exact Aj].
Qed.
Lemma level_unique : forall j k e, at_level j e -> at_level k e -> j = k.
Proof. intros j k e A B. unfold at_level in *. assert (E : mark (S j) = mark (S k)) by congruence. apply mark_inj in E. lia. Qed.
Lemma placed_level : forall e, placed floors (doc_of base) e -> exists k, at_level k e /\ doc_class e <> None.
Proof.
  assert (F : forall e, In e floors -> exists k, at_level k e /\ doc_class e <> None).
  { intros e I. apply floor_in in I. destruct I as (k & _ & ->). exists k. split; [apply storey_level|]. discriminate. }
  intros e P. destruct P as [|e I _|e e' _ I _]; [|auto|auto]. exists 0. split; [apply base_values|discriminate].
Qed.
Lemma tower_world : doc_world (source_doc p (tower n)) floors (doc_of base).
Proof.
  rewrite tower_doc. exists [], floors. split; [reflexivity|]. split; [reflexivity|]. split; [apply base_values|].
  intros e I. apply floor_in in I. destruct I as (k & _ & ->). discriminate.
Qed.

Lemma tower_buildable : forall fd, fd_definitions fd = [] -> buildable p fd (source_doc p (tower n)).
Proof.
  intros fd N. split.
  - intros e l He Hl. rewrite tower_doc in He. exfalso. unfold doc_planes in Hl. destruct He as [<-|He].
    + destruct base_values as (_ & _ & B). rewrite B in Hl. destruct Hl.
    + apply floor_in in He. destruct He as (k & _ & ->). destruct (floor_values k) as (_ & _ & _ & B). rewrite B in Hl. destruct Hl.
  - exists (doc_of base), floors. split; [exact tower_world|]. split.
    + intros e P. destruct (placed_level e P) as (k & _ & C). split; [exact C|]. intros fe k' s (c & _ & l1 & l2 & E & _). rewrite N in E. destruct l1; discriminate.
    + intros e P B. destruct (placed_level e P) as (k & A & _). destruct (below_up e e B k A) as (j & Hj & Aj). pose proof (level_unique _ _ _ A Aj). lia.
Qed.

Lemma selected_some : forall A (P : A -> Prop) l r, selected P l r -> forall x l1 l2, l = l1 ++ x :: x :: l2 -> P x -> 2 <= length r.
Proof.
  intros A P l r H. induction H as [|y l r Py H IH|y l r Ny H IH]; intros x l1 l2 E Px; [destruct l1; discriminate| |].
  - destruct l1 as [|z l1]; cbn [app] in E; injection E as -> ->.
    + inversion H; subst; [cbn; lia|contradiction].
    + specialize (IH _ _ _ eq_refl Px). cbn. lia.
  - destruct l1 as [|z l1]; cbn [app] in E; injection E as -> ->; [contradiction|]. exact (IH _ _ _ eq_refl Px).
Qed.
Lemma selected_all : forall A (P : A -> Prop) l r, selected P l r -> forall x, In x r -> In x l /\ P x.
Proof.
  intros A P l r H. induction H as [|y l r Py H IH|y l r Ny H IH]; intros x I; [destruct I| |].
  - destruct I as [<-|I]; [split; [now left|exact Py]|]. destruct (IH x I). split; [now right|assumption].
  - destruct (IH x I). split; [now right|assumption].
Qed.
Lemma floors_pair : forall k, 1 <= k <= n -> exists l1 l2, floors = l1 ++ doc_of (storey k) :: doc_of (storey k) :: l2.
Proof.
  intros k Hk. assert (I : In k (seq 1 n)) by (apply in_seq; lia). apply in_split in I. destruct I as (s1 & s2 & E). unfold floors. rewrite E, flat_map_app. cbn [flat_map app]. eauto.
Qed.

Lemma tower_tree : forall gd fd tx m k up e nd, k + m = n -> at_level k e -> entity_tree p gd fd tx floors up e nd -> 2 ^ m <= total actor_node nd.
Proof.
  intros gd fd tx m. induction m as [|m IH]; intros k up e nd Hk A Tr; inversion Tr as [? ? c o a v kk geometry es actors _ _ _ _ _ Se Ac]; subst; cbn [total actor_node].
  - cbn. lia.
  - rewrite sum_app. assert (L : 2 <= length es).
    { destruct (floors_pair (S k)) as (l1 & l2 & E); [lia|]. apply (selected_some _ _ _ _ Se _ l1 l2 E). apply (member_next k); auto. apply floor_in. exists (S k). split; [lia|reflexivity]. }
    assert (Each : forall nd', In nd' actors -> 2 ^ m <= total actor_node nd').
    { intros nd' I. destruct (Forall2_in_r _ _ _ _ _ _ Ac I) as (e' & I' & T'). destruct (selected_all _ _ _ _ Se e' I') as (J & M). apply (member_next k e e' A J) in M. subst e'.
      refine (IH (S k) _ _ nd' _ (storey_level _) T'). lia. }
    pose proof (Forall2_length _ _ _ _ _ Ac) as La. destruct actors as [|x [|y l]]; cbn [length] in La; try lia.
    pose proof (Each x (or_introl eq_refl)). pose proof (Each y (or_intror (or_introl eq_refl))). cbn [map list_sum fold_right]. rewrite Nat.pow_succ_r'. lia.
Qed.
End Tower.

Theorem tower_large : forall p order, (forall m, Permutation (order m) m) -> forall gd tx bl n,
  exists c text d fuel nodes, cf_game c = gd /\ cf_textures c = tx /\ cf_blacklist c = bl /\ file_text (cf_map c) text /\ text_document p text d
    /\ length d = 2 * n + 1 /\ cubed d = 0 /\ run p order fuel c = Ok nodes /\ 2 ^ n <= totals actor_node nodes.
Proof.
  intros p order Ho gd tx bl n. set (c := Config (Contents (map_bytes p (tower n))) tx bl no_fd gd).
  assert (Ft : file_text (cf_map c) (map_text p (tower n))) by (eexists; split; [reflexivity|apply printed_encodes, tower_printable]).
  assert (Td : text_document p (map_text p (tower n)) (source_doc p (tower n))) by apply printed_document, tower_printable.
  assert (B : exists nodes k, forall fuel, k <= fuel -> run p order fuel c = Ok nodes).
  { apply (run_buildable p order Ho c). exists (map_text p (tower n)), (source_doc p (tower n)). split; [exact Ft|]. split; [|apply tower_buildable; reflexivity].
    destruct Td as (ls & ts & A & B & C). exists ls, ts, 0. split; [exact A|]. split; [exact B|]. cbn [repeat]. now rewrite app_nil_r. }
  destruct B as (nodes & k & B). specialize (B k (le_n k)). exists c, (map_text p (tower n)), (source_doc p (tower n)), k, nodes.
  do 3 (split; [reflexivity|]). split; [exact Ft|]. split; [exact Td|]. split.
  { unfold source_doc. rewrite map_length. unfold tower. cbn [length]. rewrite flat_length. cbn [length]. rewrite sum_const, seq_length. lia. }
  split.
  { rewrite tower_doc. unfold cubed. rewrite sum_cons. destruct (base_values p) as (_ & _ & ->). cbn [map list_sum fold_right].
    rewrite (map_ext_in _ (fun _ => 0)); [now rewrite sum_const|]. intros e I. apply floor_in in I. destruct I as (j & _ & ->). reflexivity. }
  split; [exact B|]. destruct (run_tree p order Ho k c _ _ nodes Ft Td B) as (w & others & world & layers & tops & rest & Dw & -> & Tw & _).
  destruct (world_unique _ _ _ _ _ Dw (tower_world p n)) as (-> & ->). unfold totals. rewrite sum_cons.
  pose proof (tower_tree p n _ _ _ n 0 _ _ _ eq_refl (proj1 (proj2 (base_values p))) Tw). lia.
Qed.

(** A plane whose three points coincide has no normal: every pair of such planes meets. *)
Definition speck : brush_plane f32 := wall_at (fv 0 0 0) (fv 0 0 0) (fv 0 0 0) (UVValve (fv 1 0 0) (fz 0) (fv 0 1 0) (fz 0)).
Definition specks : brush f32 := repeat speck 5.
Theorem specks_built : exists g f, build_brush (f32_num (polar true)) [] (Entity [] []) specks = Ok g /\ In f (bg_faces g) /\ length specks = 5
  /\ length (f_vertices f) = 25 /\ length (f_indices f) = 69.
Proof.
  assert (C : match build_brush (f32_num (polar true)) [] (Entity [] []) specks with
    | Ok g => match bg_faces g with f :: _ => length (f_vertices f) = 25 /\ length (f_indices f) = 69 | _ => False end | _ => False end) by (vm_compute; split; reflexivity).
  destruct (build_brush (f32_num (polar true)) [] (Entity [] []) specks) as [g| | |]; try contradiction. destruct (bg_faces g) as [|f l] eqn:E; [contradiction|].
  exists g, f. rewrite E. split; [reflexivity|]. split; [now left|]. split; [reflexivity|exact C].
Qed.

Theorem porch_sized : let d := source_doc (polar true) porch in exists text nodes, file_text (cf_map porch_config) text /\ text_document (polar true) text d
  /\ run (polar true) given 4 porch_config = Ok nodes /\ NoDup (ids d) /\ ids d = [lit "7"] /\ length d = 3 /\ cubed d = 216
  /\ totals any_node nodes = 5 /\ totals node_size nodes = 68.
Proof.
  cbv zeta. exists (map_text (polar true) porch).
  assert (C : match run (polar true) given 4 porch_config with Ok n => totals any_node n = 5 /\ totals node_size n = 68 | _ => False end) by (vm_compute; split; reflexivity).
  destruct (run (polar true) given 4 porch_config) as [nodes| | |] eqn:E; try contradiction. exists nodes.
  split; [eexists; split; [reflexivity|apply printed_encodes, porch_printable]|]. split; [apply printed_document, porch_printable|]. split; [reflexivity|].
  assert (I : ids (source_doc (polar true) porch) = [lit "7"]) by (vm_compute; reflexivity). rewrite I.
  split; [repeat constructor; auto|]. split; [reflexivity|]. split; [reflexivity|]. split; [vm_compute; reflexivity|exact C].
Qed.
