(** Two map files joined into one: lemmas for C147. *)
From Coq Require Import Permutation.
From Verif Require Import Prelude F32 Text MapModel GeoModel LayerModel GameDataModel SceneModel RunModel
  GatherSpec TextSpec LayerSpec TreeSpec PropertySpec MapSpec Utf8Spec RunSpec InvarianceSpec ActorSpec PointsSpec GrowSpec JoinSpec
  BaseProofs TextProofs TokenProofs MapProofs GeoProofs LayerProofs NodeProofs RunProofs InvarianceProofs PointsProofs PropertyProofs ShuffleProofs ReworkProofs GrowProofs.

Lemma render_app : forall l m r, render (l ++ m) r = render l (render m r).
Proof. intros l m r. unfold render. now rewrite flat_map_app, app_assoc. Qed.
Lemma lines_joined : forall b t1 t2 l1 l2, ~ ends_with_cr t1 -> lines_spec b t1 l1 -> lines_spec b t2 l2 ->
  exists blank, (blank = [] \/ blank = [[]]) /\ lines_spec b (t1 ++ 10%N :: t2) (l1 ++ blank ++ l2).
Proof.
  intros b t1 t2 l1 l2 Cr [ls1 r1 k1 W1 O1 K1 E1] [ls2 r2 k2 W2 O2 K2 E2].
  assert (Er : ~ ends_with_cr r1).
  { intros (x & X). apply Cr. exists (flat_map (fun le => fst le ++ ending_text (snd le)) ls1 ++ x). rewrite E1. unfold render. now rewrite X, app_assoc. }
  assert (G : t1 ++ 10%N :: t2 = render (ls1 ++ (r1, LF) :: ls2) r2).
  { rewrite render_app, E1, E2. unfold render. cbn [flat_map fst snd ending_text]. now rewrite <- !app_assoc. }
  assert (W : Forall wf_line (ls1 ++ (r1, LF) :: ls2)) by (apply Forall_app; split; [exact W1|]; constructor; [split; [exact O1|intros _; exact Er]|exact W2]).
  pose proof (LinesSpec b (t1 ++ 10%N :: t2) _ r2 k2 W O2 K2 G) as H. rewrite map_app in H. cbn [map fst] in H.
  destruct K1 as [|r N _|r _|r _].
  - exists [[]]. split; [now right|]. rewrite app_nil_r. now rewrite <- !app_assoc in H.
  - exists []. split; [now left|]. rewrite <- !app_assoc in *. exact H.
  - exfalso. apply Er. now exists r.
  - exfalso. apply Er. now exists r.
Qed.
Lemma document_joined : forall p t1 t2 d1 d2, ~ ends_with_cr t1 -> text_document p t1 d1 -> text_document p t2 d2 -> text_document p (t1 ++ 10%N :: t2) (d1 ++ d2).
Proof.
  intros p t1 t2 d1 d2 Cr (l1 & k1 & L1 & K1 & S1) (l2 & k2 & L2 & K2 & S2). destruct (lines_joined _ t1 t2 l1 l2 Cr L1 L2) as (bl & B & L). 
  assert (D : significant k1 ++ significant k2 = doc_tokens (d1 ++ d2)) by (rewrite S1, S2; unfold doc_tokens; now rewrite flat_map_app). destruct B as [->| ->].
  - exists (l1 ++ [] ++ l2), (k1 ++ k2). split; [exact L|]. split; [now apply Forall2_app|]. rewrite <- D. apply filter_app.
  - exists (l1 ++ [[]] ++ l2), (k1 ++ [TUnrecognized []] ++ k2). split; [exact L|]. split; [|rewrite <- D; unfold significant; now rewrite !filter_app].
    apply Forall2_app; [exact K1|]. apply Forall2_app; [|exact K2]. constructor; [|constructor]. apply SpecOther. intros c _ (t & X). discriminate.
Qed.
Lemma file_joined : forall f f1 f2 t1 t2, joined f f1 f2 -> file_text f1 t1 -> file_text f2 t2 -> file_text f (t1 ++ 10%N :: t2).
Proof.
  intros f f1 f2 t1 t2 (b1 & b2 & -> & -> & ->) (x1 & X1 & S1 & E1) (x2 & X2 & S2 & E2). injection X1 as <-. injection X2 as <-. eexists. split; [reflexivity|]. split.
  - apply Forall_app. split; [exact S1|]. constructor; [|exact S2]. split; [reflexivity|]. intros (A & _). now apply A.
  - rewrite flat_map_app. cbn [flat_map]. now rewrite E1, E2.
Qed.
Theorem joined_document : forall p f f1 f2 t1 t2 d1 d2, joined f f1 f2 -> file_text f1 t1 -> file_text f2 t2 -> ~ ends_with_cr t1 -> text_document p t1 d1 -> text_document p t2 d2 ->
  exists t, file_text f t /\ text_document p t (d1 ++ d2).
Proof. intros p f f1 f2 t1 t2 d1 d2 J F1 F2 Cr T1 T2. exists (t1 ++ 10%N :: t2). split; [now apply (file_joined f f1 f2)|now apply document_joined]. Qed.

Lemma alike_refl : forall e, doc_alike e e.
Proof. intros e. split; reflexivity. Qed.
Lemma merged_front : forall A B (R : A -> B -> Prop) N l m new, Forall N new -> merged R N l m -> merged R N l (new ++ m).
Proof. intros A B R N l m new F H. induction F; [exact H|]. now constructor. Qed.
Lemma extended_joined : forall d1 d2, ~ has_world d2 -> extended (fun e => In e d2) d1 (d1 ++ d2) /\ extended (fun e => In e d2) d1 (d2 ++ d1).
Proof.
  intros d1 d2 N. assert (F : Forall (fun e => In e d2 /\ doc_value e (lit "classname") <> Some (lit "worldspawn")) d2).
  { apply Forall_forall. intros e I. split; [exact I|]. intros E. apply N. exists e. now split. }
  assert (Id : forall d : doc, merged doc_alike (fun e => In e d2 /\ doc_value e (lit "classname") <> Some (lit "worldspawn")) d d) by (induction d; constructor; auto using alike_refl).
  split; [|apply merged_front; [exact F|apply Id]]. unfold extended. induction d1 as [|x d1 IH]; [|constructor; [apply alike_refl|exact IH]].
  pose proof (merged_front _ _ doc_alike _ [] [] d2 F (MergedNil _ _)) as H. now rewrite app_nil_r in H.
Qed.

Theorem run_joined : forall p order, (forall m, Permutation (order m) m) -> forall fuel c c' extra text text2 d d2 nodes', same_but_map c c' ->
  joined (cf_map c') (cf_map c) extra /\ ~ ends_with_cr text \/ joined (cf_map c') extra (cf_map c) /\ ~ ends_with_cr text2 ->
  file_text (cf_map c) text -> file_text extra text2 -> text_document p text d -> text_document p text2 d2 -> ~ has_world d2 -> run p order fuel c' = Ok nodes' ->
  exists world layers rest world' rest', nodes' = world' :: layers ++ rest' /\ run p order fuel c = Ok (world :: layers ++ rest)
    /\ grown (fun e => In e d2) world world'
    /\ merged (grown (fun e => In e d2)) (fun n => exists e, In e d2 /\ doc_value e (lit "_tb_group") = None /\ stands_for e n) rest rest'.
Proof.
  intros p order Po fuel c c' extra text text2 d d2 nodes' Sb J Ft F2 Td T2 N Er. destruct (extended_joined d d2 N) as (X1 & X2). destruct J as [(J & Cr)|(J & Cr)].
  - destruct (joined_document p _ _ _ _ _ _ _ J Ft F2 Cr Td T2) as (t & Fj & Tj). exact (run_grown p order Po _ fuel c c' text t d _ nodes' Sb Ft Fj Td Tj X1 Er).
  - destruct (joined_document p _ _ _ _ _ _ _ J F2 Ft Cr T2 Td) as (t & Fj & Tj). exact (run_grown p order Po _ fuel c c' text t d _ nodes' Sb Ft Fj Td Tj X2 Er).
Qed.

Lemma world_found : forall p d es gs, Forall2 (entity_agrees (reads_as p)) d es -> length gs = length es -> has_world d -> 1 <= length (filter is_worldspawn (combine es gs)).
Proof.
  intros p d es gs F. revert gs. induction F as [|x e d es (G & _) F IH]; intros gs L (w & I & C); [contradiction|]. destruct gs as [|g gs]; [discriminate|]. cbn [combine filter]. destruct I as [<-|I].
  - unfold is_worldspawn at 1. cbn [fst]. rewrite G. fold (doc_class x). rewrite C. cbn. lia.
  - injection L as L. specialize (IH gs L (ex_intro _ w (conj I C))). destruct (is_worldspawn (e, g)); cbn [length]; lia.
Qed.
Theorem worlds_clash : forall p order fuel c f1 f2 t1 t2 d1 d2 nodes, joined (cf_map c) f1 f2 -> file_text f1 t1 -> file_text f2 t2 -> ~ ends_with_cr t1 ->
  text_document p t1 d1 -> text_document p t2 d2 -> has_world d1 -> has_world d2 -> run p order fuel c <> Ok nodes.
Proof.
  intros p order fuel c f1 f2 t1 t2 d1 d2 nodes J F1 F2 Cr T1 T2 W1 W2 E. destruct (joined_document p _ _ _ _ _ _ _ J F1 F2 Cr T1 T2) as (t & Fj & Tj).
  rewrite run_split in E. apply read_ok in Fj. rewrite Fj in E. cbn [bind] in E. destruct (load p t) as [[ps es]| | |] eqn:L; try discriminate. cbn [bind] in E.
  pose proof (loaded_document p t _ ps es Tj L) as Ag. apply bind_ok in E. destruct E as (gs & Eg & E). apply bind_ok in E. destruct E as ([dt ly] & El & _).
  unfold build_geometry in Eg. apply mapM_ok in Eg. apply Forall2_length in Eg.
  apply Forall2_app_inv_l in Ag. destruct Ag as (es1 & es2 & A1 & A2 & ->). rewrite app_length in Eg.
  assert (Sp : exists g1 g2, gs = g1 ++ g2 /\ length g1 = length es1 /\ length g2 = length es2).
  { exists (firstn (length es1) gs), (skipn (length es1) gs). split; [symmetry; apply firstn_skipn|]. rewrite firstn_length, skipn_length. lia. }
  destruct Sp as (g1 & g2 & -> & L1 & L2). unfold layer_filter in El. rewrite partition_filter in El.
  assert (C : combine (es1 ++ es2) (g1 ++ g2) = combine es1 g1 ++ combine es2 g2).
  { clear - L1. revert g1 L1. induction es1 as [|e es1 IH]; intros [|g g1] L; try discriminate; [reflexivity|]. cbn [app combine]. f_equal. apply IH. now injection L. }
  rewrite C, filter_app in El. pose proof (world_found p d1 es1 g1 A1 L1 W1) as H1. pose proof (world_found p d2 es2 g2 A2 L2 W2) as H2.
  destruct (filter is_worldspawn (combine es1 g1)) as [|a [|]], (filter is_worldspawn (combine es2 g2)) as [|b m]; cbn [length app] in *; try lia; destruct a; discriminate.
Qed.
