(** From a document to its tree (C59). *)
From Coq Require Import Permutation.
From Verif Require Import Prelude F32 Text MapModel DiffModel GeoModel LayerModel GameDataModel SceneModel RunModel
  MapSpec GatherSpec GeoSpec LayerSpec SurfaceSpec TreeSpec GameDataSpec PropertySpec Utf8Spec RunSpec
  BaseProofs TokenProofs PlaneProofs ParserProofs MapProofs GatherProofs GeoProofs GeoFinal LayerProofs SurfaceProofs TreeProofs NodeProofs
  PropertyProofs Utf8Proofs FuelProofs DegenerateFinal OutcomeProofs RunProofs SceneWitness.

Section Doc.
Context (p : platform) (order : hmap (list (brush_geo f32)) -> list (str * list (brush_geo f32)))
  (permutes : forall m, Permutation (order m) m).
Local Notation O := (f32_num p).
Local Notation number := (parse_f32 (p_modern_parse p)).
Local Notation lower := (to_lowercase p).
Local Notation reads := (fun l pl => exists ws, written ws l /\ plane_words number lower ws pl).

Lemma distinct_acyclic : forall data : list (entity f32 * entity_geo f32), distinct_ids data -> ~ cyclic data.
Proof.
  intros data D (i & n & R & W). apply reaches_chain in R. destruct R as (anc & C).
  assert (Up : forall a k b, walk data a k b -> forall anc, chain data anc a -> exists anc', chain data (anc' ++ anc) b /\ length anc' = k).
  { intros a k b Wk. induction Wk as [a|a b c k G Wk IH]; intros an C'; [exists []; auto|].
    destruct (IH (a :: an)) as (an' & C2 & L); [econstructor; eauto|]. exists (an' ++ [a]). rewrite <- app_assoc. simpl. split; [exact C2|].
    rewrite app_length. simpl. lia. }
  destruct (Up _ _ _ W anc C) as (anc' & C' & L). pose proof (chain_unique data D _ _ C _ C') as E.
  apply (f_equal (@length nat)) in E. rewrite app_length in E. lia.
Qed.

Lemma agree_value : forall d es i e, Forall2 (entity_agrees reads) d es -> nth_error es i = Some e ->
  exists x, nth_error d i = Some x /\ (forall k, hget (e_props e) k = doc_value x k) /\ Forall2 (Forall2 reads) (doc_brushes x) (e_brushes e).
Proof.
  intros d es i e F. revert i. induction F as [|x y d es A F IH]; intros [|i] H; try discriminate.
  - injection H as <-. exists x. split; [reflexivity|]. exact A.
  - apply IH, H.
Qed.

Lemma map_eq_app_cons : forall A B (R : A -> B -> Prop) pre (w : A) post l, Forall2 R (pre ++ w :: post) l ->
  exists pre' w' post', l = pre' ++ w' :: post' /\ Forall2 R pre pre' /\ R w w' /\ Forall2 R post post'.
Proof.
  intros A B R pre w post l H. apply Forall2_app_inv_l in H. destruct H as (pre' & r & F1 & F2 & ->).
  inversion F2 as [|? w' ? post' Hw Hp]; subst. exists pre', w', post'. auto.
Qed.

(** Moving one element to the front permutes positions. *)
Definition source_index (n i : nat) : nat := match i with 0 => n | S k => if k <? n then k else S k end.
Lemma source_index_inj : forall n i j, source_index n i = source_index n j -> i = j.
Proof.
  intros n [|i] [|j]; simpl; try (destruct (Nat.ltb_spec i n)); try (destruct (Nat.ltb_spec j n)); lia.
Qed.
Lemma source_index_nth : forall A (pre : list A) w post i,
  nth_error (w :: pre ++ post) i = nth_error (pre ++ w :: post) (source_index (length pre) i).
Proof.
  intros A pre w post [|i]; simpl.
  - rewrite nth_error_app2, Nat.sub_diag by lia. reflexivity.
  - destruct (Nat.ltb_spec i (length pre)).
    + rewrite !nth_error_app1 by lia. reflexivity.
    + rewrite !nth_error_app2 by lia. replace (S i - length pre) with (S (i - length pre)) by lia. reflexivity.
Qed.

Lemma filter_classes : forall d (l : list (entity f32 * entity_geo f32)),
  Forall2 (fun x e => entity_agrees reads x (fst e)) d l ->
  ungrouped_classes d = map (fun e => hget (e_props (fst e)) (lit "classname"))
    (filter (fun e => match get_property (fst e) (lit "_tb_group") with None => true | _ => false end) l).
Proof.
  intros d l F. unfold ungrouped_classes. induction F as [|x e d l A F IH]; [reflexivity|]. simpl. destruct A as (A & _).
  rewrite A. destruct (doc_value x (lit "_tb_group")); [exact IH|]. simpl. rewrite IH. unfold doc_class. now rewrite <- A.
Qed.

Theorem document_tree : forall c bs text d w others,
  cf_map c = Contents bs -> encodes bs text -> text_document p text d ->
  doc_world d others w -> doc_classes d -> doc_distinct d -> doc_integral (cf_forge c) d -> sound_planes p d ->
  exists world layers rest,
    (forall fuel, length d <= fuel -> run p order fuel c = Ok (world :: layers ++ rest))
    /\ actor_named world (Some (lit "worldspawn")) /\ Forall (layer_actor (cf_game c)) layers /\ length layers <= 2
    /\ Forall2 actor_named rest (ungrouped_classes others).
Proof.
  intros c bs text d w others Eb En (ls & ts & Ls & Ts & Sg) (pre & post & Dd & Do & Dw & Dn) Cl Di In_ Sp.
  destruct (load_doc p text ls ts d Ls Ts Sg) as (ps & es & El & Ag).
  { intros e b l He Hb Hl. apply (Sp e l He). unfold doc_planes. apply in_concat. eauto. }
  assert (Fn : finite_normals p es).
  { intros e b pl u v He Hb Hpl Euv. apply In_nth_error in He. destruct He as (i & He).
    destruct (agree_value d es i e Ag He) as (x & Hx & _ & Fb). apply nth_error_In in Hx.
    destruct (Forall2_in_r _ _ _ _ _ _ Fb Hb) as (b' & Hb' & Fp). destruct (Forall2_in_r _ _ _ _ _ _ Fp Hpl) as (l & Hl & ws & W & P).
    apply (Sp x l Hx) with ws u v; auto. unfold doc_planes. apply in_concat. eauto. }
  rewrite Dd in Ag. pose proof Ag as Ag'. apply map_eq_app_cons in Ag'. destruct Ag' as (pre' & w' & post' & Ee & F1 & Aw & F2).
  assert (A : world_first es (w' :: pre' ++ post')).
  { exists pre', w', post'. split; [exact Ee|]. split; [reflexivity|]. split.
    - unfold worldspawn. destruct Aw as (Aw & _). specialize (Aw (lit "classname")). unfold get_property in Aw. rewrite Aw. exact Dw.
    - intros e He K. unfold worldspawn in K. apply in_app_or in He.
      assert (X : exists x, In x others /\ entity_agrees reads x e).
      { destruct He as [He|He]; [destruct (Forall2_in_r _ _ _ _ _ _ F1 He) as (x & Hx & Ax)|destruct (Forall2_in_r _ _ _ _ _ _ F2 He) as (x & Hx & Ax)];
          exists x; (split; [rewrite Do; apply in_or_app; auto|exact Ax]). }
      destruct X as (x & Hx & Ax & _). apply (Dn x Hx). unfold doc_class. rewrite <- Ax. exact K. }
  destruct (proj2 (geometry_exact p (cf_textures c) es) Fn) as (gs & Eg). pose proof (geometry_lengths p _ _ _ Eg) as (Lg & _).
  destruct (arranged_filter es _ gs Lg A) as (data & layers & Ef & M).
  destruct (filtered_bounds p _ _ _ (built_bounds p _ _ _ Eg) Ef) as (B1 & B2).
  assert (B3 : forall t bs, In (t, bs) (order layers) -> geometry_in_bounds (EntityGeo (v3_zero O) bs)).
  { intros t b I. apply (B2 t). now apply (Permutation_in (l := order layers)). }
  (* positions in the arranged list *)
  assert (Pos : forall i e g, nth_error data i = Some (e, g) -> exists x, nth_error d (source_index (length pre') i) = Some x
            /\ forall k, hget (e_props e) k = doc_value x k).
  { intros i e g Hi. assert (H : nth_error (map fst data) i = Some e) by (rewrite nth_error_map, Hi; reflexivity).
    rewrite M, source_index_nth, <- Ee in H. rewrite Dd. destruct (agree_value _ es _ e Ag H) as (x & Hx & Hv & _). eauto. }
  assert (U : all_usable (cf_forge c) data).
  { intros i e g _ Hi. destruct (Pos i e g Hi) as (x & Hx & Hv). apply nth_error_In in Hx. split.
    - destruct (Cl x Hx) as (cl & K). exists cl. rewrite Hv. exact K.
    - intros fe (cl & Kc & (l1 & l2 & Ed & Kn & _)) k s Hk Hs. unfold class_of in Kc. rewrite Hv in Kc, Hs.
      apply (In_ x fe k s); auto; [rewrite Ed; apply in_or_app; simpl; auto|]. unfold doc_class. congruence. }
  assert (D : distinct_ids data).
  { intros i j x Hi Hj. unfold id_of, prop_of in *.
    destruct (nth_error data i) as [[e g]|] eqn:Ei; [|discriminate]. destruct (nth_error data j) as [[e' g']|] eqn:Ej; [|discriminate].
    destruct (Pos i e g Ei) as (a & Ha & Va). destruct (Pos j e' g' Ej) as (b & Hb & Vb). rewrite Va in Hi. rewrite Vb in Hj.
    eapply source_index_inj. eapply Di; eauto. }
  destruct (scene_cyclic p (cf_game c) (cf_forge c) (cf_blacklist c) data B1 (order layers) B3 U) as (_ & K).
  destruct (K (distinct_acyclic data D)) as (nodes & Kn). clear K.
  assert (Ld : length data = length d).
  { rewrite <- (map_length fst data), M, Dd. simpl. rewrite !app_length. simpl.
    rewrite (Forall2_length _ _ _ _ _ F1), (Forall2_length _ _ _ _ _ F2). lia. }
  rewrite Ld in Kn.
  assert (R : forall fuel, length d <= fuel -> run p order fuel c = Ok nodes).
  { intros fuel L. rewrite run_split, (proj2 (read_ok (cf_map c) text)) by eauto. cbn [bind].
    rewrite El. cbn [bind]. rewrite Eg. cbn [bind]. rewrite Ef. cbn [bind]. now apply Kn. }
  destruct (scene_top p _ _ _ _ _ _ _ (Kn _ (le_n _))) as (trees & ls' & world & rest & En' & Fl & Fs & Rt & Lw).
  destruct data as [|[we wg] od] eqn:Ed; [discriminate|]. injection M as Mw Mo.
  destruct world as [|w0 [|]]; simpl in Lw; try lia.
  exists w0, (filter_map (fun o => o) ls'), rest. rewrite <- Ed in *.
  assert (Nm : Forall2 (fun i n => actor_named n (prop_of data i (lit "classname"))) (roots data) ([w0] ++ rest)).
  { rewrite <- Rt. clear - Fs. induction Fs as [|t n ts ns S F IH]; constructor; [|exact IH].
    inversion S as [parent i kids o a geometry nodes _ Pn _ _ _]; subst. do 3 eexists. split; [reflexivity|exact Pn]. }
  assert (Rr : roots data = 0 :: filter (ungrouped data) (seq 1 (length data - 1))) by (rewrite Ed; reflexivity).
  rewrite Rr in Nm. simpl in Nm. inversion Nm as [|? ? ? ? N0 Nr]; subst x y l l'.
  split; [intros fuel L; rewrite R by exact L; rewrite En'; reflexivity|]. split; [|split; [|split]].
  - assert (P0 : prop_of data 0 (lit "classname") = Some (lit "worldspawn")).
    { rewrite Ed. unfold prop_of. simpl nth_error. cbn match. rewrite Mw. destruct Aw as (Aw & _). etransitivity; [apply (Aw (lit "classname"))|exact Dw]. }
    rewrite P0 in N0. exact N0.
  - apply Forall_forall. intros n Hn. apply filter_map_In in Hn. destruct Hn as (o & Ho & ->).
    destruct (Forall2_in_r _ _ _ _ _ _ Fl Ho) as ([t bs'] & Ht & Eb').
    apply layer_node in Eb'. destruct Eb' as (l & ch & (l1 & l2 & El' & Et & _) & _ & _ & ->).
    do 4 eexists. split; [reflexivity|]. split; [rewrite El'; apply in_or_app; simpl; auto|]. split; [reflexivity|].
    assert (It : In (t, bs') layers) by now apply (Permutation_in (l := order layers)).
    destruct (layer_filter_single _ _ Ef) as (we' & wg' & os & Sw). rewrite (layer_filter_ok _ _ _ _ Sw) in Ef. injection Ef as _ Ef.
    rewrite <- Ef in It. rewrite Et. destruct It as [It|[It|[]]]; injection It as <- _; auto.
  - eapply Nat.le_trans; [apply filter_map_length_le|]. rewrite <- (Forall2_length _ _ _ _ _ Fl).
    rewrite (Permutation_length (permutes layers)).
    destruct (layer_filter_single _ _ Ef) as (we' & wg' & os & Sw). rewrite (layer_filter_ok _ _ _ _ Sw) in Ef. injection Ef as _ <-. simpl. lia.
  - rewrite Do. rewrite (filter_classes (pre ++ post) od).
    2: { apply Forall2_map_r. rewrite Mo. apply Forall2_app; assumption. }
    pose proof (ungrouped_others data) as Uo. rewrite Ed in Uo at 3. cbn [tl] in Uo.
    clear - Uo Nr. revert rest Nr. induction Uo as [|j x js xs Hj Uo IH]; intros rest Nr; inversion Nr; subst; [constructor|].
    simpl. constructor; [|now apply IH]. destruct x as [e g]. rewrite (prop_of_nth data j e g _ Hj) in H1. exact H1.
Qed.
End Doc.
