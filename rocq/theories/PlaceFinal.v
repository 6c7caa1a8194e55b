(** Where the actors of whole runs stand: lemmas for C109. *)
From Coq Require Import Reals Lra Lia ZArith Permutation.
From Flocq Require Import Core.
From Verif Require Import Prelude F32 Text MapModel GeoModel LayerModel GameDataModel SceneModel RunModel
  GatherSpec SurfaceSpec GeoSpec NumberSpec LayerSpec TreeSpec PropertySpec MapSpec Utf8Spec RunSpec InvarianceSpec RealSpec WindSpec ErrorSpec PointsSpec KeptSpec PlaceSpec
  BaseProofs GatherProofs FloatProofs NumberProofs GeoProofs GeoFinal SurfaceProofs LayerProofs NodeProofs RunProofs SoundProofs ErrorProofs ErrorFinal MeanProofs PointsProofs PointsFinal KeptProofs KeptFinal PlaceProofs.
Local Open Scope R_scope.

Section Final.
Context (p : platform).
Local Notation O := (f32_num p).
Context (order : hmap (list (brush_geo f32)) -> list (str * list (brush_geo f32))) (permutes : forall m, Permutation (order m) m).
Context (fuel : nat) (c : config) (text : str) (d : doc) (nodes : list (node f32)).
Context (Ft : file_text (cf_map c) text) (Td : text_document p text d) (Er : run p order fuel c = Ok nodes).

(** Entities as written and as filtered. *)
Definition stems (e : doc_entity) (x : entity f32 * entity_geo f32) : Prop :=
  In e d /\ (forall k, get_property (fst x) k = doc_value e k) /\ centre_of p (cf_textures c) e (eg_center (snd x)).

Lemma scene_data : exists data layers, build_scene O fuel (cf_game c) (cf_forge c) (cf_blacklist c) data (order layers) = Ok nodes
  /\ (forall x, In x data -> exists e, stems e x) /\ (forall e, In e d -> exists x, In x data /\ stems e x)
  /\ (forall x, In x (firstn 1 data) -> get_property (fst x) (lit "classname") = Some (lit "worldspawn"))
  /\ (forall x, In x (tl data) -> get_property (fst x) (lit "classname") <> Some (lit "worldspawn"))
  /\ (forall t bs, In (t, bs) layers -> t = water \/ t = slime).
Proof.
  pose proof Er as Er'. rewrite run_split in Er'. pose proof Ft as Ft'. apply read_ok in Ft'. rewrite Ft' in Er'. cbn [bind] in Er'.
  apply bind_ok in Er'. destruct Er' as ([ps es] & El & Er'). pose proof (loaded_document p text d ps es Td El) as Ag.
  apply bind_ok in Er'. destruct Er' as (gs & Eg & Er'). apply bind_ok in Er'. destruct Er' as ([data layers] & Ef & Es).
  pose proof (geometry_lengths p _ _ _ Eg) as (Lg & _). pose proof Eg as Eb. apply mapM_ok in Eb.
  assert (Made : forall e x g, entity_agrees (reads_as p) e x -> In (x, g) (combine es gs) -> centre_of p (cf_textures c) e (eg_center g)).
  { intros e x g A J. exists x, (eg_brushes g). split; [exact A|].
    pose proof J as J'. apply (in_combine_Forall2 _ _ _ _ _ _ _ (geometry_shape _ _ _ _ Eg)) in J'. destruct J' as (_ & Ce). split; [|exact Ce].
    apply (in_combine_Forall2 _ _ _ _ _ _ _ Eb) in J. unfold build_entity_geo in J. apply bind_ok in J. destruct J as (bs & Ebs & J). injection J as <-. cbn [eg_brushes]. now apply mapM_ok. }
  assert (Back : forall x g, In (x, g) (combine es gs) -> exists e, In e d /\ entity_agrees (reads_as p) e x).
  { intros x g J. apply in_combine_l in J. destruct (Forall2_in_r _ _ _ _ _ _ Ag J) as (e & He & A). eauto. }
  assert (Forth : forall e, In e d -> exists x g, In (x, g) (combine es gs) /\ entity_agrees (reads_as p) e x).
  { intros e He. destruct (Forall2_in_l _ _ _ _ _ _ Ag He) as (x & Hx & A).
    assert (J : exists g, In (x, g) (combine es gs)).
    { clear - Hx Lg. revert gs Lg. induction es as [|y es IH]; intros [|g gs] L; try discriminate; [destruct Hx|]. destruct Hx as [->|Hx]; [exists g; now left|].
      destruct (IH Hx gs) as (g' & I); [now injection L|]. exists g'. now right. }
    destruct J as (g & J). eauto. }
  destruct (layer_filter_single _ _ Ef) as (we & wg & others & S). rewrite (layer_filter_ok _ _ _ _ S) in Ef. injection Ef as Ed Ely.
  pose proof S as (pre & post & Ec & Eo & Ww & Wn). exists data, layers. split; [exact Es|]. rewrite <- Ed. cbn [firstn tl].
  split; [|split; [|split; [|split]]].
  - intros x [<-|Hx].
    + destruct (Back we wg) as (e & He & A); [rewrite Ec; apply in_or_app; right; now left|]. exists e. split; [exact He|]. split; [exact (proj1 A)|].
      cbn [snd eg_center]. apply (Made e we wg A). rewrite Ec. apply in_or_app. right. now left.
    + destruct x as [x g]. assert (J : In (x, g) (combine es gs)) by (rewrite Ec; rewrite Eo in Hx; apply in_app_or in Hx; apply in_or_app; destruct Hx; [now left|right; now right]).
      destruct (Back x g J) as (e & He & A). exists e. split; [exact He|]. split; [exact (proj1 A)|]. exact (Made e x g A J).
  - intros e He. destruct (Forth e He) as (x & g & J & A). pose proof (Made e x g A J) as M. rewrite Ec in J. apply in_app_or in J.
    assert (K : (we, wg) = (x, g) \/ In (x, g) others) by (rewrite Eo; destruct J as [J|[J|J]]; [right; apply in_or_app; auto|auto|right; apply in_or_app; auto]).
    destruct K as [K|K].
    + injection K as -> ->. eexists. split; [now left|]. split; [exact He|]. split; [exact (proj1 A)|exact M].
    + exists (x, g). split; [now right|]. split; [exact He|]. split; [exact (proj1 A)|exact M].
  - intros x [<-|[]]. exact Ww.
  - intros x Hx. exact (Wn x Hx).
  - intros t bs I. rewrite <- Ely in I. destruct I as [I|[I|[]]]; injection I as <- _; auto.
Qed.

Lemma child_ids : forall x y : entity f32, is_child x y = true <-> exists g, get_property y (lit "_tb_group") = Some g /\ get_property x (lit "_tb_id") = Some g.
Proof.
  intros x y. unfold is_child. destruct (get_property y (lit "_tb_group")) as [g|]; [|split; [discriminate|intros (g & K & _); discriminate]].
  unfold opt_str_eqb. split.
  - intros H. destruct (get_property x (lit "_tb_id")) as [i|]; [|discriminate]. apply str_eqb_eq in H. subst i. eauto.
  - intros (g' & K & ->). injection K as ->. apply str_eqb_refl.
Qed.

Lemma line_lineage : forall data, (forall x, In x data -> exists e, stems e x) ->
  (forall x, In x (firstn 1 data) -> get_property (fst x) (lit "classname") = Some (lit "worldspawn")) ->
  (forall x, In x (tl data) -> get_property (fst x) (lit "classname") <> Some (lit "worldspawn")) ->
  forall l, line data l -> exists es, lineage d es /\ Forall2 stems es l.
Proof.
  intros data St W1 W2 l L.
  assert (T1 : forall x, In x (tl data) -> In x data) by (intros x Hx; destruct data; [destruct Hx|now right]).
  assert (F1 : forall x, In x (firstn 1 data) -> In x data) by (intros x Hx; destruct data; [destruct Hx|destruct Hx as [->|[]]; now left]).
  induction L as [x H|y x l L (es & Le & F) Hy Cy].
  - assert (Hx : In x data) by (destruct H as [H|[H _]]; auto). destruct (St x Hx) as (e & S). exists [e]. split; [|constructor; [exact S|constructor]].
    destruct S as (He & K & _). constructor; [exact He|]. rewrite <- !K. destruct H as [H|[_ H]]; [left; now apply W1|right; exact H].
  - inversion F as [|e ? es' ? S F']; subst. destruct (St y (T1 y Hy)) as (e' & S'). exists (e' :: e :: es'). split; [|now constructor].
    apply child_ids in Cy. destruct Cy as (g & G1 & G2). destruct S as (_ & K & _), S' as (He' & K' & _).
    apply LineageBelow with g; [exact Le|exact He'|rewrite <- K'; now apply W2|now rewrite <- K'|now rewrite <- K].
Qed.

Lemma lineage_line : forall data, (forall e, In e d -> exists x, In x data /\ stems e x) ->
  (forall x, In x (firstn 1 data) -> get_property (fst x) (lit "classname") = Some (lit "worldspawn")) ->
  (forall x, In x (tl data) -> get_property (fst x) (lit "classname") <> Some (lit "worldspawn")) ->
  forall es, lineage d es -> exists l, line data l /\ Forall2 stems es l.
Proof.
  intros data St W1 W2 es L.
  assert (Sp : forall x, In x data -> In x (firstn 1 data) \/ In x (tl data)) by (intros x Hx; destruct data; [destruct Hx|destruct Hx as [->|Hx]; [left; now left|now right]]).
  induction L as [e He H|e' e es g L (l & Ll & F) He' Nw G1 G2].
  - destruct (St e He) as (x & Hx & S). exists [x]. split; [|constructor; [exact S|constructor]]. destruct S as (_ & K & _). constructor.
    destruct (Sp x Hx) as [Hx'|Hx']; [now left|right]. split; [exact Hx'|]. destruct H as [H|H]; [|now rewrite K]. exfalso. apply (W2 x Hx'). now rewrite K.
  - inversion F as [|? x ? l' S F']; subst. destruct (St e' He') as (y & Hy & S'). exists (y :: x :: l'). split; [|now constructor].
    destruct S as (_ & K & _), S' as (_ & K' & _). constructor; [exact Ll| |].
    + destruct (Sp y Hy) as [Hy'|Hy']; [|exact Hy']. exfalso. apply Nw. rewrite <- K'. now apply W1.
    + apply child_ids. exists g. split; [now rewrite K'|now rewrite K].
Qed.

Lemma shown_family : forall gd fd bl data es l path x, Forall2 stems es l -> shown p gd fd bl data path l x -> family p (cf_textures c) es (map (fun d => eg_center (snd d)) l) path x.
Proof.
  intros gd fd bl data es l path x F (A & S & _). split; [|split; [|exact S]].
  - clear -F. induction F as [|e y es l (_ & _ & H) F IH]; [constructor|]. cbn [map]. now constructor.
  - clear -F A. revert path A. induction F as [|e y es l (_ & K & H) F IH]; intros path A; inversion A as [|n ? path' ? (o & a & ch & -> & Nm & Vi & Co) A']; subst; [constructor|].
    cbn [map combine]. constructor; [|now apply IH]. exists o, a, ch. cbn [fst snd]. rewrite <- K. auto.
Qed.

Theorem actors_stand : forall path x, stands nodes path x ->
  (exists n, path = [n] /\ layer_actor (cf_game c) n /\ x = V3 0 0 0)
  \/ exists es cs, lineage d es /\ family p (cf_textures c) es cs path x.
Proof.
  intros path x S. destruct scene_data as (data & layers & Es & St & _ & W1 & W2 & Ly).
  destruct (stands_line p _ _ _ _ _ _ _ Es path x S) as [(n & t & bs & -> & I & E & ->)|(l & L & Sh)].
  - left. exists n. split; [reflexivity|]. split; [|reflexivity]. assert (T : t = water \/ t = slime) by (apply (Ly t bs); eapply Permutation_in; [apply permutes|exact I]).
    unfold build_layer in E. destruct (filter _ (gd_layers (cf_game c))) as [|l0 [|]] eqn:Fl; try discriminate.
    assert (In l0 [l0]) as Il by now left. rewrite <- Fl in Il. apply filter_In in Il. destruct Il as (Il & Tl). apply str_eqb_eq in Tl.
    apply bind_ok in E. destruct E as (v & _ & E). apply bind_ok in E. destruct E as (k & _ & E).
    destruct (visual_nodes _ _ ++ _); [discriminate|]. injection E as <-. do 4 eexists. split; [reflexivity|]. split; [exact Il|]. split; [reflexivity|]. now rewrite Tl.
  - right. destruct (line_lineage data St W1 W2 l L) as (es & Le & F). exists es. eexists. split; [exact Le|]. eapply shown_family; eauto.
Qed.

Theorem entities_stand : forall es, lineage d es -> exists path x cs, stands nodes path x /\ family p (cf_textures c) es cs path x.
Proof.
  intros es L. destruct scene_data as (data & layers & Es & _ & St & W1 & W2 & _).
  destruct (lineage_line data St W1 W2 es L) as (l & Ll & F). destruct (line_stands p _ _ _ _ _ _ _ Es l Ll) as (path & x & S & Sh).
  exists path, x. eexists. split; [exact S|]. eapply shown_family; eauto.
Qed.
End Final.

Section Centres.
Context (p : platform).
Local Notation O := (f32_num p).

Lemma first_space : forall a b r s : str, ~ In 32%N a -> ~ In 32%N b -> a ++ 32%N :: r = b ++ 32%N :: s -> a = b /\ r = s.
Proof.
  induction a as [|x a IH]; intros [|y b] r s Na Nb E; cbn in E.
  - injection E as <-. auto.
  - exfalso. injection E as <- _. apply Nb. now left.
  - exfalso. injection E as -> _. apply Na. now left.
  - injection E as -> E. destruct (IH b r s) as (-> & ->); auto; intros I; [apply Na|apply Nb]; now right.
Qed.

Lemma pieces_unique : forall s ps qs, spaced_pieces s ps -> spaced_pieces s qs -> ps = qs.
Proof.
  intros s ps. revert s. induction ps as [|q [|q2 ps] IH]; intros s qs (Ej & Ne & Nb) (Ej' & Ne' & Nb'); [congruence| |].
  - destruct qs as [|r [|r2 rs]]; [congruence| |].
    + cbn [joined] in *. congruence.
    + exfalso. cbn [joined] in Ej. subst q. apply (Nb s); [now left|]. rewrite <- Ej'. change (joined (r :: r2 :: rs)) with (r ++ 32%N :: joined (r2 :: rs)). apply in_or_app. right. now left.
  - destruct qs as [|r [|r2 rs]]; [congruence| |].
    + exfalso. cbn [joined] in Ej'. subst r. apply (Nb' s); [now left|]. rewrite <- Ej. change (joined (q :: q2 :: ps)) with (q ++ 32%N :: joined (q2 :: ps)). apply in_or_app. right. now left.
    + change (joined (q :: q2 :: ps)) with (q ++ 32%N :: joined (q2 :: ps)) in Ej. change (joined (r :: r2 :: rs)) with (r ++ 32%N :: joined (r2 :: rs)) in Ej'.
      destruct (first_space q r (joined (q2 :: ps)) (joined (r2 :: rs))) as (-> & E); [apply Nb; now left|apply Nb'; now left|congruence|].
      f_equal. apply (IH (joined (q2 :: ps))).
      * split; [reflexivity|]. split; [discriminate|]. intros t I. apply Nb. now right.
      * split; [symmetry; exact E|]. split; [discriminate|]. intros t I. apply Nb'. now right.
Qed.

(** An origin of three numbers. *)
Theorem origin_centre : forall tx e c c', centre_of p tx e c -> origin_at p e c' -> c = c'.
Proof.
  intros tx e c c' (en & gs & (Kp & _) & _ & Ce) (x & y & z & Og & Ns & Hx & Hy & Hz). unfold entity_center in Ce. specialize (Kp (lit "origin")). unfold get_property in Kp. rewrite Kp, Og in Ce.
  destruct Ce as (ps & Sp & ->). assert (ps = [x; y; z]) as -> by (apply (pieces_unique (joined [x; y; z])); [exact Sp|split; [reflexivity|split; [discriminate|exact Ns]]]).
  unfold component. cbn [nth_error n_parse f32_num]. apply parse_f32_iff in Hx, Hy, Hz. rewrite Hx, Hy, Hz. now destruct c'.
Qed.

(** No origin, and planes through whole points. *)
Theorem mean_tame : forall d tx e c, grid_document p d -> In e d -> doc_value e (lit "origin") = None -> (Z.of_nat (length (doc_brushes e)) < 2 ^ 24)%Z ->
  centre_of p tx e c -> tame c.
Proof.
  intros d tx e c Gd He Og L (x & gs & (Kp & Fb) & Eb & Ce). unfold entity_center in Ce. specialize (Kp (lit "origin")). unfold get_property in Kp. rewrite Kp, Og in Ce.
  assert (AL : forall y, In y (map bg_center gs) -> fins y /\ below corner_bound (point_of y)).
  { intros y Hy. apply in_map_iff in Hy. destruct Hy as (g & <- & Hg). destruct (Forall2_in_r _ _ _ _ _ _ Eb Hg) as (b & Hb & E).
    destruct (Forall2_in_r _ _ _ _ _ _ Fb Hb) as (lb & Hlb & Fp). destruct (planes_grid p d Gd e lb b He Hlb Fp) as (G & Lb).
    unfold build_brush in E. apply bind_ok in E. destruct E as (fs & Ef & E). injection E as <-. cbn [bg_center]. apply mapM_ok in Ef.
    apply (mean_bound p (map f_center fs)); [apply mean_is|rewrite map_length, <- (Forall2_length _ _ _ _ _ Ef); lia|].
    intros z Hz. apply in_map_iff in Hz. destruct Hz as (f & <- & Hf). destruct (Forall2_in_r _ _ _ _ _ _ Ef Hf) as (q & Hq & Eq).
    destruct (face_points p tx x b q f Eq) as (F & B & _); [intros q' [<-|I]; now apply G|exact Lb|]. split; assumption. }
  destruct (mean_bound p _ _ Ce) as [Fc (B1 & B2 & B3)]; [|exact AL|].
  - rewrite map_length. pose proof (Forall2_length _ _ _ _ _ Eb) as L1. pose proof (Forall2_length _ _ _ _ _ Fb) as L2. unfold brush in *. lia.
  - split; [now apply finite_fins|]. rewrite pow60. unfold corner_bound, B60 in *. lra.
Qed.

(** Whole origins all the way down. *)
Theorem origins_exact : forall order, (forall m, Permutation (order m) m) -> forall fuel c text d nodes, file_text (cf_map c) text -> text_document p text d ->
  run p order fuel c = Ok nodes -> forall e es o cs, lineage d (e :: es) -> Forall2 (origin_at p) (e :: es) (o :: cs) -> Forall whole_point (o :: cs) ->
  exists n path, stands nodes (n :: path) (point_of o) /\ actor_for e o n.
Proof.
  intros order P fuel c text d nodes Ft Td Er e es o cs L F W.
  destruct (entities_stand p order fuel c text d nodes Ft Td Er _ L) as (path & x & cs' & S & Ce & A & At).
  assert (cs' = o :: cs) as ->.
  { clear -F Ce. revert cs' Ce. induction F as [|a b l m H F IH]; intros cs' Ce; inversion Ce; subst; [reflexivity|]. f_equal; [eapply origin_centre; eassumption|now apply IH]. }
  cbn [combine] in A. inversion A as [|? n ? path' An _]; subst. destruct At as (_ & X). rewrite (X W) in S. exists n, path'. split; [exact S|exact An].
Qed.
End Centres.
