(** The trees of runs: lemmas for C111. *)
From Coq Require Import Permutation Lia.
From Verif Require Import Prelude F32 Text MapModel GeoModel LayerModel GameDataModel SceneModel RunModel
  GatherSpec GeoSpec LayerSpec DiffSpec TreeSpec PropertySpec MapSpec Utf8Spec RunSpec PointsSpec PlaceSpec ActorSpec
  BaseProofs TextProofs GeoProofs GeoFinal DiffProofs LayerProofs NodeProofs TreeProofs PropertyProofs PropertyWitness RunProofs SoundProofs PointsProofs RunProofs  PlaceProofs PlaceFinal.

Lemma Forall2_here : forall A B (R : A -> B -> Prop) l l', Forall2 R l l' -> Forall2 (fun a b => R a b /\ In a l /\ In b l') l l'.
Proof.
  intros A B R l l' H. induction H as [|a b l l' H F IH]; constructor.
  - split; [exact H|]. split; now left.
  - eapply Forall2_impl; [|exact IH]. intros x y (K & Ix & Iy). split; [exact K|]. split; now right.
Qed.
Lemma Forall2_paired : forall A B C (R : A -> B -> Prop) l l' (m : list C), Forall2 R l l' -> length l' = length m -> Forall2 (fun a bc => R a (fst bc)) l (combine l' m).
Proof.
  intros A B C R l l' m H. revert m. induction H as [|a b l l' H F IH]; intros m L; [constructor|]. destruct m as [|c m]; [discriminate|].
  cbn [combine]. constructor; [exact H|]. apply IH. now injection L.
Qed.
Lemma Forall2_filter : forall A B (R : A -> B -> Prop) f g l l', (forall a b, R a b -> f a = g b) -> Forall2 R l l' -> Forall2 R (filter f l) (filter g l').
Proof.
  intros A B R f g l l' E H. induction H as [|a b l l' H F IH]; [constructor|]. cbn [filter]. rewrite (E _ _ H). destruct (g b); [now constructor|exact IH].
Qed.
Lemma Forall2_compose : forall A B C (R : A -> B -> Prop) (Q : B -> C -> Prop) l m n, Forall2 R l m -> Forall2 Q m n -> Forall2 (fun a c => exists b, R a b /\ Q b c) l n.
Proof.
  intros A B C R Q l m n H. revert n. induction H as [|a b l m H F IH]; intros n K; inversion K; subst; constructor; eauto.
Qed.

(** ** Runs *)
Section Final.
Context (p : platform).
Local Notation O := (f32_num p).
Context (order : hmap (list (brush_geo f32)) -> list (str * list (brush_geo f32))) (permutes : forall m, Permutation (order m) m).
Context (fuel : nat) (c : config) (text : str) (d : doc) (nodes : list (node f32)).
Context (Ft : file_text (cf_map c) text) (Td : text_document p text d) (Er : run p order fuel c = Ok nodes).
Local Notation stems := (stems p c d).

Lemma arranged_data : exists w others x data ws ss, doc_world d others w /\ stems w x /\ Forall2 stems others data
  /\ build_scene O fuel (cf_game c) (cf_forge c) (cf_blacklist c) (x :: data) (order [(water, ws); (slime, ss)]) = Ok nodes.
Proof.
  pose proof Er as Er'. rewrite run_split in Er'. pose proof Ft as Ft'. apply read_ok in Ft'. rewrite Ft' in Er'. cbn [bind] in Er'.
  apply bind_ok in Er'. destruct Er' as ([ps es] & El & Er'). pose proof (loaded_document p text d ps es Td El) as Ag.
  apply bind_ok in Er'. destruct Er' as (gs & Eg & Er'). apply bind_ok in Er'. destruct Er' as ([data layers] & Ef & Es).
  pose proof (geometry_lengths p _ _ _ Eg) as (Lg & _). pose proof Eg as Eb. apply mapM_ok in Eb.
  assert (Made : forall e x g, entity_agrees (reads_as p) e x -> In (x, g) (combine es gs) -> centre_of p (cf_textures c) e (eg_center g)).
  { intros e x g A J. exists x, (eg_brushes g). split; [exact A|].
    pose proof J as J'. apply (in_combine_Forall2 _ _ _ _ _ _ _ (geometry_shape _ _ _ _ Eg)) in J'. destruct J' as (_ & Ce). split; [|exact Ce].
    apply (in_combine_Forall2 _ _ _ _ _ _ _ Eb) in J. unfold build_entity_geo in J. apply bind_ok in J. destruct J as (bs & Ebs & J). injection J as <-. cbn [eg_brushes]. now apply mapM_ok. }
  assert (F : Forall2 stems d (combine es gs)).
  { eapply Forall2_impl; [|apply Forall2_here, (Forall2_paired _ _ _ _ _ _ gs Ag (eq_sym Lg))]. intros e [x g] (A & He & Hx). split; [exact He|]. split; [exact (proj1 A)|]. exact (Made _ _ _ A Hx). }
  destruct (layer_filter_single _ _ Ef) as (we & wg & others & S). rewrite (layer_filter_ok _ _ _ _ S) in Ef. injection Ef as Ed Ely.
  pose proof S as (pre & post & Ec & Eo & Ww & Wn). rewrite Ec in F. apply Forall2_app_inv_r in F. destruct F as (d1 & d2 & F1 & F2 & Edd).
  inversion F2 as [|w ? d3 ? Sw F3]; subst d2. subst. exists w, (d1 ++ d3). do 4 eexists. split; [|split; [|split; [apply Forall2_app; eassumption|eassumption]]].
  - exists d1, d3. split; [reflexivity|]. split; [reflexivity|]. split; [destruct Sw as (_ & K & _); unfold doc_class; rewrite <- K; exact Ww|].
    intros e He K. destruct (Forall2_in_l _ _ _ _ _ e (Forall2_app F1 F3) He) as (y & Hy & (_ & Ky & _)). apply (Wn y Hy). etransitivity; [apply Ky|exact K].
  - destruct Sw as (A & B & C). split; [exact A|]. split; [exact B|exact C].
Qed.

Section Trees.
Context (others : doc) (x0 : entity f32 * entity_geo f32) (data : list (entity f32 * entity_geo f32)) (St : Forall2 stems others data).
Local Notation gd := (cf_game c).
Local Notation fd := (cf_forge c).
Local Notation bl := (cf_blacklist c).

Lemma defined_stem : forall e x df, stems e x -> class_definition gd e df <-> defined_by gd (fst x) df.
Proof. intros e x df (_ & K & _). unfold class_definition, defined_by, doc_class. now setoid_rewrite <- K. Qed.
Lemma undefined_stem : forall e x, stems e x -> no_definition gd e <-> undefined gd (fst x).
Proof.
  intros e x (_ & K & _). unfold no_definition, undefined, doc_class. setoid_rewrite <- K. unfold get_property. split.
  - intros H df cl I E Q. apply (H df I). rewrite E. now f_equal.
  - intros H df I E. exact (H df _ I E eq_refl).
Qed.
Lemma declared_stem : forall e x fe, stems e x -> class_declaration fd e fe <-> forge_by fd (fst x) fe.
Proof. intros e x fe (_ & K & _). unfold class_declaration, forge_by, class_of, doc_class. now setoid_rewrite <- K. Qed.
Lemma undeclared_stem : forall e x, stems e x -> no_declaration fd e <-> forge_none fd (fst x).
Proof.
  intros e x (_ & K & _). unfold no_declaration, forge_none, class_of, doc_class. setoid_rewrite <- K. unfold get_property. split.
  - intros H df cl I E Q. apply (H df I). rewrite E. now f_equal.
  - intros H df I E. exact (H df _ I E eq_refl).
Qed.

Lemma stem_carries : forall e x m, stems e x -> get_properties O fd (fst x) = Ok m -> carries p fd e m.
Proof.
  intros e x m S E. pose proof S as (_ & K & _). split.
  - intros fe Fe. apply (declared_stem e x fe S) in Fe. split.
    + intros k fp L. rewrite <- K. destruct (fp_data fp) as [q|q|q|q|q|cs q|fs df| |] eqn:D.
      7: { destruct (flags_delivered p fd (fst x) fe m k fp fs df Fe E L D) as (z & Hz & R). exists (PrChoices z). split; [exact Hz|]. right. exists fs, df, z. auto. }
      all: destruct (declared_delivered p fd (fst x) fe m k fp Fe E L) as (v & Hv & Dv); [rewrite D; intros (? & ? & Q); discriminate|];
        exists v; rewrite D in Dv; split; [exact Hv|left; split; [intros (? & ? & Q); discriminate|exact Dv]].
    + intros k Nd. rewrite <- K. exact (properties_undeclared p fd (fst x) fe m k Fe E Nd).
  - intros N k. apply (undeclared_stem e x S) in N. rewrite (properties_none p fd (fst x) N) in E. injection E as <-. reflexivity.
Qed.

Lemma stem_tree : forall f up e x origin n, stems e x -> origin = match up with None => v3_zero O | Some u => v3_neg O u end ->
  build_entity O f gd fd bl (x0 :: data) origin x = Ok n -> entity_tree p gd fd (cf_textures c) others up e n.
Proof.
  induction f as [|f IH]; intros up e [x g] origin n S Eo E; [discriminate|].
  destruct (actor_definition O gd fd bl (x0 :: data) _ _ _ _ _ E) as (o1 & a1 & ch1 & N1 & _ & Df & Ud).
  destruct (build_entity_inv O gd fd bl (x0 :: data) _ _ _ _ _ E) as (f' & cl & v & k & ch & pr & Ef & Hc & Ev & Ek & M & Ep & ->).
  injection Ef as <-. injection N1 as <- <- <-. pose proof S as (He & K & Ce). cbn [fst snd] in K, Ce.
  apply EntityTree with (c := eg_center g) (v := v) (k := k) (es := filter (fun y => match doc_value y (lit "_tb_group") with Some q => opt_str_eqb (Some q) (doc_value e (lit "_tb_id")) | None => false end) others).
  - exact Ce.
  - unfold offset, same_vec3, minus. subst origin. destruct up as [u|]; cbn; repeat split; (apply TreeProofs.vneg_add || apply TreeProofs.zero_add).
  - split; [unfold doc_class; rewrite <- K; exact Hc|]. split; [exact (stem_carries e (x, g) pr S Ep)|]. split.
    + intros df H. apply Df. now apply (defined_stem e (x, g) df S).
    + intros H. apply Ud. now apply (undefined_stem e (x, g) S).
  - unfold entity_visual, entity_collision in Ev, Ek. rewrite Hc in Ev, Ek. split.
    + intros H. apply (undefined_stem e (x, g) S) in H. rewrite (find_def_undefined gd x cl H Hc) in Ev, Ek. injection Ev as <-. injection Ek as <-. auto.
    + intros df H. apply (defined_stem e (x, g) df S) in H. destruct (find_def_defined gd x df H) as (c' & Hc' & Fd). assert (c' = cl) by (unfold get_property in *; cbn [fst] in *; congruence). subst c'. rewrite Fd in Ev, Ek.
      destruct (ed_data df) as [q|q bd].
      * injection Ev as <-. injection Ek as <-. auto.
      * split; [intros V; unfold brush_visual in Ev; rewrite V in Ev; now injection Ev as <-|]. unfold collision_of in Ek. destruct (bd_collision bd).
        all: cbn in *.
        all: try (injection Ek as <-; first [reflexivity|unfold convex_collision; eauto]).
        unfold concave_collision in Ek. apply bind_ok in Ek. destruct Ek as ([vs is] & _ & Ek). injection Ek as <-. destruct vs; eauto.
  - apply nodes_of.
  - apply selected_filter. intros y. unfold member. destruct (doc_value y (lit "_tb_group")) as [q|]; [|split; [discriminate|intros (q & Q & _); discriminate]].
    unfold opt_str_eqb. destruct (doc_value e (lit "_tb_id")) as [i|]; [|split; [discriminate|intros (q' & _ & Q); discriminate]]. rewrite str_eqb_eq.
    split; [intros ->; eauto|intros (q' & Q & Q'); congruence].
  - cbn [tl] in M. apply mapM_ok in M.
    assert (Fi : Forall2 stems (filter (fun y => match doc_value y (lit "_tb_group") with Some q => opt_str_eqb (Some q) (doc_value e (lit "_tb_id")) | None => false end) others)
      (filter (fun y => is_child x (fst y)) data)).
    { apply (Forall2_filter _ _ stems); [|exact St]. intros a b (_ & Kb & _). unfold is_child. now rewrite Kb, K. }
    pose proof (Forall2_compose _ _ _ _ _ _ _ _ Fi M) as Z. eapply Forall2_impl; [|exact Z]. intros a m (b & Sb & Eb). exact (IH (Some (eg_center g)) a b _ m Sb eq_refl Eb).
Qed.
End Trees.

Lemma layer_nodes : forall gd t bs n, t = water \/ t = slime -> build_layer O gd (t, bs) = Ok (Some n) -> layer_actor gd n.
Proof.
  intros gd t bs n T E. unfold build_layer in E. destruct (filter _ (gd_layers gd)) as [|l0 [|]] eqn:Fl; try discriminate.
  assert (In l0 [l0]) as Il by now left. rewrite <- Fl in Il. apply filter_In in Il. destruct Il as (Il & Tl). apply str_eqb_eq in Tl.
  apply bind_ok in E. destruct E as (v & _ & E). apply bind_ok in E. destruct E as (k & _ & E).
  destruct (visual_nodes _ _ ++ _); [discriminate|]. injection E as <-. do 4 eexists. split; [reflexivity|]. split; [exact Il|]. split; [reflexivity|]. now rewrite Tl.
Qed.

Theorem run_tree : map_tree p (cf_game c) (cf_forge c) (cf_textures c) d nodes.
Proof.
  destruct arranged_data as (w & others & x & data & ws & ss & Dw & Sw & St & Es). unfold build_scene in Es. cbn [firstn tl mapM] in Es.
  apply bind_ok in Es. destruct Es as (world & Ew & Es). apply bind_ok in Ew. destruct Ew as (nw & Ew & Ew'). cbn [bind] in Ew'. injection Ew' as <-.
  apply bind_ok in Es. destruct Es as (ls & El & Es). apply bind_ok in Es. destruct Es as (rest & Eo & Es). injection Es as <-.
  apply mapM_ok in El. apply mapM_ok in Eo.
  exists w, others, nw, (filter_map (fun o => o) ls), (filter (fun e => match doc_value e (lit "_tb_group") with None => true | Some _ => false end) others), rest.
  split; [exact Dw|]. split; [reflexivity|]. split; [exact (stem_tree others x data St fuel None w x _ nw Sw eq_refl Ew)|].
  assert (Lo : length (order [(water, ws); (slime, ss)]) = 2) by (now rewrite (Permutation_length (permutes _))).
  split; [|split; [|split]].
  - apply Forall_forall. intros n Hn. apply filter_map_In in Hn. destruct Hn as (o & Ho & ->).
    destruct (Forall2_in_r _ _ _ _ _ _ El Ho) as ([t bs] & It & Et). apply (layer_nodes _ t bs n); [|exact Et].
    apply (Permutation_in _ (permutes _)) in It. destruct It as [It|[It|[]]]; injection It as <- _; auto.
  - apply Forall2_length in El. rewrite Lo in El. clear - El. destruct ls as [|[a|] [|[b|] [|]]]; try discriminate; cbn; lia.
  - apply selected_filter. intros e. destruct (doc_value e (lit "_tb_group")); split; congruence.
  - assert (Fi : Forall2 stems (filter (fun e => match doc_value e (lit "_tb_group") with None => true | Some _ => false end) others)
      (filter (fun d => match get_property (fst d) (lit "_tb_group") with None => true | _ => false end) data)).
    { apply (Forall2_filter _ _ stems); [|exact St]. intros a b (_ & Kb & _). now rewrite Kb. }
    pose proof (Forall2_compose _ _ _ _ _ _ _ _ Fi Eo) as Z. eapply Forall2_impl; [|exact Z]. intros a m (b & Sb & Eb). exact (stem_tree others x data St fuel None a b _ m Sb eq_refl Eb).
Qed.
End Final.

(** ** Uniqueness *)
Lemma selected_same : forall A (P : A -> Prop) l r r', selected P l r -> selected P l r' -> r = r'.
Proof.
  intros A P l r r' H. revert r'. induction H as [|x l r Px H IH|x l r Nx H IH]; intros r' K; inversion K; subst; try contradiction; try reflexivity; [f_equal|]; now apply IH.
Qed.
Lemma first_or_none : forall A (f : A -> str) (s : str) l, (exists x, first_with (fun x => f x = s) l x) \/ forall x, In x l -> f x <> s.
Proof.
  intros A f s l. induction l as [|a l [(x & l1 & l2 & -> & Px & N)|N]]; [right; intros x []| |].
  - destruct (list_eq_dec N.eq_dec (f a) s) as [E|E]; left.
    + exists a, [], (l1 ++ x :: l2). split; [reflexivity|]. split; [exact E|]. intros y [].
    + exists x, (a :: l1), l2. split; [reflexivity|]. split; [exact Px|]. intros y [<-|Hy]; [exact E|now apply N].
  - destruct (list_eq_dec N.eq_dec (f a) s) as [E|E]; [left|right].
    + exists a, [], l. split; [reflexivity|]. split; [exact E|]. intros y [].
    + intros x [<-|Hx]; [exact E|now apply N].
Qed.
Lemma last_or_none : forall k (l : list (forge_property f32)), (exists x, last_named k l x) \/ forall x, In x l -> fp_name x <> k.
Proof.
  intros k l. induction l as [|a l [(x & l1 & l2 & -> & Px & N)|N]]; [right; intros x []| |].
  - left. exists x, (a :: l1), l2. auto.
  - destruct (list_eq_dec N.eq_dec (fp_name a) k) as [E|E]; [left|right].
    + exists a, [], l. auto.
    + intros x [<-|Hx]; [exact E|now apply N].
Qed.

Section Unique.
Context (p : platform) (gd : game_data f32) (fd : forge_data f32) (tx : texture_info).

Lemma read_same : forall A (reads : str -> A -> Prop), (forall s v w, reads s v -> reads s w -> v = w) -> forall raw df v w, read_or reads raw df v -> read_or reads raw df w -> v = w.
Proof.
  intros A reads U raw df v w [(s & Es & Rv)|(-> & N)] [(t & Et & Rw)|(-> & M)].
  - rewrite Es in Et. injection Et as <-. eapply U; eauto.
  - exfalso. exact (M s Es v Rv).
  - exfalso. exact (N t Et w Rw).
  - reflexivity.
Qed.
Lemma number_same : forall s v w, number_text p s v -> number_text p s w -> v = w.
Proof. unfold number_text. intros s v w A B. congruence. Qed.
Lemma three_same : forall s a b e a' b' e', three_text (number_text p) s a b e -> three_text (number_text p) s a' b' e' -> a = a' /\ b = b' /\ e = e'.
Proof. intros s a b e a' b' e' A B. apply parse_three_iff in A, B. rewrite A in B. injection B as <- <- <-. auto. Qed.

Lemma arrives_same : forall d raw v w, arrives p d raw v -> arrives p d raw w -> v = w.
Proof.
  assert (V : forall s v w, vector_reads p s v -> vector_reads p s w -> v = w).
  { intros s [a b e] [a' b' e'] A B. destruct (three_same _ _ _ _ _ _ _ A B) as (X & Y & Z). cbn in X, Y, Z. now subst. }
  assert (C : forall s v w, color_reads p s v -> color_reads p s w -> v = w).
  { intros s [a b e] [a' b' e'] A B. destruct (three_same _ _ _ _ _ _ _ A B) as (X & Y & Z). cbn in X, Y, Z. now subst. }
  intros d raw v w [(N & A)|(fs & df & z & -> & -> & R)] [(M & B)|(fs' & df' & z' & E & -> & R')].
  - inversion A; subst; inversion B; subst; try reflexivity; f_equal; (eapply read_same; [|eassumption|eassumption]); eauto using integer_text_unique, number_same; congruence.
  - exfalso. apply N. subst d. now exists fs', df'.
  - exfalso. apply M. now exists fs, df.
  - injection E as <- <-. f_equal. eapply read_same; [apply integer_text_unique|eassumption|eassumption].
Qed.
Lemma undeclared_same : forall raw k (v w : option (property f32)), undeclared_value raw k v -> undeclared_value raw k w -> v = w.
Proof.
  assert (X : forall k, internal_integer k -> internal_string k -> False) by (intros k [-> | ->] [E|E]; discriminate E).
  intros raw k v w [(I & A)|[(I & A)|(I & J & A)]] [(I' & B)|[(I' & B)|(I' & J' & B)]]; try (exfalso; now eauto); try congruence; try contradiction.
  destruct A as [(-> & ->)|(s & z & -> & T & ->)], B as [(E & ->)|(s' & z' & E & T' & ->)]; try discriminate; [reflexivity|]. injection E as <-. do 2 f_equal. eapply integer_text_unique; eauto.
Qed.

Lemma carries_same : forall e m m', doc_class e <> None -> carries p fd e m -> carries p fd e m' -> forall k, hget m k = hget m' k.
Proof.
  intros e m m' Nc (D & N) (D' & N') k. destruct (doc_class e) as [cl|] eqn:Ec; [clear Nc|now destruct Nc].
  destruct (first_or_none _ fe_name cl (fd_definitions fd)) as [(fe & F)|F].
  - assert (Cd : class_declaration fd e fe) by (exists cl; auto). destruct (D fe Cd) as (A & B). destruct (D' fe Cd) as (A' & B').
    destruct (last_or_none k (fe_properties fe)) as [(fp & L)|L].
    + destruct (A k fp L) as (v & -> & V). destruct (A' k fp L) as (v' & -> & V'). f_equal. eapply arrives_same; eauto.
    + assert (Nd : ~ declares fe k) by (intros (q & Hq & Eq); exact (L q Hq Eq)). eapply undeclared_same; eauto.
  - assert (Nd : no_declaration fd e) by (intros fe I E; rewrite Ec in E; injection E as E; exact (F fe I (eq_sym E))). now rewrite N, N'.
Qed.

Lemma describes_like : forall e a b, describes p gd fd e a -> describes p gd fd e b -> like a b.
Proof.
  intros e a b (Na & Ca & Da & Ua) (Nb & Cb & Db & Ub). split; [congruence|].
  assert (Q : a_type a = a_type b /\ a_component a = a_component b /\ a_application a = a_application b).
  { destruct (first_or_none _ ed_classname (a_name a) (gd_entities gd)) as [(df & F)|F].
    - assert (Cd : class_definition gd e df) by (exists (a_name a); auto). destruct (Da df Cd) as (-> & -> & ->). destruct (Db df Cd) as (-> & -> & ->). auto.
    - assert (Nd : no_definition gd e) by (intros df I E; rewrite Na in E; injection E as E; exact (F df I (eq_sym E))).
      destruct (Ua Nd) as (-> & -> & ->). destruct (Ub Nd) as (-> & -> & ->). auto. }
  destruct Q as (Q1 & Q2 & Q3). repeat (split; [assumption|]). apply (carries_same e); [rewrite Na; discriminate|exact Ca|exact Cb].
Qed.

Lemma nodes_geometry : forall (c : vec3 f32) v k l, geometry_nodes_of c v k l -> Forall geometry_node l.
Proof. intros c v k l (lv & lk & -> & [(_ & ->)|(_ & ->)] & [(_ & ->)|(_ & ->)]); repeat constructor. Qed.

Theorem tree_alike : forall others up e n, entity_tree p gd fd tx others up e n -> forall up' n', entity_tree p gd fd tx others up' e n' -> alike n n'.
Proof.
  intros others. fix IH 4. intros up e n H. destruct H as [up e c o a v k geometry es actors Ce Of De Ki Ge Se F]. intros up' n' H'.
  inversion H' as [up2 e2 c' o' b v' k' geometry' es' actors' Ce' Of' De' Ki' Ge' Se' F']; subst. rewrite <- (selected_same _ _ _ _ _ Se Se') in F'. clear H' Se Se' Ce Of Ki Ce' Of' Ki'.
  constructor; [eapply describes_like; eauto|eapply nodes_geometry; eauto|eapply nodes_geometry; eauto|].
  clear De De' Ge Ge'. revert actors' F'. induction F as [|x y xs ys Hx F J]; intros actors' F'; inversion F' as [|x' y' xs' ys' Hx' F'']; subst; constructor.
  - exact (IH _ _ _ Hx _ _ Hx').
  - now apply J.
Qed.
End Unique.

Lemma world_same : forall d others w others' w', doc_world d others w -> doc_world d others' w' -> others = others' /\ w = w'.
Proof.
  intros d others w others' w' (a & b & -> & -> & W & N) (a' & b' & E & -> & W' & N').
  assert (M : forall e, In e a -> doc_class e <> Some (lit "worldspawn")) by (intros e He; apply N, in_or_app; now left).
  assert (M' : forall e, In e a' -> doc_class e <> Some (lit "worldspawn")) by (intros e He; apply N', in_or_app; now left).
  clear N N'. revert a' E M'. induction a as [|x a IH]; intros [|y a'] E M'; cbn in E; injection E as E1 E2.
  - subst. auto.
  - exfalso. apply (M' y); [now left|]. now rewrite <- E1.
  - exfalso. apply (M x); [now left|]. now rewrite E1.
  - destruct (IH (fun e He => M e (or_intror He)) a' E2 (fun e He => M' e (or_intror He))) as (Q & ->). cbn. rewrite E1, Q. auto.
Qed.

Theorem map_alike : forall p gd fd tx d nodes nodes', map_tree p gd fd tx d nodes -> map_tree p gd fd tx d nodes' ->
  exists world layers rest world' layers' rest', nodes = world :: layers ++ rest /\ nodes' = world' :: layers' ++ rest'
    /\ Forall (layer_actor gd) layers /\ Forall (layer_actor gd) layers' /\ alike world world' /\ Forall2 alike rest rest'.
Proof.
  intros p gd fd tx d nodes nodes' (w & others & world & layers & tops & rest & Dw & -> & Tw & La & _ & Se & F) (w' & others' & world' & layers' & tops' & rest' & Dw' & -> & Tw' & La' & _ & Se' & F').
  destruct (world_same _ _ _ _ _ Dw Dw') as (<- & <-). rewrite <- (selected_same _ _ _ _ _ Se Se') in F'.
  exists world, layers, rest, world', layers', rest'. repeat (split; [auto; fail|]). split; [eapply tree_alike; eauto|].
  clear - F F'. revert rest' F'. induction F as [|x y l m H F IH]; intros r F'; inversion F'; subst; constructor; [eapply tree_alike; eauto|now apply IH].
Qed.
