(** The order of entities: lemmas for C112. *)
From Coq Require Import Permutation.
From Verif Require Import Prelude F32 Text MapModel GeoModel LayerModel GameDataModel SceneModel RunModel
  GatherSpec GeoSpec LayerSpec SurfaceSpec TreeSpec PropertySpec MapSpec Utf8Spec RunSpec InvarianceSpec PointsSpec SiblingSpec
  BaseProofs TokenProofs MapProofs GeoProofs LayerProofs NodeProofs RunProofs SoundProofs InvarianceProofs PointsProofs.

Lemma mapM_moved : forall A B (f : A -> res B) l l' r, Permutation l l' -> mapM f l = Ok r -> exists r', mapM f l' = Ok r' /\ Permutation r r'.
Proof.
  intros A B f l l' r P E. apply mapM_ok in E. destruct (Permutation_Forall2 P E) as (r' & Pr & F). exists r'. split; [now apply mapM_ok|exact Pr].
Qed.
Lemma filter_moved : forall A (f : A -> bool) l l', Permutation l l' -> Permutation (filter f l) (filter f l').
Proof.
  intros A f l l' P. induction P as [|x l l' P IH|x y l|l m n P IH Q IH']; cbn [filter].
  - constructor.
  - destruct (f x); [now constructor|exact IH].
  - destruct (f x), (f y); try apply Permutation_refl. apply perm_swap.
  - now transitivity (filter f m).
Qed.

Lemma rearranged_refl : forall n, rearranged n n.
Proof.
  fix IH 1. intros [o a ch|o v|o k]; [|constructor|constructor]. apply ReActor with (mid := ch); [apply Permutation_refl|].
  induction ch as [|n ch J]; constructor; [apply IH|exact J].
Qed.

(** ** Scenes *)
Section Scene.
Context (p : platform) (gd : game_data f32) (fd : forge_data f32) (bl : blacklist).
Local Notation O := (f32_num p).

Lemma entity_moved : forall data data', Permutation (tl data) (tl data') -> forall fuel origin d n, build_entity O fuel gd fd bl data origin d = Ok n ->
  exists n', build_entity O fuel gd fd bl data' origin d = Ok n' /\ rearranged n n'.
Proof.
  intros data data' P fuel. induction fuel as [|fuel IH]; intros origin [e g] n E; [discriminate|].
  destruct (build_entity_inv O gd fd bl data _ _ _ _ _ E) as (f & cl & v & k & ch & pr & Ef & Hc & Ev & Ek & M & Ep & ->). injection Ef as <-.
  destruct (mapM_moved _ _ _ _ _ _ (filter_moved _ (fun x => is_child e (fst x)) _ _ P) M) as (mid & Mm & Pm).
  assert (X : exists ch', mapM (build_entity O fuel gd fd bl data' (v3_neg O (eg_center g))) (filter (fun x => is_child e (fst x)) (tl data')) = Ok ch' /\ Forall2 rearranged mid ch').
  { apply mapM_ok in Mm. clear - IH Mm. induction Mm as [|x y l m H F J]; [exists []; split; [reflexivity|constructor]|].
    destruct (IH _ _ _ H) as (y' & Ey & Ry). destruct J as (m' & Em & Rm). exists (y' :: m'). split; [|now constructor]. cbn [mapM]. rewrite Ey. cbn [bind]. rewrite Em. reflexivity. }
  destruct X as (ch' & Mc & Rc). eexists. split.
  - cbn [build_entity]. rewrite Ev. cbn [bind]. rewrite Ek. cbn [bind]. rewrite Mc. cbn [bind]. rewrite Hc. cbn [unwrap bind]. rewrite Ep. cbn [bind]. reflexivity.
  - rewrite <- app_assoc. apply ReActor with (mid := visual_nodes (eg_center g) v ++ collision_nodes (eg_center g) k ++ mid).
    + now do 2 apply Permutation_app_head.
    + apply Forall2_app; [|apply Forall2_app]; [destruct v; repeat constructor|destruct k; repeat constructor|exact Rc].
Qed.

Lemma scene_moved : forall fuel x data data' layers nodes, Permutation data data' -> build_scene O fuel gd fd bl (x :: data) layers = Ok nodes ->
  exists world ls rest world' rest', nodes = world :: ls ++ rest /\ build_scene O fuel gd fd bl (x :: data') layers = Ok (world' :: ls ++ rest')
    /\ rearranged world world' /\ rearranged_all rest rest'.
Proof.
  intros fuel x data data' layers nodes P E. unfold build_scene in *. cbn [firstn tl mapM] in *.
  apply bind_ok in E. destruct E as (ws & Ew & E). apply bind_ok in Ew. destruct Ew as (world & Ew & E'). cbn [bind] in E'. injection E' as <-.
  apply bind_ok in E. destruct E as (ls & El & E). apply bind_ok in E. destruct E as (rest & Eo & E). injection E as <-.
  destruct (entity_moved (x :: data) (x :: data') P _ _ _ _ Ew) as (world' & Ew' & Rw).
  destruct (mapM_moved _ _ _ _ _ _ (filter_moved _ (fun d => match get_property (fst d) (lit "_tb_group") with None => true | _ => false end) _ _ P) Eo) as (mid & Mm & Pm).
  assert (X : exists r', mapM (build_entity O fuel gd fd bl (x :: data') (v3_zero O)) (filter (fun d => match get_property (fst d) (lit "_tb_group") with None => true | _ => false end) data') = Ok r' /\ Forall2 rearranged mid r').
  { apply mapM_ok in Mm. clear - Mm P. induction Mm as [|a y l m H F J]; [exists []; split; [reflexivity|constructor]|].
    destruct (entity_moved (x :: data) (x :: data') P _ _ _ _ H) as (y' & Ey & Ry). destruct J as (m' & Em & Rm). exists (y' :: m'). split; [|now constructor]. cbn [mapM]. rewrite Ey. cbn [bind]. rewrite Em. reflexivity. }
  destruct X as (rest' & Mr & Rr). exists world, (filter_map (fun o => o) ls), rest, world', rest'. split; [reflexivity|]. split; [|split; [exact Rw|now exists mid]].
  rewrite Ew'. cbn [bind]. rewrite El. cbn [bind]. rewrite Mr. reflexivity.
Qed.
End Scene.

(** ** Runs *)
Section Run.
Context (p : platform) (order : hmap (list (brush_geo f32)) -> list (str * list (brush_geo f32))) (permutes : forall m, Permutation (order m) m).
Local Notation O := (f32_num p).

Definition built (fuel : nat) (c : config) (es : list (entity f32)) : res (list (node f32)) :=
  gs <- build_geometry O (cf_textures c) es ;;
  '(data, layers) <- layer_filter (combine es gs) ;;
  build_scene O fuel (cf_game c) (cf_forge c) (cf_blacklist c) data (order layers).

Lemma built_alike : forall fuel c c' es es', same_but_map c c' -> Forall2 alike es es' -> built fuel c es = built fuel c' es'.
Proof.
  intros fuel c c' es es' Sb F. pose proof (agree_refl es c c' Sb) as A. unfold built.
  rewrite (geometry_alike p (cf_textures c) (cf_textures c') es es' F (agree_sizes _ _ _ A)).
  destruct (build_geometry O (cf_textures c') es') as [gs| | |] eqn:G; cbn [bind]; try reflexivity.
  rewrite <- (geometry_alike p (cf_textures c) (cf_textures c') es es' F (agree_sizes _ _ _ A)) in G.
  assert (Sd : same_data es (combine es gs) (combine es' gs)).
  { apply (same_combine es es' gs (fun e g => In e es /\ dressed es g) F). intros e g I.
    split; [eapply in_combine_l; exact I|eapply dressed_geometry; eauto]. }
  pose proof (layer_filter_same es _ _ Sd) as K.
  destruct (layer_filter (combine es gs)) as [[d l]| | |], (layer_filter (combine es' gs)) as [[d' l']| | |]; try contradiction; cbn [bind]; [|now subst].
  destruct K as (Sd' & <- & Ly). apply (scene_same p c c' es A); [exact Sd'|].
  intros t bs I. apply (Ly t bs). eapply Permutation_in; [apply permutes|exact I].
Qed.

Lemma combine_moved : forall A B (R : A -> B -> Prop) es es' gs, Permutation es es' -> Forall2 R es gs -> exists gs', Forall2 R es' gs' /\ Permutation (combine es gs) (combine es' gs').
Proof.
  intros A B R es es' gs P. revert gs. induction P as [|x l l' P IH|x y l|l m n P IH Q IH']; intros gs F.
  - exists gs. split; [exact F|apply Permutation_refl].
  - inversion F as [|? g ? gs' H F']; subst. destruct (IH _ F') as (gs2 & F2 & P2). exists (g :: gs2). split; [now constructor|]. cbn [combine]. now constructor.
  - inversion F as [|? g ? gs' H F']; subst. inversion F' as [|? h ? gs2 H' F'']; subst. exists (h :: g :: gs2). split; [repeat constructor; auto|]. cbn [combine]. apply perm_swap.
  - destruct (IH _ F) as (gs2 & F2 & P2). destruct (IH' _ F2) as (gs3 & F3 & P3). exists gs3. split; [exact F3|]. now transitivity (combine m gs2).
Qed.

Lemma built_moved : forall fuel c es es' nodes, Permutation es es' -> built fuel c es = Ok nodes ->
  exists world ls rest world' rest', nodes = world :: ls ++ rest /\ built fuel c es' = Ok (world' :: ls ++ rest') /\ rearranged world world' /\ rearranged_all rest rest'.
Proof.
  intros fuel c es es' nodes P E. unfold built in *. apply bind_ok in E. destruct E as (gs & Eg & E). apply bind_ok in E. destruct E as ([data layers] & Ef & Es).
  apply mapM_ok in Eg. destruct (combine_moved _ _ _ _ _ _ P Eg) as (gs' & Eg' & Pc). apply mapM_ok in Eg'. unfold build_geometry. rewrite Eg'. cbn [bind].
  destruct (layer_filter_single _ _ Ef) as (we & wg & others & S). rewrite (layer_filter_ok _ _ _ _ S) in Ef. injection Ef as <- <-.
  destruct S as (pre & post & Ec & Eo & Ww & Wn).
  assert (I : In (we, wg) (combine es' gs')) by (apply (Permutation_in _ Pc); rewrite Ec; apply in_or_app; right; now left).
  apply in_split in I. destruct I as (pre' & post' & Ec').
  assert (Po : Permutation others (pre' ++ post')) by (subst others; rewrite Ec, Ec' in Pc; now apply Permutation_app_inv in Pc).
  assert (S' : single_world (combine es' gs') we wg (pre' ++ post')).
  { exists pre', post'. repeat (split; [auto; fail|]). intros x Hx. apply Wn. now apply (Permutation_in _ (Permutation_sym Po)). }
  rewrite (layer_filter_ok _ _ _ _ S'). cbn [bind]. now apply scene_moved with (data := others).
Qed.

Lemma documents_moved : forall d d' es, reordered d d' -> Forall2 (entity_agrees (reads_as p)) d es ->
  (forall e b l, In e d' -> In b (doc_brushes e) -> In l b -> exists ws pl, written ws l /\ plane_words (parse_f32 (p_modern_parse p)) (to_lowercase p) ws pl)
  /\ forall es', Forall2 (entity_agrees (reads_as p)) d' es' -> exists mid, Permutation es mid /\ Forall2 alike mid es'.
Proof.
  intros d d' es (mid & P & F) Ag. destruct (Permutation_Forall2 P Ag) as (em & Pe & Am). split.
  - intros e b l He Hb Hl. destruct (Forall2_in_r _ _ _ _ _ _ F He) as (e0 & H0 & (B & _)). rewrite <- B in Hb.
    destruct (Forall2_in_l _ _ _ _ _ _ Am H0) as (x & _ & (_ & Fb)). destruct (Forall2_in_l _ _ _ _ _ _ Fb Hb) as (br & _ & Fp).
    destruct (Forall2_in_l _ _ _ _ _ _ Fp Hl) as (pl & _ & (ws & W)). now exists ws, pl.
  - intros es' Ag'. exists em. split; [exact Pe|]. clear - F Am Ag'. revert em Am es' Ag'.
    induction F as [|x x' l l' (B & V) F IH]; intros em Am es' Ag'; inv Am; inv Ag'; constructor; auto.
    match goal with H : entity_agrees _ x _, H' : entity_agrees _ x' _ |- _ => destruct H as (G & Bs), H' as (G' & Bs') end. split.
    + rewrite <- B in Bs'. eapply Forall2_functional; [|exact Bs|exact Bs']. intros; eapply Forall2_functional; eauto. apply read_unique.
    + intros k. specialize (G k). specialize (G' k). unfold get_property in *. now rewrite G, G', V.
Qed.

Theorem run_moved : forall fuel c c' text text' d d' nodes, same_but_map c c' ->
  file_text (cf_map c) text -> file_text (cf_map c') text' -> text_document p text d -> text_document p text' d' ->
  reordered d d' -> run p order fuel c = Ok nodes ->
  exists world layers rest world' rest', nodes = world :: layers ++ rest /\ run p order fuel c' = Ok (world' :: layers ++ rest')
    /\ rearranged world world' /\ rearranged_all rest rest'.
Proof.
  intros fuel c c' text text' d d' nodes Sb Ft Ft' Td Td' Rd Er. rewrite run_split in *. apply read_ok in Ft, Ft'. rewrite Ft in Er. rewrite Ft'. cbn [bind] in *.
  apply bind_ok in Er. destruct Er as ([ps es] & El & Er). pose proof (loaded_document p text d ps es Td El) as Ag.
  destruct (documents_moved d d' es Rd Ag) as (R' & Al). destruct Td' as (ls' & ts' & L' & K' & Sg').
  destruct (load_doc p text' ls' ts' d' L' K' Sg' R') as (ps' & es' & Lo' & Ag'). rewrite Lo'. cbn [bind]. destruct (Al es' Ag') as (em & Pe & Fe).
  change (built fuel c es = Ok nodes) in Er. destruct (built_moved _ _ _ _ _ Pe Er) as (world & ly & rest & world' & rest' & En & Em & R1 & R2).
  exists world, ly, rest, world', rest'. split; [exact En|]. split; [|split; assumption]. change (built fuel c' es' = Ok (world' :: ly ++ rest')).
  now rewrite <- (built_alike fuel c c' em es' Sb Fe).
Qed.

Lemma flipped : forall A B (R : A -> B -> Prop) l m, Forall2 R l m -> Forall2 (fun b a => R a b) m l.
Proof. intros A B R l m F. induction F; constructor; auto. Qed.
Lemma reordered_sym : forall d d', reordered d d' -> reordered d' d.
Proof.
  intros d d' (mid & P & F). destruct (Permutation_Forall2 (Permutation_sym P) F) as (m & Pm & Fm). exists m. split; [exact Pm|]. apply flipped in Fm.
  eapply Forall2_impl; [|exact Fm]. intros a b (A & B). split; [now symmetry|intros k; now symmetry].
Qed.

Theorem run_success_moved : forall fuel c c' text text' d d', same_but_map c c' ->
  file_text (cf_map c) text -> file_text (cf_map c') text' -> text_document p text d -> text_document p text' d' -> reordered d d' ->
  (exists nodes, run p order fuel c = Ok nodes) <-> (exists nodes, run p order fuel c' = Ok nodes).
Proof.
  intros fuel c c' text text' d d' Sb Ft Ft' Td Td' R. split; intros (nodes & E).
  - destruct (run_moved _ _ _ _ _ _ _ _ Sb Ft Ft' Td Td' R E) as (w & l & r & w' & r' & _ & E' & _). eauto.
  - assert (Sb' : same_but_map c' c) by (destruct Sb as (? & ? & ? & ?); repeat split; now symmetry).
    destruct (run_moved _ _ _ _ _ _ _ _ Sb' Ft' Ft Td' Td (reordered_sym _ _ R) E) as (w & l & r & w' & r' & _ & E' & _). eauto.
Qed.
End Run.

(** No node is lost. *)
Theorem rearranged_within : forall m m', rearranged m m' -> forall n, within n m -> exists n', within n' m' /\ rearranged n n'.
Proof.
  intros m m' R n W. revert m' R. induction W as [|o a ch x I W IH]; intros m' R; [exists m'; split; [constructor|exact R]|].
  inversion R as [? ? ? ch' mid P F| |]; subst. apply (Permutation_in _ P) in I. destruct (Forall2_in_l _ _ _ _ _ _ F I) as (x' & I' & Rx).
  destruct (IH _ Rx) as (n' & W' & Rn). exists n'. split; [|exact Rn]. eapply WithinChild; eauto.
Qed.
