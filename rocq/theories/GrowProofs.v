(** Further entities: lemmas for C114. *)
From Coq Require Import Permutation.
From Verif Require Import Prelude F32 Text MapModel GeoModel LayerModel GameDataModel SceneModel RunModel
  GatherSpec GeoSpec LayerSpec SurfaceSpec TreeSpec PropertySpec MapSpec Utf8Spec RunSpec InvarianceSpec PointsSpec GrowSpec
  BaseProofs TokenProofs MapProofs GeoProofs LayerProofs NodeProofs RunProofs SoundProofs InvarianceProofs PointsProofs SiblingProofs.

(** ** Merged lists *)
Lemma merged_filter : forall A (N : A -> Prop) f l m, merged eq N l m -> merged eq (fun x => N x /\ f x = true) (filter f l) (filter f m).
Proof.
  intros A N f l m H. induction H as [|x y l m -> H IH|y l m Ny H IH]; cbn [filter]; [constructor| |]; destruct (f y) eqn:E; try exact IH; [apply MergedKept|apply MergedNew]; auto.
Qed.
Lemma merged_image : forall A B (N : A -> Prop) (F F' : A -> B -> Prop) (R : B -> B -> Prop) (Q : B -> Prop) l m r', merged eq N l m -> Forall2 F' m r' ->
  (forall x y', F' x y' -> exists y, F x y /\ R y y') -> (forall x y, N x -> F' x y -> Q y) -> exists r, Forall2 F l r /\ merged R Q r r'.
Proof.
  intros A B N F F' R Q l m r' M G K H. revert r' G. induction M as [|x y l m -> M IH|y l m Ny M IH]; intros r' G; inversion G as [|? z ? s E G']; subst.
  - exists []. split; constructor.
  - destruct (K _ _ E) as (w & Fw & Rw). destruct (IH _ G') as (r & Fr & Mr). exists (w :: r). split; now constructor.
  - destruct (IH _ G') as (r & Fr & Mr). exists r. split; [exact Fr|]. apply MergedNew; eauto.
Qed.
Lemma merged_weaken : forall A B (R R' : A -> B -> Prop) (N N' : B -> Prop) l m, (forall x y, R x y -> R' x y) -> (forall y, N y -> N' y) -> merged R N l m -> merged R' N' l m.
Proof. intros A B R R' N N' l m K H M. induction M; constructor; auto. Qed.
Lemma merged_none : forall A B (R : A -> B -> Prop) (N : B -> Prop) l m, (forall y, ~ N y) -> merged R N l m -> Forall2 R l m.
Proof. intros A B R N l m H M. induction M as [|x y l m E M IH|y l m Ny M IH]; [constructor|now constructor|]. now destruct (H y). Qed.
(** A kept element splits both lists. *)
Lemma merged_split : forall A (N : A -> Prop) l pre w post, merged eq N l (pre ++ w :: post) -> ~ N w ->
  exists pre' post', l = pre' ++ w :: post' /\ merged eq N (pre' ++ post') (pre ++ post).
Proof.
  intros A N l pre. revert l. induction pre as [|x pre IH]; intros l w post M Nw; cbn [app] in M; inversion M as [|a b l' m' E M'|b l' m' E M']; subst.
  - exists [], l'. split; [reflexivity|exact M'].
  - contradiction.
  - destruct (IH _ _ _ M' Nw) as (p1 & p2 & -> & M2). exists (x :: p1), p2. split; [reflexivity|]. now apply MergedKept.
  - destruct (IH _ _ _ M' Nw) as (p1 & p2 & -> & M2). exists p1, p2. split; [reflexivity|]. now apply MergedNew.
Qed.
Lemma merged_in : forall A (N : A -> Prop) l m x, merged eq N l m -> In x l -> In x m.
Proof. intros A N l m x M. induction M as [|a b l m -> M IH|b l m Nb M IH]; cbn; intuition. Qed.

(** ** Scenes *)
Section Scene.
Context (p : platform) (gd : game_data f32) (fd : forge_data f32) (bl : blacklist) (New : doc_entity -> Prop).
Local Notation O := (f32_num p).
(** An entity as read for a new one. *)
Definition new_entity (x : entity f32) : Prop := exists e, New e /\ forall k, get_property x k = doc_value e k.

Lemma entity_stands : forall data fuel origin e g n d, build_entity O fuel gd fd bl data origin (e, g) = Ok n -> (forall k, get_property e k = doc_value d k) -> stands_for d n.
Proof.
  intros data fuel origin e g n d E H. destruct (build_entity_inv O gd fd bl data _ _ _ _ _ E) as (f & cl & v & k & ch & pr & Ef & Hc & Ev & Ek & M & Ep & ->).
  do 3 eexists. split; [reflexivity|]. cbn [a_name]. now rewrite <- H.
Qed.

Lemma entity_grown : forall data data', merged eq (fun d => new_entity (fst d)) (tl data) (tl data') -> forall fuel origin d n', build_entity O fuel gd fd bl data' origin d = Ok n' ->
  exists n, build_entity O fuel gd fd bl data origin d = Ok n /\ grown New n n'.
Proof.
  intros data data' P fuel. induction fuel as [|fuel IH]; intros origin [e g] n E; [discriminate|].
  destruct (build_entity_inv O gd fd bl data' _ _ _ _ _ E) as (f & cl & v & k & ch & pr & Ef & Hc & Ev & Ek & M & Ep & ->). injection Ef as <-.
  apply mapM_ok in M. pose proof (merged_filter _ _ (fun x => is_child e (fst x)) _ _ P) as Q. cbv beta in Q.
  destruct (merged_image _ _ _ (fun x y => build_entity O fuel gd fd bl data (v3_neg O (eg_center g)) x = Ok y) _ (grown New)
     (fun n => exists d, New d /\ doc_value d (lit "_tb_group") <> None /\ stands_for d n) _ _ _ Q M (fun x y' => IH _ x y')) as (r & Fr & Mr).
  { intros [x gx] y ((d & Nd & Hd) & C) Ey. exists d. split; [exact Nd|]. split; [|eapply entity_stands; eauto].
    cbn [fst] in *. unfold is_child in C. rewrite <- Hd. destruct (get_property x (lit "_tb_group")); [discriminate|discriminate C]. }
  apply mapM_ok in Fr. eexists. split.
  - cbn [build_entity]. rewrite Ev. cbn [bind]. rewrite Ek. cbn [bind]. rewrite Fr. cbn [bind]. rewrite Hc. cbn [unwrap bind]. rewrite Ep. cbn [bind]. rewrite app_assoc. reflexivity.
  - apply Grown; [|exact Mr]. apply Forall_app. split; [destruct v|destruct k]; repeat constructor.
Qed.

Lemma scene_grown : forall fuel x data data' layers nodes', merged eq (fun d => new_entity (fst d)) data data' -> build_scene O fuel gd fd bl (x :: data') layers = Ok nodes' ->
  exists world ls rest world' rest', nodes' = world' :: ls ++ rest' /\ build_scene O fuel gd fd bl (x :: data) layers = Ok (world :: ls ++ rest)
    /\ grown New world world' /\ merged (grown New) (fun n => exists e, New e /\ doc_value e (lit "_tb_group") = None /\ stands_for e n) rest rest'.
Proof.
  intros fuel x data data' layers nodes P E. unfold build_scene in *. cbn [firstn tl mapM] in *.
  apply bind_ok in E. destruct E as (ws & Ew & E). apply bind_ok in Ew. destruct Ew as (world' & Ew & E'). cbn [bind] in E'. injection E' as <-.
  apply bind_ok in E. destruct E as (ls & El & E). apply bind_ok in E. destruct E as (rest' & Eo & E). injection E as <-.
  destruct (entity_grown (x :: data) (x :: data') P _ _ _ _ Ew) as (world & Ew' & Rw).
  apply mapM_ok in Eo. pose proof (merged_filter _ _ (fun d => match get_property (fst d) (lit "_tb_group") with None => true | _ => false end) _ _ P) as Q. cbv beta in Q.
  destruct (merged_image _ _ _ (fun d y => build_entity O fuel gd fd bl (x :: data) (v3_zero O) d = Ok y) _ (grown New)
     (fun n => exists d, New d /\ doc_value d (lit "_tb_group") = None /\ stands_for d n) _ _ _ Q Eo (fun d y' => entity_grown (x :: data) (x :: data') P fuel _ d y')) as (r & Fr & Mr).
  { intros [y gy] n ((d & Nd & Hd) & C) Ey. exists d. split; [exact Nd|]. split; [|eapply entity_stands; eauto].
    cbn [fst] in *. rewrite <- Hd. destruct (get_property y (lit "_tb_group")); [discriminate C|reflexivity]. }
  apply mapM_ok in Fr. exists world, (filter_map (fun o => o) ls), r, world', rest'. split; [reflexivity|]. split; [|split; assumption].
  rewrite Ew'. cbn [bind]. rewrite El. cbn [bind]. rewrite Fr. reflexivity.
Qed.
End Scene.

(** ** Runs *)
Section Run.
Context (p : platform) (order : hmap (list (brush_geo f32)) -> list (str * list (brush_geo f32))) (permutes : forall m, Permutation (order m) m) (New : doc_entity -> Prop).
Local Notation O := (f32_num p).
Local Notation built := (built p order).

Lemma combine_grown : forall A B (N : A -> Prop) (R : A -> B -> Prop) es es' gs', merged eq N es es' -> Forall2 R es' gs' ->
  exists gs, Forall2 R es gs /\ merged eq (fun d => N (fst d)) (combine es gs) (combine es' gs').
Proof.
  intros A B N R es es' gs' M. revert gs'. induction M as [|x y l m -> M IH|y l m Ny M IH]; intros gs' F; inversion F as [|? g ? gs2 H F']; subst.
  - exists []. split; constructor.
  - destruct (IH _ F') as (gs & Fg & Mg). exists (g :: gs). split; [now constructor|]. cbn [combine]. now apply MergedKept.
  - destruct (IH _ F') as (gs & Fg & Mg). exists gs. split; [exact Fg|]. cbn [combine]. now apply MergedNew.
Qed.

Lemma built_grown : forall fuel c es es' nodes', merged eq (fun x => new_entity New x /\ get_property x (lit "classname") <> Some (lit "worldspawn")) es es' -> built fuel c es' = Ok nodes' ->
  exists world ls rest world' rest', nodes' = world' :: ls ++ rest' /\ built fuel c es = Ok (world :: ls ++ rest)
    /\ grown New world world' /\ merged (grown New) (fun n => exists e, New e /\ doc_value e (lit "_tb_group") = None /\ stands_for e n) rest rest'.
Proof.
  intros fuel c es es' nodes' M E. unfold SiblingProofs.built in *. apply bind_ok in E. destruct E as (gs' & Eg & E). apply bind_ok in E. destruct E as ([data layers] & Ef & Es).
  apply mapM_ok in Eg. destruct (combine_grown _ _ _ _ _ _ _ M Eg) as (gs & Fg & Mg). apply mapM_ok in Fg. unfold build_geometry. rewrite Fg. cbn [bind].
  destruct (layer_filter_single _ _ Ef) as (we & wg & others & S). rewrite (layer_filter_ok _ _ _ _ S) in Ef. injection Ef as <- <-.
  destruct S as (pre & post & Ec & Eo & Ww & Wn). rewrite Ec in Mg.
  destruct (merged_split _ _ _ _ _ _ Mg) as (pre0 & post0 & Ec0 & Mo); [intros (_ & K); apply K; exact Ww|]. rewrite <- Eo in Mo.
  assert (S' : single_world (combine es gs) we wg (pre0 ++ post0)).
  { exists pre0, post0. repeat (split; [auto; fail|]). intros x Hx. apply Wn. eapply merged_in; eauto. }
  rewrite (layer_filter_ok _ _ _ _ S'). cbn [bind]. apply scene_grown with (data' := others); [|exact Es].
  eapply merged_weaken; [| |exact Mo]; [auto|intros y (K & _); exact K].
Qed.

Lemma documents_grown : forall d d' es', extended New d d' -> Forall2 (entity_agrees (reads_as p)) d' es' ->
  (forall e b l, In e d -> In b (doc_brushes e) -> In l b -> exists ws pl, written ws l /\ plane_words (parse_f32 (p_modern_parse p)) (to_lowercase p) ws pl)
  /\ forall es, Forall2 (entity_agrees (reads_as p)) d es -> exists mid, Forall2 alike mid es
    /\ merged eq (fun x => new_entity New x /\ get_property x (lit "classname") <> Some (lit "worldspawn")) mid es'.
Proof.
  intros d d' es' M. revert es'. induction M as [|x y l m Rxy M IH|y l m (Ny & Nw) M IH]; intros es' F; inversion F as [|? z ? s E F']; subst.
  - split; [intros e b l []|]. intros es G. inv G. exists []. split; constructor.
  - destruct (IH _ F') as (I1 & I2). split.
    + intros e b ln [<-|He] Hb Hl; [|eauto]. destruct Rxy as (B & _). rewrite B in Hb. destruct E as (_ & Fb).
      destruct (Forall2_in_l _ _ _ _ _ _ Fb Hb) as (br & _ & Fp). destruct (Forall2_in_l _ _ _ _ _ _ Fp Hl) as (pl & _ & (ws & W)). now exists ws, pl.
    + intros es G. inversion G as [|? w ? s' E' G']; subst. destruct (I2 _ G') as (mid & Fm & Mm). exists (z :: mid). split; [|now apply MergedKept]. constructor; [|exact Fm].
      destruct Rxy as (B & V), E as (G1 & Bs), E' as (G2 & Bs'). split.
      * rewrite <- B in Bs. eapply Forall2_functional; [|exact Bs|exact Bs']. intros; eapply Forall2_functional; eauto. apply read_unique.
      * intros k. specialize (G1 k). specialize (G2 k). unfold get_property in *. now rewrite G1, G2, V.
  - destruct (IH _ F') as (I1 & I2). split; [exact I1|]. intros es G. destruct (I2 _ G) as (mid & Fm & Mm). exists mid. split; [exact Fm|]. apply MergedNew; [|exact Mm].
    destruct E as (G1 & _). split; [now exists y|]. now rewrite G1.
Qed.

Theorem run_grown : forall fuel c c' text text' d d' nodes', same_but_map c c' ->
  file_text (cf_map c) text -> file_text (cf_map c') text' -> text_document p text d -> text_document p text' d' ->
  extended New d d' -> run p order fuel c' = Ok nodes' ->
  exists world layers rest world' rest', nodes' = world' :: layers ++ rest' /\ run p order fuel c = Ok (world :: layers ++ rest)
    /\ grown New world world' /\ merged (grown New) (fun n => exists e, New e /\ doc_value e (lit "_tb_group") = None /\ stands_for e n) rest rest'.
Proof.
  intros fuel c c' text text' d d' nodes' Sb Ft Ft' Td Td' Rd Er. rewrite run_split in *. apply read_ok in Ft, Ft'. rewrite Ft' in Er. rewrite Ft. cbn [bind] in *.
  apply bind_ok in Er. destruct Er as ([ps es'] & El & Er). pose proof (loaded_document p text' d' ps es' Td' El) as Ag.
  destruct (documents_grown d d' es' Rd Ag) as (R' & Al). destruct Td as (ls & ts & L & K & Sg).
  destruct (load_doc p text ls ts d L K Sg R') as (ps0 & es & Lo & Ag0). rewrite Lo. cbn [bind]. destruct (Al es Ag0) as (em & Fe & Me).
  change (built fuel c' es' = Ok nodes') in Er. destruct (built_grown _ _ _ _ _ Me Er) as (world & ly & rest & world' & rest' & En & Em & R1 & R2).
  exists world, ly, rest, world', rest'. split; [exact En|]. split; [|split; assumption]. change (built fuel c es = Ok (world :: ly ++ rest)).
  assert (Sb' : same_but_map c' c) by (destruct Sb as (? & ? & ? & ?); repeat split; now symmetry).
  now rewrite <- (built_alike p order permutes fuel c' c em es Sb' Fe).
Qed.
End Run.

(** ** Ungrouped entities *)
Theorem grown_same : forall New : doc_entity -> Prop, (forall e, New e -> doc_value e (lit "_tb_group") = None) -> forall n n', grown New n n' -> n = n'.
Proof.
  intros New H. fix IH 3. intros n n' [o a g l l' G M]. do 2 f_equal. clear G g o a. induction M as [|x y l m E M J|y l m (e & Ne & K & _) M J]; [reflexivity|f_equal; [now apply IH|exact J]|]. destruct K. now apply H.
Qed.

Theorem run_ungrouped : forall p order, (forall m, Permutation (order m) m) -> forall New fuel c c' text text' d d' nodes', same_but_map c c' ->
  file_text (cf_map c) text -> file_text (cf_map c') text' -> text_document p text d -> text_document p text' d' ->
  extended New d d' -> (forall e, New e -> doc_value e (lit "_tb_group") = None) -> run p order fuel c' = Ok nodes' ->
  exists world layers rest rest', nodes' = world :: layers ++ rest' /\ run p order fuel c = Ok (world :: layers ++ rest)
    /\ merged eq (fun n => exists e, New e /\ stands_for e n) rest rest'.
Proof.
  intros p order Po New fuel c c' text text' d d' nodes' Sb Ft Ft' Td Td' Rd H Er.
  destruct (run_grown p order Po New fuel c c' text text' d d' nodes' Sb Ft Ft' Td Td' Rd Er) as (world & ly & rest & world' & rest' & -> & Er' & G & M).
  exists world, ly, rest, rest'. rewrite <- (grown_same New H _ _ G). split; [reflexivity|]. split; [exact Er'|].
  eapply merged_weaken; [| |exact M]; [apply grown_same; exact H|]. intros n (e & Ne & _ & Se). eauto.
Qed.
