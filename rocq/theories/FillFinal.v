(** Convex collision shapes of whole runs: lemmas for C108. *)
From Coq Require Import Reals Lra Lia ZArith Permutation.
From Flocq Require Import Core.
From Verif Require Import Prelude F32 Text MapModel GeoModel LayerModel GameDataModel SceneModel RunModel
  GatherSpec SurfaceSpec GeoSpec NumberSpec LayerSpec TreeSpec PropertySpec MapSpec Utf8Spec RunSpec InvarianceSpec RealSpec WindSpec ErrorSpec PointsSpec MeshSpec
  CornerSpec SolidSpec WoundSpec KeptSpec CoverSpec FillSpec
  BaseProofs GatherProofs GeoProofs GeoFinal SurfaceProofs SurfaceFinal LayerProofs NodeProofs RunProofs SoundProofs PointsProofs PointsFinal KeptProofs KeptFinal TriangleProofs
  FillProofs CoverFinal.
Local Open Scope R_scope.

Section Final.
Context (p : platform).
Local Notation O := (f32_num p).
Local Notation laws := (f32_eq_laws p).

Lemma convex_made : forall g k, collision_of O CConvex g = Ok k -> exists shapes, k = ColConvex shapes
  /\ Forall2 (fun b c => made_of p (bg_faces b) (cx_points c)) (eg_brushes g) shapes.
Proof.
  intros g k E. destruct (convex_full O laws g) as (shapes & E' & F). rewrite E in E'. injection E' as ->. exists shapes. split; [reflexivity|].
  eapply Forall2_impl; [|exact F]. cbv beta. intros b c (_ & _ & _ & A & B). split; assumption.
Qed.

(** One brush of an entity. *)
Theorem convex_filled : forall tx e planes g b o bs k i, build_brush O tx e planes = Ok g -> (forall q, In q planes -> grid_plane q) -> (Z.of_nat (length planes) <= 4000)%Z ->
  plain_brush planes b -> nth_error bs i = Some g -> collision_of O CConvex (EntityGeo o bs) = Ok k ->
  exists shapes shape, k = ColConvex shapes /\ nth_error shapes i = Some shape /\ fills (allowance b) (cx_points shape) (solid (map plane_of planes)).
Proof.
  intros tx e planes g b o bs k i E G L PB Hi Ek. destruct (convex_made _ _ Ek) as (shapes & -> & F). cbn [eg_brushes] in F.
  destruct (Forall2_nth _ _ _ _ _ _ _ F Hi) as (shape & Hs & M). exists shapes, shape. split; [reflexivity|]. split; [exact Hs|].
  unfold build_brush in E. apply bind_ok in E. destruct E as (fs & Ef & E). injection E as <-. cbn [bg_faces] in M. apply mapM_ok in Ef. eapply brush_filled; eassumption.
Qed.

(** ** Where convex shapes come from *)
Section Origin.
Context (B : brush_geo f32 -> Prop).
Definition all_shaped (n : node f32) : Prop :=
  match n with NCollision _ (ColConvex shapes) => Forall (fun c => exists b, B b /\ made_of p (bg_faces b) (cx_points c)) shapes | _ => True end.

Lemma collision_shaped : forall c g ct k n, Forall B (eg_brushes g) -> collision_of O ct g = Ok k -> In n (collision_nodes c k) -> all_shaped n.
Proof.
  intros c g ct k n F E I. destruct ct.
  - injection E as <-. contradiction.
  - destruct (convex_made _ _ E) as (shapes & -> & M). destruct I as [<-|[]]. cbn [all_shaped]. apply Forall_forall. intros x Hx.
    destruct (Forall2_in_r _ _ _ _ _ _ M Hx) as (b & Hb & Mb). exists b. rewrite Forall_forall in F. auto.
  - cbn [collision_of] in E. unfold concave_collision in E. apply bind_ok in E. destruct E as ([vs ix] & _ & E). injection E as <-. destruct vs; [contradiction|]. destruct I as [<-|[]]. exact Logic.I.
Qed.

Lemma entity_collision_shaped : forall c gd e g k n, Forall B (eg_brushes g) -> entity_collision O gd e g = Ok k -> In n (collision_nodes c k) -> all_shaped n.
Proof.
  intros c gd e g k n W E I. unfold entity_collision in E. destruct (get_property e (lit "classname")) as [cl|]; [|discriminate].
  destruct (find_def gd cl) as [d|]; [|injection E as <-; contradiction].
  destruct (ed_data d) as [q|q bd]; [injection E as <-; contradiction|]. eapply collision_shaped; eauto.
Qed.

Lemma visual_shaped : forall c v n, In n (visual_nodes c v) -> all_shaped n.
Proof. intros c v n I. destruct v; [contradiction|]. destruct I as [<-|[]]. exact Logic.I. Qed.

Lemma entity_shaped : forall gd fd bl data, (forall e g, In (e, g) data -> Forall B (eg_brushes g)) -> forall fuel origin e g m,
  In (e, g) data -> build_entity O fuel gd fd bl data origin (e, g) = Ok m -> forall n, InvarianceSpec.within n m -> all_shaped n.
Proof.
  intros gd fd bl data W fuel. induction fuel as [|fuel IH]; intros origin e g m I E n H; [discriminate|].
  cbn [build_entity] in E. apply bind_ok in E. destruct E as (v & Ev & E). apply bind_ok in E. destruct E as (k & Ek & E).
  apply bind_ok in E. destruct E as (ch & Ec & E). apply bind_ok in E. destruct E as (nm & _ & E). apply bind_ok in E. destruct E as (pr & _ & E).
  injection E as <-. inversion H; subst; [exact Logic.I|].
  match goal with H : In _ (_ ++ _) |- _ => apply in_app_or in H; destruct H as [H|H]; [|apply in_app_or in H; destruct H as [H|H]] end.
  - match goal with H : InvarianceSpec.within _ _, K : In _ (visual_nodes _ _) |- _ => pose proof (leaf_within _ _ _ _ K H); subst; eapply visual_shaped; exact K end.
  - match goal with H : InvarianceSpec.within _ _, K : In _ (collision_nodes _ _) |- _ => pose proof (leaf_within' _ _ _ _ K H); subst end. eapply entity_collision_shaped; eauto.
  - apply mapM_ok in Ec. match goal with K : In _ ch |- _ => destruct (Forall2_in_r _ _ _ _ _ _ Ec K) as ([e' g'] & Hx & Ex) end.
    eapply IH; [|exact Ex|eassumption]. apply filter_In in Hx. destruct Hx as [Hx _]. destruct data; [contradiction|]. now right.
Qed.

Lemma layer_shaped : forall gd t bs m, Forall B bs -> build_layer O gd (t, bs) = Ok (Some m) -> forall n, InvarianceSpec.within n m -> all_shaped n.
Proof.
  intros gd t bs m W E n H. unfold build_layer in E. destruct (filter _ (gd_layers gd)) as [|l [|]]; try discriminate.
  apply bind_ok in E. destruct E as (v & Ev & E). apply bind_ok in E. destruct E as (k & Ek & E).
  assert (A : forall x, In x (visual_nodes (v3_zero O) v ++ collision_nodes (v3_zero O) k) -> forall y, InvarianceSpec.within y x -> all_shaped y).
  { intros x Hx y Hy. apply in_app_or in Hx. destruct Hx as [Hx|Hx].
    - pose proof (leaf_within _ _ _ _ Hx Hy); subst. eapply visual_shaped; exact Hx.
    - pose proof (leaf_within' _ _ _ _ Hx Hy); subst. eapply collision_shaped; [|exact Ek|exact Hx]. exact W. }
  destruct (visual_nodes (v3_zero O) v ++ collision_nodes (v3_zero O) k) as [|x xs] eqn:Ex; [discriminate|].
  injection E as <-. inversion H; subst; [exact Logic.I|]. eauto.
Qed.

Theorem run_shaped : forall order, (forall m, Permutation (order m) m) -> forall fuel c nodes text ps es, file_text (cf_map c) text -> load p text = Ok (ps, es) ->
  (forall gs, build_geometry O (cf_textures c) es = Ok gs -> forall e g, In (e, g) (combine es gs) -> Forall B (eg_brushes g)) ->
  run p order fuel c = Ok nodes -> forall m n, In m nodes -> InvarianceSpec.within n m -> all_shaped n.
Proof.
  intros order P fuel c nodes text ps es Ft El Made E m n I H. rewrite run_split in E. apply read_ok in Ft. rewrite Ft in E. cbn [bind] in E. rewrite El in E. cbn [bind] in E.
  apply bind_ok in E. destruct E as (gs & Eg & E). apply bind_ok in E. destruct E as ([data layers] & Ef & E).
  destruct (filtered_fine B _ _ _ (Made gs Eg) Ef) as (Wd & Wl).
  unfold build_scene in E. apply bind_ok in E. destruct E as (w & Ew & E). apply bind_ok in E. destruct E as (ls & Els & E).
  apply bind_ok in E. destruct E as (os & Eo & E). injection E as <-. apply mapM_ok in Ew, Els, Eo.
  apply in_app_or in I. destruct I as [I|I]; [|apply in_app_or in I; destruct I as [I|I]].
  - destruct (Forall2_in_r _ _ _ _ _ _ Ew I) as ([e g] & Hd & Ed). eapply entity_shaped; [exact Wd| |exact Ed|exact H].
    destruct data; [contradiction|]. destruct Hd as [->|[]]. now left.
  - apply filter_map_In in I. destruct I as (o & Io & ->). destruct (Forall2_in_r _ _ _ _ _ _ Els Io) as ([t bs] & Hd & Ed).
    eapply layer_shaped; [|exact Ed|exact H]. apply (Wl t). eapply Permutation_in; [apply P|exact Hd].
  - destruct (Forall2_in_r _ _ _ _ _ _ Eo I) as ([e g] & Hd & Ed). eapply entity_shaped; [exact Wd| |exact Ed|exact H].
    apply filter_In in Hd. destruct Hd as [Hd _]. destruct data; [contradiction|]. now right.
Qed.
End Origin.

(** ** Whole runs *)
Section Run.
Context (order : hmap (list (brush_geo f32)) -> list (str * list (brush_geo f32))) (permutes : forall m, Permutation (order m) m).
Context (fuel : nat) (c : config) (text : str) (d : doc) (nodes : list (node f32)).
Context (Ft : file_text (cf_map c) text) (Td : text_document p text d) (Gd : grid_document p d) (Er : run p order fuel c = Ok nodes).

Theorem shapes_filled : forall e b planes bd h, in_tree d e -> In b (doc_brushes e) -> Forall2 (reads_as p) b planes ->
  brush_class (cf_game c) e bd -> bd_collision bd = CConvex -> stays (cf_textures c) e planes -> plain_brush planes h ->
  exists n0 o shapes shape, In n0 nodes /\ InvarianceSpec.within (NCollision o (ColConvex shapes)) n0 /\ In shape shapes
    /\ fills (allowance h) (cx_points shape) (solid (map plane_of planes)).
Proof.
  intros e b planes bd h T Hb Hp (cl & k & q & Hc & Hk & Hd) Hm St PB. pose proof (tree_member d e T) as He.
  destruct (brush_found p order fuel c text d nodes Ft Td Er e b planes He Hb Hp) as (data & layers & y & g' & bg & Es & Lk & K & Iy & _ & _ & Id & Ff & Sy & _).
  destruct (planes_grid p d Gd e b planes He Hb Hp) as (G & L). specialize (Sy St). specialize (Lk T).
  destruct (linked_built p _ _ _ _ _ _ _ Es _ Lk) as (n0 & n & I0 & W & (fuel' & origin & En)). destruct g' as [ce bs]. cbn [eg_center eg_brushes] in *.
  destruct fuel' as [|fuel']; [discriminate|]. cbn [build_entity] in En. apply bind_ok in En. destruct En as (v & _ & En). apply bind_ok in En. destruct En as (kk & Ek & En).
  apply bind_ok in En. destruct En as (ch & _ & En). apply bind_ok in En. destruct En as (nm & _ & En). apply bind_ok in En. destruct En as (pr & _ & En). injection En as <-.
  destruct (find_def_defined (cf_game c) y k) as (c' & Hc' & Fd); [exists cl; split; [rewrite <- Hc; apply K|exact Hk]|]. unfold entity_collision in Ek. rewrite Hc', Fd, Hd, Hm in Ek.
  destruct (convex_made _ _ Ek) as (shapes & -> & M). cbn [eg_brushes eg_center] in *. destruct (Forall2_in_l _ _ _ _ _ _ M Sy) as (shape & Hs & Ms).
  exists n0, ce, shapes, shape. split; [exact I0|]. split.
  { eapply within_trans; [|exact W]. eapply WithinChild; [|constructor]. apply in_or_app. right. apply in_or_app. left. now left. }
  split; [exact Hs|]. eapply brush_filled; eassumption.
Qed.

Theorem shapes_layered : forall e b planes lay h, In e d -> In b (doc_brushes e) -> Forall2 (reads_as p) b planes -> planes <> [] ->
  KeptSpec.moved (cf_textures c) e planes (wl_texture lay) -> only_one (fun l => wl_texture l = wl_texture lay) (gd_layers (cf_game c)) lay ->
  wl_collision lay = CConvex -> plain_brush planes h ->
  exists n0 o shapes shape, In n0 nodes /\ InvarianceSpec.within (NCollision o (ColConvex shapes)) n0 /\ In shape shapes
    /\ fills (allowance h) (cx_points shape) (solid (map plane_of planes)).
Proof.
  intros e b planes lay h He Hb Hp Ne Mv On Hm PB.
  destruct (brush_found p order fuel c text d nodes Ft Td Er e b planes He Hb Hp) as (data & layers & y & g' & bg & Es & _ & _ & _ & _ & _ & _ & Ff & _ & My & _).
  destruct (planes_grid p d Gd e b planes He Hb Hp) as (G & L). destruct (My _ Mv Ne) as (bs & Ib & Ibg).
  assert (Io : In (wl_texture lay, bs) (order layers)) by (eapply Permutation_in; [apply Permutation_sym, permutes|exact Ib]).
  pose proof Es as Es'. unfold build_scene in Es'. apply bind_ok in Es'. destruct Es' as (w & _ & Es'). apply bind_ok in Es'. destruct Es' as (ls & Els & Es').
  apply bind_ok in Es'. destruct Es' as (os & _ & Es'). injection Es' as En. apply mapM_ok in Els.
  destruct (Forall2_in_l _ _ _ _ _ _ Els Io) as (r & Ir & Er'). unfold build_layer in Er'.
  assert (Fl : filter (fun l' => str_eqb (wl_texture l') (wl_texture lay)) (gd_layers (cf_game c)) = [lay]) by (apply layer_choice; exact On).
  rewrite Fl in Er'. apply bind_ok in Er'. destruct Er' as (v & _ & Er'). apply bind_ok in Er'. destruct Er' as (k & Ek & Er'). rewrite Hm in Ek.
  destruct (convex_made _ _ Ek) as (shapes & -> & M). cbn [eg_brushes] in M. destruct (Forall2_in_l _ _ _ _ _ _ M Ibg) as (shape & Hs & Ms).
  cbn [collision_nodes] in Er'. destruct (visual_nodes (v3_zero O) v ++ _) as [|x xs] eqn:Ex in Er'; [destruct (visual_nodes (v3_zero O) v); discriminate|]. injection Er' as <-.
  do 4 eexists. split; [rewrite <- En; apply in_or_app; right; apply in_or_app; left; apply filter_map_In; eexists; split; [exact Ir|reflexivity]|].
  split; [eapply WithinChild; [rewrite <- Ex; apply in_or_app; right; now left|constructor]|]. split; [exact Hs|]. eapply brush_filled; eassumption.
Qed.

(** No other shapes. *)
Theorem shapes_solid : forall n0 o shapes shape, In n0 nodes -> InvarianceSpec.within (NCollision o (ColConvex shapes)) n0 -> In shape shapes ->
  exists e planes, brush_of p d e planes /\ forall h, plain_brush planes h -> fills (allowance h) (cx_points shape) (solid (map plane_of planes)).
Proof.
  intros n0 o shapes shape I0 W Is.
  pose proof Er as Er'. rewrite run_split in Er'. pose proof Ft as Ft'. apply read_ok in Ft'. rewrite Ft' in Er'. cbn [bind] in Er'.
  apply bind_ok in Er'. destruct Er' as ([ps es] & El & _). pose proof (loaded_document p text d ps es Td El) as Ag.
  set (B := fun bg : brush_geo f32 => exists e b planes x, In e d /\ In b (doc_brushes e) /\ Forall2 (reads_as p) b planes
    /\ Forall2 (fun pl f => build_face O (cf_textures c) x planes pl = Ok f) planes (bg_faces bg)).
  assert (Made : forall gs, build_geometry O (cf_textures c) es = Ok gs -> forall e g, In (e, g) (combine es gs) -> Forall B (eg_brushes g)).
  { intros gs Eg e g Ie. apply geometry_shape in Eg. pose proof Ie as Ie'. apply in_combine_l in Ie'. apply (in_combine_Forall2 _ _ _ _ _ _ _ Eg) in Ie. destruct Ie as (Ie & _).
    destruct (Forall2_in_r _ _ _ _ _ _ Ag Ie') as (x & Hx & Px & Fx). apply Forall_forall. intros bg Hb.
    destruct (Forall2_in_r _ _ _ _ _ _ Ie Hb) as (br & Hbr & F & _). destruct (Forall2_in_r _ _ _ _ _ _ Fx Hbr) as (lb & Hlb & Fb).
    exists x, lb, br, e. auto. }
  pose proof (run_shaped B order permutes fuel c nodes text ps es Ft El Made Er n0 _ I0 W) as Sh. cbn [all_shaped] in Sh. rewrite Forall_forall in Sh.
  destruct (Sh shape Is) as (bg & (e & b & planes & x & He & Hb & Hp & Ff) & M). exists e, planes. split; [exists b; auto|]. intros h PB.
  destruct (planes_grid p d Gd e b planes He Hb Hp) as (G & L). eapply brush_filled; eassumption.
Qed.
End Run.
End Final.
