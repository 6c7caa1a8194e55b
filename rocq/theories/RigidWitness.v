(** A small map turned by an angle with cosine 3/5 and moved (C119). *)
From Coq Require Import Reals Lra.
From Verif Require Import Prelude F32 Text MapModel GeoModel LayerModel GameDataModel SceneModel GeoSpec RealSpec WindSpec RigidSpec
  BaseProofs GeoProofs RealProofs WindProofs WindWitness RigidProofs.
Local Open Scope R_scope.

Definition spin (a : vec3 R) : vec3 R := V3 (3 / 5 * vx a - 4 / 5 * vy a) (4 / 5 * vx a + 3 / 5 * vy a) (vz a).
Lemma spin_rotation : rotation spin.
Proof.
  unfold rotation, spin, along. repeat split; intros; try (apply v3_ext); unfold inner, outer; cbn [vx vy vz]; field.
Qed.
Definition far : vec3 R := V3 1 2 3.

(** The unit cube with the axes of its textures given. *)
Definition wrapped (o p q : vec3 R) : brush_plane R :=
  BrushPlane o (V3 (vx o + vx q) (vy o + vy q) (vz o + vz q)) (V3 (vx o + vx p) (vy o + vy p) (vz o + vz p)) (lit "brick") (UVValve p 8 q 4) 0 (V2 2 (/ 2)) ExNone.
Definition crate : list (brush_plane R) :=
  [wrapped e3 e1 e2; wrapped o0 e2 e1; wrapped e1 e2 e3; wrapped o0 e3 e2; wrapped e2 e3 e1; wrapped o0 e1 e3].
Definition digit (s : str) : option R :=
  if str_eqb s (lit "0") then Some 0 else if str_eqb s (lit "1") then Some 1 else if str_eqb s (lit "2") then Some 2 else if str_eqb s (lit "3") then Some 3 else None.
Definition lit_hall (origin : str) (b : list (brush_plane R)) : list (entity R) :=
  [Entity [(lit "classname", lit "worldspawn")] [b]; Entity [(lit "classname", lit "light"); (lit "origin", origin)] []].
Definition hall : list (entity R) := lit_hall (lit "0 0 0") crate.
Definition spun_hall : list (entity R) :=
  [Entity [(lit "classname", lit "worldspawn")] [map (carried_plane spin far) crate]; Entity [(lit "classname", lit "light"); (lit "origin", lit "1 2 3")] []].
Definition hall_game : game_data R :=
  GameData [EntityDef (lit "worldspawn") (DBrush (PointData (EClass (lit "Static")) CompNone ADictionary []) (BrushData VMesh CConcave))] [].

Lemma crate_norm : forall p, In p crate -> norm (facing p) = 1.
Proof.
  intros p I. rewrite <- sqrt_1. unfold norm. f_equal. cbn in I.
  repeat destruct I as [<-|I]; try contradiction; unfold facing, inner, outer, minus, wrapped; cbn; ring.
Qed.
Lemma hall_spun : Forall2 (carried_entity digit spin far) hall spun_hall.
Proof.
  constructor; [|constructor; [|constructor]].
  - split; [reflexivity|]. split; [reflexivity|]. left. repeat split. discriminate.
  - split; [reflexivity|]. split.
    + intros k N. cbn [e_props hget]. destruct (str_eqb k (lit "classname")); [reflexivity|].
      destruct (str_eqb k (lit "origin")) eqn:E; [|reflexivity]. apply str_eqb_eq in E. contradiction.
    + right. exists o0. split.
      * exists (lit "0"), (lit "0"), (lit "0"). split; [reflexivity|].
        repeat split; try reflexivity; intros I; cbn in I; repeat destruct I as [I|I]; try discriminate I; contradiction.
      * exists (lit "1"), (lit "2"), (lit "3"). split; [reflexivity|].
        repeat split; try (intros I; cbn in I; repeat destruct I as [I|I]; try discriminate I; contradiction).
        all: unfold digit, carry, along, spin, far, o0; cbn [vx vy vz]; cbn; f_equal; lra.
Qed.
Lemma hall_locked : forall e b pl, In e hall -> In b (e_brushes e) -> In pl b -> locked pl.
Proof.
  intros e b pl [<-|[<-|[]]] Ib Ip; cbn in Ib; [|contradiction]. destruct Ib as [<-|[]].
  cbn in Ip. repeat destruct Ip as [<-|Ip]; try contradiction; do 4 eexists; reflexivity.
Qed.

Section Exact.
Context (parse : str -> option R) (cosine radians : R -> R) (atan2 : R -> R -> R)
  (quat : vec3 R -> R -> vec3 R -> vec3 R) (mat2 : R -> vec2 R -> vec2 R).
Local Notation O := (real_num parse cosine radians atan2 quat mat2).

Ltac corner a b x := exists a, b; split; [cbn; tauto|]; split; [cbn; tauto|];
  repeat (split; [unfold proper; rewrite crate_norm by (cbn; tauto); lra|]);
  split; [unfold spans; rewrite !crate_norm by (cbn; tauto); unfold facing, inner, outer, minus, wrapped; cbn; lra|];
  repeat (split; [unfold on_plane, facing, inner, outer, minus, wrapped; cbn; lra|]);
  let q := fresh in let I := fresh in intros q I; unfold within; rewrite (crate_norm q I); cbn in I;
  repeat destruct I as [<-|I]; try contradiction; unfold facing, inner, outer, minus, wrapped; cbn; lra.

Lemma crate_face : forall tx e pl f, In pl crate -> build_face O tx e crate pl = Ok f -> f_vertices f <> [].
Proof.
  intros tx e pl f I E N.
  assert (C : exists x, In x (map vt_pos (f_vertices f))); [|rewrite N in C; destruct C as (x & [])].
  pose proof (fun x => proj2 (proj2 (real_corners _ _ _ _ _ _ _ _ _ _ _ E) x)) as K. clear N E.
  cbn in I. repeat destruct I as [<-|I]; try contradiction.
  - exists (V3 1 1 1). apply K. corner (wrapped e1 e2 e3) (wrapped e2 e3 e1) tt.
  - exists (V3 1 1 0). apply K. corner (wrapped e2 e3 e1) (wrapped e1 e2 e3) tt.
  - exists (V3 1 1 1). apply K. corner (wrapped e2 e3 e1) (wrapped e3 e1 e2) tt.
  - exists (V3 0 1 1). apply K. corner (wrapped e3 e1 e2) (wrapped e2 e3 e1) tt.
  - exists (V3 1 1 1). apply K. corner (wrapped e3 e1 e2) (wrapped e1 e2 e3) tt.
  - exists (V3 1 0 1). apply K. corner (wrapped e1 e2 e3) (wrapped e3 e1 e2) tt.
Qed.
Lemma hall_full : forall tx e b g, In e hall -> In b (e_brushes e) -> build_brush O tx e b = Ok g -> full g.
Proof.
  intros tx e b g Ie Ib. assert (b = crate) by (destruct Ie as [<-|[<-|[]]]; cbn in Ib; [destruct Ib as [<-|[]]; reflexivity|contradiction]). subst b.
  unfold build_brush. intros H. apply bind_ok in H. destruct H as (fs & Ef & H). apply ShiftProofs.ok_inj in H. subst g. split; cbn [bg_faces].
  - apply mapM_ok in Ef. intros ->. inversion Ef.
  - intros f If. apply mapM_ok in Ef. destruct (Forall2_in_r _ _ _ _ _ _ Ef If) as (pl & Ip & H). exact (crate_face _ _ _ _ Ip H).
Qed.

Lemma gather_total : forall r q s g, exists x, gather_entity O r q (Some s) g = Ok x.
Proof.
  intros r q s g. unfold gather_entity.
  assert (L : forall vs todo ix nix nv, (forall x, In x todo -> In (snd x) vs) -> exists y, filter_loop O s vs todo ix nix nv = Ok y).
  { intros vs todo. induction todo as [|[i v] todo IH]; intros ix nix nv H; [eexists; reflexivity|]. cbn [filter_loop].
    assert (H' : forall x, In x todo -> In (snd x) vs) by (intros x Ix; apply H; now right).
    destruct (s i v vs); [now apply IH|].
    assert (P : exists k, position (fun comp => same_position O comp v) vs = Some k).
    { specialize (H (i, v) (or_introl eq_refl)). cbn [snd] in H. clear -H. induction vs as [|a vs IH]; [contradiction|]. cbn [position].
      destruct (same_position O a v) eqn:E; [eexists; reflexivity|]. destruct H as [->|H].
      - unfold same_position in E. rewrite (proj2 (eqb_iff _ _ _ _ _ _ (vt_pos v) (vt_pos v)) eq_refl) in E. discriminate.
      - destruct (IH H) as (k & ->). eexists; reflexivity. }
    destruct P as (k & ->). cbn [unwrap bind]. now apply IH. }
  assert (V : forall vs ix, exists y, filter_vertices O vs ix s = Ok y).
  { intros vs ix. unfold filter_vertices. destruct (L vs (enumerate vs) ix [] []) as ([[a b] c] & ->); [|eexists; reflexivity].
    unfold enumerate. generalize 0%nat. intros n x Ix. assert (G : forall (l : list (vertex R)) n, In x (enumerate_from n l) -> In (snd x) l); [|eauto].
    clear. induction l as [|a l IH]; intros n H; [contradiction|]. destruct H as [<-|H]; [now left|right; eauto]. }
  assert (B : forall bs, exists ps, mapM (gather_brush O q (Some s)) bs = Ok ps).
  { induction bs as [|b bs (ps & IH)]; [eexists; reflexivity|]. cbn [mapM]. unfold gather_brush at 1. cbv zeta.
    destruct (V (flat_map f_vertices (filter q (bg_faces b))) (concat_indices 0 (map (fun f => (f_vertices f, f_indices f)) (filter q (bg_faces b))))) as (y & ->).
    cbn [bind]. rewrite IH. eexists; reflexivity. }
  destruct (B (filter r (eg_brushes g))) as (ps & ->). eexists; reflexivity.
Qed.
Lemma surface_total : forall g bl x, exists s, texture_surface O g bl x = Ok s.
Proof. intros g bl x. unfold texture_surface. destruct (gather_total (brush_not_blacklisted bl) (has_texture x) (unique O) g) as ([vs ix] & ->). eexists; reflexivity. Qed.

Lemma any_hall_built : forall origin (br : list (brush_plane R)) tx, exists nodes, exact_scene O 1 hall_game (ForgeData [] [] []) (Blacklist [] []) tx (lit_hall origin br) = Ok nodes.
Proof.
  intros origin br tx. unfold exact_scene.
  assert (B : forall e b, exists g, build_brush O tx e b = Ok g).
  { intros e b. unfold build_brush. assert (F : forall l, exists fs, mapM (build_face O tx e b) l = Ok fs).
    { induction l as [|pl l (fs & IH)]; [eexists; reflexivity|]. cbn [mapM]. destruct (real_total parse cosine radians atan2 quat mat2 tx e b pl) as (f & ->). rewrite IH. eexists; reflexivity. }
    destruct (F b) as (fs & ->). eexists; reflexivity. }
  assert (G : exists g g2, build_geometry O tx (lit_hall origin br) = Ok [g; g2]).
  { unfold build_geometry, lit_hall. cbn [mapM]. unfold build_entity_geo. cbn [e_brushes mapM]. destruct (B (Entity [(lit "classname", lit "worldspawn")] [br]) br) as (g & ->).
    cbn [bind]. do 2 eexists. reflexivity. }
  destruct G as (g & g2 & ->). cbn [bind combine lit_hall]. unfold layer_filter. rewrite LayerProofs.partition_filter.
  change (filter is_worldspawn _) with [(Entity [(lit "classname", lit "worldspawn")] [br], g)].
  change (filter (fun x => negb (is_worldspawn x)) _) with [(Entity [(lit "classname", lit "light"); (lit "origin", origin)] [] : entity R, g2)].
  cbv beta iota. rewrite LayerProofs.layers_split. cbn [bind]. unfold build_scene. cbn [firstn tl].
  set (w := Entity [(lit "classname", lit "worldspawn")] [br]). set (li := Entity [(lit "classname", lit "light"); (lit "origin", origin)] []).
  set (gw := EntityGeo _ _). clearbody gw. cbn [mapM].
  assert (W : exists n, build_entity O 1 hall_game (ForgeData [] [] []) (Blacklist [] []) [(w, gw); (li, g2)] (v3_zero O) (w, gw) = Ok n).
  { cbn [build_entity]. unfold entity_visual, entity_collision. change (get_property w (lit "classname")) with (Some (lit "worldspawn")).
    change (find_def hall_game (lit "worldspawn")) with (Some (EntityDef (T := R) (lit "worldspawn") (DBrush (PointData (EClass (lit "Static")) CompNone ADictionary []) (BrushData VMesh CConcave)))).
    cbn [ed_data]. unfold brush_visual, collision_of. cbn [bd_visual bd_collision].
    assert (Sm : forall l, exists ss, mapM (texture_surface O gw (Blacklist [] [])) l = Ok ss).
    { induction l as [|x l (ss & IH)]; [eexists; reflexivity|]. cbn [mapM]. destruct (surface_total gw (Blacklist [] []) x) as (s & ->). rewrite IH. eexists; reflexivity. }
    match goal with |- context [mapM (texture_surface O gw (Blacklist [] [])) ?l] => destruct (Sm l) as (ss & ->) end. cbn [bind].
    assert (Vv : exists v, match filter_map (fun o => o) ss with [] => Ok VisNone | l => Ok (VisMesh l) end = Ok v) by (destruct (filter_map (fun o => o) ss); eexists; reflexivity).
    destruct Vv as (v & ->). cbn [bind]. unfold concave_collision. destruct (gather_total (fun _ => true) (fun _ => true) (unique_position O) gw) as ([vs ix] & ->). cbn [bind].
    change (filter _ (tl [(w, gw); (li, g2)])) with (@nil (entity R * entity_geo R)). cbn [mapM bind unwrap].
    change (get_properties O (ForgeData [] [] []) w) with (Ok (A := properties R) []). eexists; reflexivity. }
  destruct W as (n & ->). cbn [bind]. change (filter _ [(li, g2)]) with [(li, g2)].
  cbn [mapM build_layer gd_layers hall_game filter bind].
  change (build_entity O 1 hall_game (ForgeData [] [] []) (Blacklist [] []) [(w, gw); (li, g2)] (v3_zero O) (li, g2)) with
    (Ok (A := node R) (NActor (v3_add O (v3_zero O) (eg_center g2)) (Actor (lit "light") EPlaceholder None AProperties []) [])).
  eexists; reflexivity.
Qed.
Lemma lit_hall_built : forall origin tx, exists nodes, exact_scene O 1 hall_game (ForgeData [] [] []) (Blacklist [] []) tx (lit_hall origin crate) = Ok nodes.
Proof. intros origin tx. exact (any_hall_built origin crate tx). Qed.
Lemma hall_built : forall tx, exists nodes, exact_scene O 1 hall_game (ForgeData [] [] []) (Blacklist [] []) tx hall = Ok nodes.
Proof. exact (lit_hall_built _). Qed.
End Exact.
