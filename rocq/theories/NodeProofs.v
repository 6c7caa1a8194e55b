(** Actors, layers and the whole scene (C25 to C29, C38 to C40). *)
From Coq Require Import Permutation.
From Verif Require Import Prelude F32 Text MapModel GeoModel LayerModel GameDataModel SceneModel
  GatherSpec SurfaceSpec TreeSpec BaseProofs GatherProofs SurfaceProofs TreeProofs.

Lemma find_first : forall A (f : A -> bool) P l, (forall x, f x = true <-> P x) ->
  match find f l with
  | Some x => first_with P l x
  | None => forall x, In x l -> ~ P x
  end.
Proof.
  intros A f P l H. induction l as [|a l IH]; simpl; [contradiction|]. destruct (f a) eqn:E.
  - exists [], l. split; [reflexivity|]. split; [now apply H|contradiction].
  - assert (Na : ~ P a) by (rewrite <- H; congruence). destruct (find f l) as [x|].
    + destruct IH as (l1 & l2 & -> & Px & N). exists (a :: l1), l2. split; [reflexivity|]. split; [exact Px|].
      intros y [<-|Hy]; auto.
    + intros x [<-|Hx]; auto.
Qed.

Lemma first_with_unique : forall A (P : A -> Prop) l x y, first_with P l x -> first_with P l y -> x = y.
Proof.
  intros A P l x y (l1 & l2 & E & Px & N) (k1 & k2 & E' & Py & N'). subst l. revert k1 E' N'.
  induction l1 as [|a l1 IH]; intros [|b k1] E' N'; simpl in *; inv E'; auto.
  - exfalso. eapply N'; [left; reflexivity|assumption].
  - exfalso. eapply N; [left; reflexivity|assumption].
  - eapply IH; [intros; apply N; auto|eassumption|intros; apply N'; auto].
Qed.

Lemma filter_single : forall A (f : A -> bool) P l x, (forall y, f y = true <-> P y) ->
  filter f l = [x] <-> only_one P l x.
Proof.
  intros A f P l x H. split.
  - induction l as [|a l IH]; simpl; [discriminate|]. destruct (f a) eqn:E.
    + intros K. inv K. exists [], l. split; [reflexivity|]. split; [now apply H|]. split; [contradiction|].
      intros y Hy Py. apply H in Py. assert (I : In y (filter f l)) by (apply filter_In; auto).
      match goal with K : filter f l = [] |- _ => rewrite K in I end. contradiction.
    + intros K. destruct (IH K) as (l1 & l2 & -> & Px & N1 & N2). exists (a :: l1), l2. repeat split; auto.
      intros y [<-|Hy]; [rewrite <- H; congruence|auto].
  - assert (Nil : forall k, (forall y, In y k -> ~ P y) -> filter f k = []).
    { induction k as [|a k IH]; simpl; intros N; [reflexivity|]. destruct (f a) eqn:E.
      - exfalso. apply (N a); [auto|now apply H].
      - apply IH. auto. }
    intros (l1 & l2 & -> & Px & N1 & N2). rewrite filter_app. simpl. apply H in Px. rewrite Px, !Nil; auto.
Qed.

Section Node.
Context {T : Type} (O : num T) (gd : game_data T) (fd : forge_data T) (bl : blacklist).
Context (data : list (entity T * entity_geo T)).

Lemma find_def_spec : forall c,
  match find_def gd c with
  | Some d => first_with (fun d => ed_classname d = c) (gd_entities gd) d
  | None => forall d, In d (gd_entities gd) -> ed_classname d <> c
  end.
Proof.
  intros c. unfold find_def.
  exact (find_first _ (fun d => str_eqb (ed_classname d) c) (fun d => ed_classname d = c) (gd_entities gd) (fun x => str_eqb_eq _ _)).
Qed.

Lemma find_def_defined : forall e d, defined_by gd e d ->
  exists c, get_property e (lit "classname") = Some c /\ find_def gd c = Some d.
Proof.
  intros e d (c & Hc & F). exists c. split; [exact Hc|]. pose proof (find_def_spec c) as S.
  destruct (find_def gd c) as [d'|]; [f_equal; eapply first_with_unique; eauto|].
  destruct F as (l1 & l2 & E & Pd & _). exfalso. apply (S d); [rewrite E; apply in_or_app; simpl; auto|exact Pd].
Qed.

Lemma find_def_undefined : forall e c, undefined gd e -> get_property e (lit "classname") = Some c -> find_def gd c = None.
Proof.
  intros e c U Hc. pose proof (find_def_spec c) as S. destruct (find_def gd c) as [d|]; [|reflexivity].
  destruct S as (l1 & l2 & E & Pd & _). exfalso. apply (U d c); [rewrite E; apply in_or_app; simpl; auto|exact Hc|exact Pd].
Qed.

Lemma nodes_of : forall c (v : visual T) k, geometry_nodes_of c v k (visual_nodes c v ++ collision_nodes c k).
Proof.
  intros c v k. exists (visual_nodes c v), (collision_nodes c k). split; [reflexivity|]. split.
  - destruct v; [left|right]; repeat split; discriminate.
  - destruct k; [left|right|right]; repeat split; discriminate.
Qed.

Lemma build_entity_inv : forall fuel origin e g n, build_entity O fuel gd fd bl data origin (e, g) = Ok n ->
  exists fuel' c v k children props, fuel = S fuel' /\ get_property e (lit "classname") = Some c
    /\ entity_visual O gd bl e g = Ok v /\ entity_collision O gd e g = Ok k
    /\ mapM (build_entity O fuel' gd fd bl data (v3_neg O (eg_center g))) (filter (fun x => is_child e (fst x)) (tl data)) = Ok children
    /\ get_properties O fd e = Ok props
    /\ n = NActor (v3_add O origin (eg_center g))
            (Actor c (get_entity_type gd e) (get_component_class gd e) (get_application_type gd e) props)
            ((visual_nodes (eg_center g) v ++ collision_nodes (eg_center g) k) ++ children).
Proof.
  intros [|fuel] origin e g n E; [discriminate|]. cbn [build_entity] in E.
  apply bind_ok in E. destruct E as (v & Ev & E). apply bind_ok in E. destruct E as (k & Ek & E).
  apply bind_ok in E. destruct E as (ch & Ech & E). apply bind_ok in E. destruct E as (name & En & E).
  apply bind_ok in E. destruct E as (props & Epr & E). apply unwrap_ok in En. injection E as <-.
  exists fuel, name, v, k, ch, props. rewrite app_assoc. repeat split; auto.
Qed.

Lemma build_entity_actor : forall fuel origin d n, build_entity O fuel gd fd bl data origin d = Ok n -> is_actor n.
Proof.
  intros fuel origin [e g] n E. destruct (build_entity_inv _ _ _ _ _ E) as (f & c & v & k & ch & pr & H).
  destruct H as (_ & _ & _ & _ & _ & _ & ->). unfold is_actor. simpl. auto.
Qed.

Theorem actor_definition : forall fuel origin e g n, build_entity O fuel gd fd bl data origin (e, g) = Ok n ->
  exists o a children, n = NActor o a children
    /\ hget (e_props e) (lit "classname") = Some (a_name a)
    /\ (forall d, defined_by gd e d -> a_type a = pd_type (point_part d)
          /\ a_component a = component_name (pd_component (point_part d))
          /\ a_application a = pd_application (point_part d))
    /\ (undefined gd e -> a_type a = EPlaceholder /\ a_component a = None /\ a_application a = AProperties).
Proof.
  intros fuel origin e g n E. destruct (build_entity_inv _ _ _ _ _ E) as (f & c & v & k & ch & pr & _ & Hc & _ & _ & _ & _ & ->).
  do 3 eexists. split; [reflexivity|]. split; [exact Hc|]. cbn [a_type a_component a_application].
  unfold get_entity_type, get_component_class, get_application_type, entity_point. split.
  - intros d D. destruct (find_def_defined e d D) as (c' & Hc' & F). rewrite Hc', F. simpl.
    unfold def_point, point_part. destruct (ed_data d); repeat split.
  - intros U. rewrite Hc, (find_def_undefined e c U Hc). repeat split.
Qed.

Theorem actor_geometry : forall fuel origin e g n, build_entity O fuel gd fd bl data origin (e, g) = Ok n ->
  exists o a geometry actors, n = NActor o a (geometry ++ actors) /\ Forall is_actor actors
    /\ (undefined gd e -> geometry = [])
    /\ (forall d, defined_by gd e d ->
          match ed_data d with
          | DPoint _ => geometry = []
          | DBrush _ bd => exists v k, brush_visual O e g bd bl = Ok v /\ collision_of O (bd_collision bd) g = Ok k
              /\ geometry_nodes_of (eg_center g) v k geometry
          end).
Proof.
  intros fuel origin e g n E. destruct (build_entity_inv _ _ _ _ _ E) as (f & c & v & k & ch & pr & _ & Hc & Ev & Ek & M & _ & ->).
  do 4 eexists. split; [reflexivity|]. split; [|split].
  - apply mapM_ok in M. apply Forall_forall. intros x Hx. destruct (Forall2_in_r _ _ _ _ _ _ M Hx) as (d & _ & Ed).
    eapply build_entity_actor; eauto.
  - intros U. unfold entity_visual, entity_collision in *. rewrite Hc, (find_def_undefined e c U Hc) in *.
    injection Ev as <-. injection Ek as <-. reflexivity.
  - intros d D. destruct (find_def_defined e d D) as (c' & Hc' & F). unfold entity_visual, entity_collision in *.
    rewrite Hc', F in *. destruct (ed_data d).
    + injection Ev as <-. injection Ek as <-. reflexivity.
    + exists v, k. split; [exact Ev|]. split; [exact Ek|]. apply nodes_of.
Qed.

Theorem actor_no_class : forall fuel origin e g, hget (e_props e) (lit "classname") = None ->
  exists w, build_entity O (S fuel) gd fd bl data origin (e, g) = Panic w.
Proof.
  intros fuel origin e g H. cbn [build_entity]. unfold entity_visual. unfold get_property. rewrite H. eexists. reflexivity.
Qed.

(** ** Layers *)
Lemma only_one_unique : forall A (P : A -> Prop) l x y, only_one P l x -> only_one P l y -> x = y.
Proof.
  intros A P l x y (l1 & l2 & E & Px & N1 & N2) (k1 & k2 & E' & Py & N3 & N4).
  apply (first_with_unique _ P l); [exists l1, l2|exists k1, k2]; auto.
Qed.

Lemma layer_choice : forall t l,
  filter (fun l => str_eqb (wl_texture l) t) (gd_layers gd) = [l] <-> only_one (fun l => wl_texture l = t) (gd_layers gd) l.
Proof. intros t l. apply (filter_single _ (fun l => str_eqb (wl_texture l) t)). intros y. apply str_eqb_eq. Qed.

Theorem layer_node : forall t bs n, build_layer O gd (t, bs) = Ok (Some n) ->
  exists l children, only_one (fun l => wl_texture l = t) (gd_layers gd) l
    /\ children <> [] /\ Forall geometry_node children
    /\ n = NActor (v3_zero O) (Actor (wl_name l) (wl_type l) (component_name (wl_component l)) AProperties []) children.
Proof.
  intros t bs n E. unfold build_layer in E.
  destruct (filter _ (gd_layers gd)) as [|l [|]] eqn:F; try discriminate. apply layer_choice in F.
  apply bind_ok in E. destruct E as (v & Ev & E). apply bind_ok in E. destruct E as (k & Ek & E).
  exists l, (visual_nodes (v3_zero O) v ++ collision_nodes (v3_zero O) k). split; [exact F|].
  assert (G : Forall geometry_node (visual_nodes (v3_zero O) v ++ collision_nodes (v3_zero O) k))
    by (destruct v, k; simpl; repeat constructor).
  destruct (visual_nodes (v3_zero O) v ++ collision_nodes (v3_zero O) k) as [|c ch]; [discriminate|].
  split; [discriminate|]. split; [exact G|]. now injection E as <-.
Qed.

Theorem layer_geometry : forall t bs n, build_layer O gd (t, bs) = Ok (Some n) ->
  exists l v k children, only_one (fun l => wl_texture l = t) (gd_layers gd) l
    /\ collision_of O (wl_collision l) (EntityGeo (v3_zero O) bs) = Ok k
    /\ match wl_visual l with
       | VNone => v = VisNone
       | VMesh => exists os, texture_surface O (EntityGeo (v3_zero O) bs) (Blacklist [] []) (Some t) = Ok os
                    /\ v = match os with Some s => VisMesh [s] | None => VisNone end
       end
    /\ geometry_nodes_of (v3_zero O) v k children
    /\ exists a, n = NActor (v3_zero O) a children.
Proof.
  intros t bs n E. unfold build_layer in E.
  destruct (filter _ (gd_layers gd)) as [|l [|]] eqn:F; try discriminate. apply layer_choice in F.
  apply bind_ok in E. destruct E as (v & Ev & E). apply bind_ok in E. destruct E as (k & Ek & E).
  exists l, v, k, (visual_nodes (v3_zero O) v ++ collision_nodes (v3_zero O) k).
  split; [exact F|]. split; [exact Ek|]. split; [|split; [apply nodes_of|]].
  - unfold layer_visual in Ev. destruct (wl_visual l); [now injection Ev|].
    apply bind_ok in Ev. destruct Ev as (os & Eo & Ev). exists os. split; [exact Eo|]. now injection Ev.
  - destruct (visual_nodes (v3_zero O) v ++ collision_nodes (v3_zero O) k) as [|c ch]; [discriminate|].
    injection E as <-. eauto.
Qed.

Context (laws : eq_laws O).

Lemma drawn_default : forall (b : brush_geo T) f, In f (bg_faces b) -> drawn_brush blacklist_default b = true.
Proof.
  intros b f H. unfold drawn_brush. apply existsb_exists. exists f. split; [exact H|]. unfold drawn_face.
  destruct (f_texture f) as [t|]; [|reflexivity]. unfold listed. simpl. reflexivity.
Qed.

Lemma has_corner_dec : forall (P : face T -> Prop) (q : face T -> bool) bs, (forall f, q f = true <-> P f) ->
  has_corner P bs \/ (forall b f, In b bs -> In f (bg_faces b) -> P f -> f_vertices f = []).
Proof.
  intros P q bs Q.
  destruct (existsb (fun b => existsb (fun f => q f && negb (Nat.eqb (length (f_vertices f)) 0)) (bg_faces b)) bs) eqn:X.
  - left. apply existsb_exists in X. destruct X as (b & Hb & X). apply existsb_exists in X. destruct X as (f & Hf & X).
    apply andb_prop in X. destruct X as [X1 X2]. apply Q in X1. exists b, f. repeat split; auto.
    intros K. rewrite K in X2. discriminate.
  - right. intros b f Hb Hf Pf. destruct (f_vertices f) as [|w ws] eqn:Ef; [reflexivity|].
    assert (X' : existsb (fun b => existsb (fun f => q f && negb (Nat.eqb (length (f_vertices f)) 0)) (bg_faces b)) bs = true).
    { apply existsb_exists. exists b. split; [exact Hb|]. apply existsb_exists. exists f. split; [exact Hf|].
      apply andb_true_intro. split; [now apply Q|]. now rewrite Ef. }
    congruence.
Qed.

Lemma has_corner_none : forall (P : face T -> Prop) bs,
  (forall b f, In b bs -> In f (bg_faces b) -> P f -> f_vertices f = []) <-> ~ has_corner P bs.
Proof.
  intros P bs. split.
  - intros N (b & f & Hb & Hf & Pf & Hv). apply Hv. eauto.
  - intros N b f Hb Hf Pf. destruct (f_vertices f) as [|w ws] eqn:Ef; [reflexivity|]. exfalso. apply N.
    exists b, f. rewrite Ef. repeat split; auto. discriminate.
Qed.

Theorem layer_present : forall t bs, geometry_in_bounds (EntityGeo (v3_zero O) bs) ->
  exists r, build_layer O gd (t, bs) = Ok r
    /\ (r <> None <-> exists l, only_one (fun l => wl_texture l = t) (gd_layers gd) l /\ layer_draws l bs).
Proof.
  intros t bs H. unfold build_layer.
  destruct (filter (fun l => str_eqb (wl_texture l) t) (gd_layers gd)) as [|l [|l' ls]] eqn:F.
  - exists None. split; [reflexivity|]. split; [congruence|]. intros (l & O1 & _). apply layer_choice in O1. congruence.
  - apply layer_choice in F.
    assert (Tx : wl_texture l = t) by (destruct F as (l1 & l2 & _ & Pl & _); exact Pl).
    set (g := EntityGeo (v3_zero O) bs) in *.
    assert (V : exists v, layer_visual O l t bs = Ok v
      /\ (v <> VisNone <-> wl_visual l = VMesh /\ has_corner (fun f => f_texture f = Some (wl_texture l)) bs)).
    { unfold layer_visual. destruct (wl_visual l); [exists VisNone; split; [reflexivity|split; [congruence|intros [? _]; discriminate]]|].
      fold g. destruct (surface_total O laws g blacklist_default (Some t) H) as (os & Es). rewrite Es. cbn [bind].
      eexists. split; [reflexivity|]. pose proof (surface_absent O laws g blacklist_default (Some t) os H Es) as A.
      assert (P : (forall f, In f (selected_faces (drawn_brush blacklist_default) (with_texture (Some t)) g) -> f_vertices f = [])
        <-> ~ has_corner (fun f => f_texture f = Some (wl_texture l)) bs).
      { rewrite Tx. split.
        - intros N (b & f & Hb & Hf & Ht & Hv). apply Hv, N. unfold selected_faces. apply in_flat_map. exists b. split.
          + apply filter_In. split; [exact Hb|eapply drawn_default; eauto].
          + apply filter_In. split; [exact Hf|]. now apply with_texture_true.
        - intros N f Hf. unfold selected_faces in Hf. apply in_flat_map in Hf. destruct Hf as (b & Hb & Hf).
          apply filter_In in Hb. apply filter_In in Hf. destruct Hb as [Hb _]. destruct Hf as [Hf Ht].
          apply with_texture_true in Ht. destruct (f_vertices f) as [|w ws] eqn:Ef; [reflexivity|]. exfalso. apply N.
          exists b, f. rewrite Ef. repeat split; auto. discriminate. }
      rewrite P in A. destruct os as [s|].
      - split; [intros _|discriminate]. split; [reflexivity|].
        destruct (has_corner_dec (fun f => f_texture f = Some (wl_texture l)) _ bs (with_texture_true (Some (wl_texture l)))) as [D|D]; [exact D|].
        apply has_corner_none in D. apply A in D. discriminate.
      - split; [congruence|]. intros [_ D]. exfalso. now apply A. }
    assert (K : exists k, collision_of O (wl_collision l) g = Ok k
      /\ (k <> ColNone <-> wl_collision l = CConvex \/ (wl_collision l = CConcave /\ has_corner (fun _ => True) bs))).
    { destruct (wl_collision l); simpl.
      - exists ColNone. split; [reflexivity|]. split; [congruence|]. intros [?|[? _]]; discriminate.
      - eexists. split; [reflexivity|]. split; [intros _; auto|discriminate].
      - destruct (concave_full O laws g H) as (kept & vs & ix & E & F2 & Vs & _ & Em). exists (match vs with [] => ColNone | _ => ColConcave [Concave (eg_center g) vs ix] end).
        split; [exact E|]. destruct (has_corner_dec (fun _ => True) (fun _ => true) bs) as [D|D]; [tauto| |].
        + split; [intros _; auto|]. intros _ K. destruct D as (b & f & Hb & Hf & _ & Hn). apply Hn, (proj1 Em) with (b := b); auto.
          destruct vs; [reflexivity|discriminate].
        + assert (vs = []) as -> by (apply Em; intros; eapply D; eauto). split; [congruence|].
          intros [?|[_ K]]; [discriminate|]. now apply has_corner_none in K. }
    destruct V as (v & Ev & Hv). destruct K as (k & Ek & Hk). rewrite Ev, Ek. cbn [bind].
    assert (Iff : (v <> VisNone \/ k <> ColNone) <-> layer_draws l bs) by (unfold layer_draws; tauto).
    exists (match visual_nodes (v3_zero O) v ++ collision_nodes (v3_zero O) k with [] => None | ch =>
       Some (NActor (v3_zero O) (Actor (wl_name l) (wl_type l) (script_of (wl_component l)) AProperties []) ch) end).
    split; [destruct v, k; reflexivity|].
    assert (Step : (exists l0, only_one (fun l => wl_texture l = t) (gd_layers gd) l0 /\ layer_draws l0 bs) <-> layer_draws l bs).
    { split; [intros (l0 & O0 & D); rewrite (only_one_unique _ _ _ _ _ F O0); exact D|intros D; eauto]. }
    rewrite Step, <- Iff. destruct v, k; simpl; intuition congruence.
  - exists None. split; [reflexivity|]. split; [congruence|]. intros (l0 & O1 & _). apply layer_choice in O1. congruence.
Qed.
End Node.
