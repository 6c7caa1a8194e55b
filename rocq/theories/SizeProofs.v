(** The size of what is built: lemmas for C126. *)
From Coq Require Import Permutation Lia.
From Verif Require Import Prelude F32 Text MapModel GeoModel LayerModel GameDataModel SceneModel RunModel
  GatherSpec GeoSpec LayerSpec DiffSpec TreeSpec MapSpec Utf8Spec RunSpec SizeSpec
  BaseProofs GeoProofs GeoFinal GatherProofs SurfaceProofs LayerProofs NodeProofs TreeProofs RunProofs.

(** ** Sums *)
Lemma sum_le : forall A (f g : A -> nat) l, (forall x, In x l -> f x <= g x) -> list_sum (map f l) <= list_sum (map g l).
Proof.
  intros A f g l H. induction l as [|x l IH]; cbn; [lia|]. pose proof (H x (or_introl eq_refl)). assert (list_sum (map f l) <= list_sum (map g l)) by (apply IH; intros; apply H; now right). unfold list_sum in *. lia.
Qed.
Lemma sum_pairs : forall A B (f : A -> nat) (g : B -> nat) l m, Forall2 (fun a b => f a <= g b) l m -> list_sum (map f l) <= list_sum (map g m).
Proof. intros A B f g l m H. induction H; cbn; [lia|]. unfold list_sum in *. lia. Qed.
Lemma sum_app : forall A (f : A -> nat) l m, list_sum (map f (l ++ m)) = list_sum (map f l) + list_sum (map f m).
Proof. intros A f l m. now rewrite map_app, list_sum_app. Qed.
Lemma sum_flat : forall A B (f : B -> nat) (h : A -> list B) l, list_sum (map f (flat_map h l)) = list_sum (map (fun a => list_sum (map f (h a))) l).
Proof. intros A B f h l. induction l as [|x l IH]; [reflexivity|]. cbn [flat_map]. rewrite sum_app, IH. reflexivity. Qed.
Lemma sum_filter : forall A (f : A -> nat) q l, list_sum (map f (filter q l)) + list_sum (map f (filter (fun x => negb (q x)) l)) = list_sum (map f l).
Proof. intros A f q l. induction l as [|x l IH]; [reflexivity|]. cbn. destruct (q x); cbn; unfold list_sum in *; lia. Qed.
Lemma sum_filter_le : forall A (f : A -> nat) q l, list_sum (map f (filter q l)) <= list_sum (map f l).
Proof. intros A f q l. pose proof (sum_filter A f q l). lia. Qed.
Lemma sum_const : forall A c (l : list A), list_sum (map (fun _ => c) l) = c * length l.
Proof. intros A c l. induction l as [|x l IH]; cbn; [lia|]. unfold list_sum in *. rewrite IH. lia. Qed.
Lemma sum_perm : forall A (f : A -> nat) l m, Permutation l m -> list_sum (map f l) = list_sum (map f m).
Proof. intros A f l m P. induction P; cbn; unfold list_sum in *; lia. Qed.
Lemma sum_cons : forall A (f : A -> nat) x l, list_sum (map f (x :: l)) = f x + list_sum (map f l).
Proof. reflexivity. Qed.
Lemma sum_add : forall A (f g : A -> nat) l, list_sum (map (fun x => f x + g x) l) = list_sum (map f l) + list_sum (map g l).
Proof. intros A f g l. induction l as [|x l IH]; [reflexivity|]. rewrite !sum_cons, IH. lia. Qed.
Lemma sum_mul : forall A c (f : A -> nat) l, list_sum (map (fun x => c * f x) l) = c * list_sum (map f l).
Proof. intros A c f l. induction l as [|x l IH]; [cbn; lia|]. rewrite !sum_cons, IH. lia. Qed.
Lemma flat_length : forall A B (h : A -> list B) l, length (flat_map h l) = list_sum (map (fun a => length (h a)) l).
Proof. intros A B h l. induction l as [|x l IH]; [reflexivity|]. cbn [flat_map]. rewrite app_length, IH. reflexivity. Qed.
Lemma filter_map_length : forall A B (f : A -> option B) l, length (filter_map f l) <= length l.
Proof. intros A B f l. induction l as [|x l IH]; cbn; [lia|]. destruct (f x); cbn; lia. Qed.
Lemma filter_length_le : forall A q (l : list A), length (filter q l) <= length l.
Proof. intros A q l. induction l as [|x l IH]; cbn; [lia|]. destruct (q x); cbn; lia. Qed.

Lemma Forall2_turned : forall A B (R : A -> B -> Prop) l m, Forall2 R l m -> Forall2 (fun b a => R a b) m l.
Proof. intros A B R l m H. induction H; constructor; auto. Qed.

(** Disjoint selections take no more than the whole. *)
Lemma sum_parts : forall A B (eqb : B -> A -> bool) (f : A -> nat) ks l,
  (forall a k k', eqb k a = true -> eqb k' a = true -> k = k') -> NoDup ks ->
  list_sum (map (fun k => list_sum (map f (filter (eqb k) l))) ks) <= list_sum (map f l).
Proof.
  intros A B eqb f ks l U. revert l. induction ks as [|k ks IH]; intros l N; [cbn; lia|]. inversion N as [|? ? Nk N']; subst.
  rewrite sum_cons. rewrite <- (sum_filter _ f (eqb k) l). specialize (IH (filter (fun x => negb (eqb k x)) l) N').
  assert (E : list_sum (map (fun k' => list_sum (map f (filter (eqb k') l))) ks)
    = list_sum (map (fun k' => list_sum (map f (filter (eqb k') (filter (fun x => negb (eqb k x)) l)))) ks)); [|lia].
  f_equal. apply map_ext_in. intros k' Hk. f_equal. f_equal. clear - U Nk Hk. induction l as [|a l IH]; [reflexivity|]. cbn [filter].
  destruct (eqb k' a) eqn:Ek'; destruct (eqb k a) eqn:Ek; cbn [negb filter]; rewrite ?Ek', ?IH; try reflexivity.
  exfalso. rewrite (U a k k' Ek Ek') in Nk. contradiction.
Qed.

(** ** Faces *)
Section Faces.
Context {T : Type} (O : num T).

Lemma unique_vertices_length : forall phong vs, length (unique_vertices O phong vs) <= length vs.
Proof. intros phong vs. induction vs as [|v vs IH]; cbn; [lia|]. destruct (existsb _ vs); cbn; lia. Qed.
Lemma fan_length : forall n, length (fan n) = 3 * (n - 2).
Proof.
  intros n. unfold fan. destruct (n <? 3) eqn:E; [apply Nat.ltb_lt in E; cbn [length]; lia|].
  rewrite flat_length. cbn [length]. rewrite sum_const, seq_length. reflexivity.
Qed.

Theorem face_size : forall tx e planes plane f, build_face O tx e planes plane = Ok f ->
  length (f_vertices f) <= length planes * length planes /\ length (f_indices f) = 3 * (length (f_vertices f) - 2).
Proof.
  intros tx e planes plane f E. unfold build_face in E. apply bind_ok in E. destruct E as (vs & Ev & E). injection E as <-.
  cbn [f_vertices f_indices]. split; [|apply fan_length]. rewrite map_length, sort_by_length, map_length.
  eapply Nat.le_trans; [apply unique_vertices_length|]. unfold plane_vertices in Ev. apply bind_ok in Ev. destruct Ev as (os & Eo & Ev). injection Ev as <-.
  eapply Nat.le_trans; [apply filter_map_length|]. apply mapM_ok in Eo. rewrite <- (Forall2_length _ _ _ _ _ Eo), prod_length. lia.
Qed.

Definition face_weight (f : face T) : nat := length (f_vertices f) + length (f_indices f).
Definition brush_weight (b : brush_geo T) : nat := list_sum (map face_weight (bg_faces b)).
Definition weight (bs : list (brush_geo T)) : nat := list_sum (map brush_weight bs).

Lemma brush_size : forall tx e b g, build_brush O tx e b = Ok g -> brush_weight g <= 4 * (length b * length b * length b).
Proof.
  intros tx e b g E. unfold build_brush in E. apply bind_ok in E. destruct E as (fs & Ef & E). injection E as <-. unfold brush_weight. cbn [bg_faces].
  apply mapM_ok in Ef. replace (4 * (length b * length b * length b)) with (list_sum (map (fun _ : brush_plane T => 4 * (length b * length b)) b)) by (rewrite sum_const; lia).
  assert (H : Forall2 (fun (f : face T) (_ : brush_plane T) => face_weight f <= 4 * (length b * length b)) fs b).
  { eapply Forall2_impl; [|apply Forall2_turned; exact Ef]. intros f pl E. apply face_size in E. unfold face_weight. lia. }
  exact (sum_pairs _ _ _ _ _ _ H).
Qed.

(** ** Gathering *)
Lemma filter_loop_size : forall pred vs todo ix ni nv a b c, filter_loop O pred vs todo ix ni nv = Ok (a, b, c) ->
  length a = length ix /\ length c <= length nv + length todo.
Proof.
  intros pred vs todo. induction todo as [|[i v] todo IH]; intros ix ni nv a b c E; cbn [filter_loop] in E.
  - injection E as <- <- <-. cbn; lia.
  - destruct (pred i v vs).
    + apply IH in E. rewrite app_length in E. cbn in *. lia.
    + apply bind_ok in E. destruct E as (k & _ & E). apply IH in E. unfold remap in E. rewrite map_length in E. cbn in *. lia.
Qed.
Lemma enumerate_length : forall A (l : list A), length (enumerate l) = length l.
Proof. intros A l. unfold enumerate. assert (H : forall n, length (enumerate_from n l) = length l) by (induction l as [|x l IH]; intros n; cbn; [reflexivity|now rewrite IH]). apply H. Qed.
Lemma concat_length : forall A (l : list (list A * list nat)) o, length (concat_indices o l) = list_sum (map (fun x => length (snd x)) l).
Proof. intros A l. induction l as [|[v i] l IH]; intros o; [reflexivity|]. cbn [concat_indices]. rewrite app_length, map_length, IH. reflexivity. Qed.

Lemma gather_brush_size : forall fp vp b vs ix, gather_brush O fp vp b = Ok (vs, ix) ->
  length vs + length ix <= list_sum (map face_weight (filter fp (bg_faces b))).
Proof.
  intros fp vp b vs ix E. unfold gather_brush in E.
  set (fs := filter fp (bg_faces b)) in *.
  assert (Es : list_sum (map face_weight fs) = length (flat_map f_vertices fs) + length (concat_indices 0 (map (fun f => (f_vertices f, f_indices f)) fs))).
  { rewrite flat_length, concat_length, map_map. unfold face_weight. rewrite sum_add. reflexivity. }
  destruct vp as [pred|].
  - unfold filter_vertices in E. apply bind_ok in E. destruct E as ([[a b'] c] & E & E'). injection E' as <- <-. apply filter_loop_size in E. rewrite enumerate_length in E.
    cbn [length] in E. pose proof (filter_map_length _ _ (fun x => position (fun comp => comp =? x) b') a). lia.
  - injection E as <- <-. lia.
Qed.
Lemma gather_size : forall bp fp vp g vs ix, gather_entity O bp fp vp g = Ok (vs, ix) ->
  length vs + length ix <= list_sum (map (fun b => list_sum (map face_weight (filter fp (bg_faces b)))) (eg_brushes g)).
Proof.
  intros bp fp vp g vs ix E. unfold gather_entity in E. apply bind_ok in E. destruct E as (ps & Ep & E). injection E as <- <-.
  rewrite flat_length, concat_length, <- sum_add. eapply Nat.le_trans; [|apply (sum_filter_le _ _ bp)].
  apply mapM_ok in Ep. apply sum_pairs. eapply Forall2_impl; [|apply Forall2_turned; exact Ep]. intros [v i] b E. apply gather_brush_size in E. exact E.
Qed.
Lemma gather_weight : forall bp vp g vs ix, gather_entity O bp (fun _ => true) vp g = Ok (vs, ix) -> length vs + length ix <= weight (eg_brushes g).
Proof.
  intros bp vp g vs ix E. apply gather_size in E. eapply Nat.le_trans; [exact E|]. apply sum_le. intros b _. apply sum_filter_le.
Qed.
Lemma surface_weight : forall g bl t s, texture_surface O g bl t = Ok (Some s) ->
  surface_size s <= list_sum (map (fun b => list_sum (map face_weight (filter (has_texture t) (bg_faces b)))) (eg_brushes g)).
Proof.
  intros g bl t s E. unfold texture_surface in E. apply bind_ok in E. destruct E as ([vs ix] & Eg & E). injection E as E. apply gather_size in Eg.
  destruct vs as [|v vs]; [discriminate|]. injection E as <-. unfold surface_size. cbn [s_vertices s_indices map length] in *. rewrite map_length. exact Eg.
Qed.

Lemma visual_weight : forall e g bd bl v c, brush_visual O e g bd bl = Ok v -> list_sum (map (total node_size) (visual_nodes c v)) <= weight (eg_brushes g).
Proof.
  intros e g bd bl v c E. unfold brush_visual in E. destruct (bd_visual bd); [injection E as <-; cbn; lia|]. cbv zeta in E.
  set (ts := map Some (unique_textures bl (flat_map (fun b => map bp_texture b) (e_brushes e))) ++ [None]) in *.
  apply bind_ok in E. destruct E as (ss & Es & E). apply mapM_ok in Es.
  assert (N : NoDup ts).
  { unfold ts. apply (Permutation_NoDup (Permutation_cons_append _ _)). constructor.
    - intros Hx. apply in_map_iff in Hx. destruct Hx as (y & Hy & _). discriminate.
    - apply FinFun.Injective_map_NoDup; [intros x y H; now injection H|apply unique_textures_NoDup]. }
  assert (Le : list_sum (map surface_size (filter_map (fun o => o) ss)) <= weight (eg_brushes g)).
  { eapply Nat.le_trans with (m := list_sum (map (fun t => list_sum (map face_weight (filter (has_texture t) (flat_map bg_faces (eg_brushes g))))) ts)).
    - clear E N. induction Es as [|t o ts' ss' Eo F IH]; [cbn; lia|]. cbn [filter_map]. rewrite sum_cons.
      assert (Z : match o with Some s => surface_size s | None => 0 end <= list_sum (map face_weight (filter (has_texture t) (flat_map bg_faces (eg_brushes g))))).
      { destruct o as [s|]; [|lia]. apply surface_weight in Eo. eapply Nat.le_trans; [exact Eo|]. clear. induction (eg_brushes g) as [|b l IH]; [cbn; lia|].
        cbn [flat_map]. rewrite sum_cons. rewrite filter_app, sum_app. lia. }
      destruct o as [s|]; [rewrite sum_cons|]; lia.
    - unfold weight. unfold brush_weight. rewrite <- (sum_flat _ _ face_weight bg_faces). apply sum_parts; [|exact N].
      intros f k k' H H'. unfold has_texture in *. clear - H H'. unfold opt_str_eqb in *. destruct (f_texture f) as [x|], k as [y|], k' as [z|]; try discriminate; try reflexivity.
      apply str_eqb_eq in H, H'. congruence. }
  destruct (filter_map (fun o => o) ss) as [|s l] eqn:Ef; injection E as <-; [cbn; lia|].
  unfold visual_nodes. cbn [map total node_size list_sum fold_right]. unfold list_sum in *. cbn [map fold_right] in *. lia.
Qed.
Lemma unique_points_length : forall l, length (unique_points O l) <= length l.
Proof. intros l. induction l as [|x l IH]; cbn; [lia|]. destruct (existsb _ l); cbn; lia. Qed.
Lemma collision_weight : forall t g k c, collision_of O t g = Ok k -> list_sum (map (total node_size) (collision_nodes c k)) <= weight (eg_brushes g).
Proof.
  intros t g k c E. destruct t; cbn [collision_of] in E.
  1-3: try (injection E as <-; cbn; lia).
  - injection E as <-. unfold convex_collision, collision_nodes. rewrite sum_cons. cbn [total node_size map list_sum fold_right]. rewrite !Nat.add_0_r, map_map. apply sum_le.
    intros b _. cbn [cx_points]. eapply Nat.le_trans; [apply unique_points_length|]. rewrite flat_length. apply sum_le. intros f _. rewrite map_length. unfold face_weight. lia.
  - unfold concave_collision in E. apply bind_ok in E. destruct E as ([vs ix] & Eg & E). injection E as <-. apply gather_weight in Eg.
    destruct vs as [|v vs]; [cbn; lia|]. unfold collision_nodes. cbn [total node_size map list_sum fold_right shape_size cc_vertices cc_indices length] in *. unfold shape_size. cbn [cc_vertices cc_indices map length]. rewrite map_length. lia.
Qed.
End Faces.
