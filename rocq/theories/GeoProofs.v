(** Structure of built geometry (C14, C15, C17, C20, C21, C63, C64). *)
From Coq Require Import SpecFloat Sorted Permutation.
From Verif Require Import Prelude F32 Text MapModel GeoModel GatherSpec GeoSpec BaseProofs GatherProofs.

(** ** Triangles *)
Lemma fan_nth : forall m k i, i < m ->
  nth_error (flat_map (fun i => [0; i + 1; i + 2]) (seq k m)) (3 * i) = Some 0
  /\ nth_error (flat_map (fun i => [0; i + 1; i + 2]) (seq k m)) (3 * i + 1) = Some (k + i + 1)
  /\ nth_error (flat_map (fun i => [0; i + 1; i + 2]) (seq k m)) (3 * i + 2) = Some (k + i + 2).
Proof.
  induction m as [|m IH]; intros k i H; [lia|]. destruct i as [|i].
  - simpl. rewrite Nat.add_0_r. auto.
  - destruct (IH (S k) i) as (A & B & C); [lia|].
    cbn [seq flat_map].
    replace (3 * S i) with (3 + 3 * i) by lia. replace (3 + 3 * i + 1) with (3 + (3 * i + 1)) by lia.
    replace (3 + 3 * i + 2) with (3 + (3 * i + 2)) by lia.
    change (nth_error ([0; k + 1; k + 2] ++ flat_map (fun i => [0; i + 1; i + 2]) (seq (S k) m)) (3 + 3 * i) = Some 0
      /\ nth_error ([0; k + 1; k + 2] ++ flat_map (fun i => [0; i + 1; i + 2]) (seq (S k) m)) (3 + (3 * i + 1)) = Some (k + S i + 1)
      /\ nth_error ([0; k + 1; k + 2] ++ flat_map (fun i => [0; i + 1; i + 2]) (seq (S k) m)) (3 + (3 * i + 2)) = Some (k + S i + 2)).
    rewrite !nth_error_app2 by (simpl; lia). simpl length.
    replace (3 + 3 * i - 3) with (3 * i) by lia. replace (3 + (3 * i + 1) - 3) with (3 * i + 1) by lia.
    replace (3 + (3 * i + 2) - 3) with (3 * i + 2) by lia. rewrite A, B, C. repeat split; f_equal; lia.
Qed.

Lemma fan_length : forall m k, length (flat_map (fun i => [0; i + 1; i + 2]) (seq k m)) = 3 * m.
Proof. induction m as [|m IH]; intros k; [reflexivity|]. cbn [seq flat_map]. rewrite app_length, IH. simpl. lia. Qed.

Theorem fan_spec : forall n, is_fan n (fan n).
Proof.
  intros n. unfold fan, is_fan. destruct (Nat.ltb_spec n 3).
  - replace (3 * (n - 2)) with 0 by lia. split; [reflexivity|]. split; [intros i []|]. intros i Hi. lia.
  - split; [apply fan_length|]. split.
    + intros i Hi. apply in_flat_map in Hi. destruct Hi as (k & Hk & Hi). apply in_seq in Hk. simpl in Hi. lia.
    + intros i Hi. destruct (fan_nth (n - 2) 0 i Hi) as (A & B & C). auto.
Qed.

Section Geo.
Context {T : Type} (O : num T).

(** ** Inside test *)
Lemma gtb_iff : forall a b, n_gtb O a b = true <-> greater O a b.
Proof. intros a b. unfold n_gtb, greater. destruct (n_cmp O a b) as [[]|]; split; congruence. Qed.

Lemma hull_iff : forall x planes, vertex_in_hull O x planes = true <-> inside O planes x.
Proof.
  intros x planes. unfold vertex_in_hull, inside, behind. rewrite forallb_forall. split; intros H q Hq; specialize (H q Hq).
  - intros [A B]. apply gtb_iff in A. apply gtb_iff in B. cbv zeta in H. rewrite A, B in H. discriminate.
  - cbv zeta. apply Bool.negb_true_iff. apply Bool.not_true_iff_false. intros E. apply H. apply andb_prop in E.
    destruct E as [A B]. split; apply gtb_iff; assumption.
Qed.

(** ** Vertices *)
Lemma vertex_inv : forall tex e planes plane p1 p2 v, build_plane_vertex O tex e planes plane p1 p2 = Ok (Some v) ->
  exists tangent uv, intersect_planes O plane p1 p2 = Some (vt_pos v) /\ inside O planes (vt_pos v)
    /\ vertex_tangent O plane = Ok tangent
    /\ match tex with Some t => exists r, vertex_uv O (vt_pos v) plane t = Ok r /\ uv = Some r | None => uv = None end
    /\ v = Vertex (vt_pos v) (vertex_normal O e plane p1 p2) tangent uv
             (match bp_extra plane with ExDaikatana _ c => Some c | _ => None end).
Proof.
  intros tex e planes plane p1 p2 v E. unfold build_plane_vertex in E.
  destruct (intersect_planes O plane p1 p2) as [x|]; [|discriminate].
  destruct (vertex_in_hull O x planes) eqn:H; [|discriminate]. apply hull_iff in H.
  apply bind_ok in E. destruct E as (t & Et & E). apply bind_ok in E. destruct E as (uv & Eu & E). injection E as <-.
  exists t, uv. cbn [vt_pos]. split; [reflexivity|]. split; [exact H|]. split; [exact Et|]. split; [|reflexivity].
  destruct tex as [tx|]; [|congruence]. apply bind_ok in Eu. destruct Eu as (r & Er & Eu). exists r. split; congruence.
Qed.

Lemma vertex_none : forall tex e planes plane p1 p2, build_plane_vertex O tex e planes plane p1 p2 = Ok None ->
  forall x, intersect_planes O plane p1 p2 = Some x -> ~ inside O planes x.
Proof.
  intros tex e planes plane p1 p2 E x I H. unfold build_plane_vertex in E. rewrite I in E. apply hull_iff in H. rewrite H in E.
  apply bind_ok in E. destruct E as (t & _ & E). apply bind_ok in E. destruct E as (uv & _ & E). discriminate.
Qed.

Definition generated tex e planes plane v : Prop := exists p1 p2, In p1 planes /\ In p2 planes
  /\ build_plane_vertex O tex e planes plane p1 p2 = Ok (Some v).

Lemma plane_vertices_inv : forall tex e planes plane vs, plane_vertices O tex e planes plane = Ok vs ->
  (forall v, In v vs -> generated tex e planes plane v)
  /\ (forall x, meeting_point O planes plane x -> exists v, In v vs /\ vt_pos v = x).
Proof.
  intros tex e planes plane vs E. unfold plane_vertices in E. apply bind_ok in E. destruct E as (os & Eo & E). injection E as <-.
  apply mapM_ok in Eo. split.
  - intros v Hv. apply filter_map_In in Hv. destruct Hv as (o & Ho & ->).
    destruct (Forall2_in_r _ _ _ _ _ _ Eo Ho) as ([p1 p2] & Hp & Ep). apply in_prod_iff in Hp. exists p1, p2. tauto.
  - intros x (p1 & p2 & H1 & H2 & I & Hin).
    destruct (Forall2_in_l _ _ _ _ _ (p1, p2) Eo) as (o & Ho & Ep); [apply in_prod_iff; auto|]. cbn [fst snd] in Ep.
    destruct o as [v|]; [|exfalso; exact (vertex_none _ _ _ _ _ _ Ep _ I Hin)].
    exists v. split; [apply filter_map_In; eauto|]. destruct (vertex_inv _ _ _ _ _ _ _ Ep) as (t & uv & Iv & _). congruence.
Qed.

(** ** Unique vertices *)
Fixpoint lasts (vs : list (vertex T)) : list (vertex T) :=
  match vs with
  | [] => []
  | v :: rest => if existsb (fun c => v3_eqb O (vt_pos c) (vt_pos v)) rest then lasts rest else v :: lasts rest
  end.
Definition finish (ph : bool) (v : vertex T) : vertex T := if ph then set_normal v (n_normalize O (vt_normal v)) else v.

Lemma no_fold : forall rest v, existsb (fun c => v3_eqb O (vt_pos c) (vt_pos v)) rest = false ->
  fold_left (fun acc next => if v3_eqb O (vt_pos next) (vt_pos acc) then set_normal acc (vt_normal next) else acc) rest v = v.
Proof.
  induction rest as [|c rest IH]; intros v H; [reflexivity|]. simpl in *. apply Bool.orb_false_iff in H. destruct H as [H1 H2].
  rewrite H1. now apply IH.
Qed.

Lemma unique_lasts : forall ph vs, unique_vertices O ph vs = map (finish ph) (lasts vs).
Proof.
  intros ph vs. induction vs as [|v rest IH]; [reflexivity|]. cbn [unique_vertices lasts].
  destruct (existsb _ rest) eqn:E; [exact IH|]. cbn [map]. rewrite IH. f_equal. unfold finish. destruct ph; [|reflexivity].
  rewrite no_fold by exact E. reflexivity.
Qed.

Lemma finish_pos : forall ph v, vt_pos (finish ph v) = vt_pos v.
Proof. intros [] v; reflexivity. Qed.

Lemma eqb_pos : forall a b, v3_eqb O a b = true <-> pos_eq O a b.
Proof.
  intros a b. unfold v3_eqb, pos_eq, num_eq, n_eqb.
  destruct (n_cmp O (vx a) (vx b)) as [[]|], (n_cmp O (vy a) (vy b)) as [[]|], (n_cmp O (vz a) (vz b)) as [[]|]; simpl;
    (split; [intros H; first [discriminate|repeat split; reflexivity]|intros H; first [reflexivity|destruct H as (A & B & C); discriminate]]).
Qed.

Context (L : eq_laws O).
Lemma pos_sym : forall a b, pos_eq O a b -> pos_eq O b a.
Proof. intros a b (A & B & C). repeat split; apply (law_sym O L); assumption. Qed.
Lemma pos_trans : forall a b c, pos_eq O a b -> pos_eq O b c -> pos_eq O a c.
Proof. intros a b c (A & B & C) (D & E & F). repeat split; eapply (law_trans O L); eassumption. Qed.

Lemma lasts_in : forall vs v, In v (lasts vs) -> In v vs.
Proof.
  induction vs as [|a vs IH]; intros v H; [contradiction|]. simpl in H. destruct (existsb _ vs); [right; auto|].
  destruct H as [->|H]; [left; reflexivity|right; auto].
Qed.

Lemma lasts_complete : forall vs v, In v vs -> exists w, In w (lasts vs) /\ (w = v \/ pos_eq O (vt_pos v) (vt_pos w)).
Proof.
  induction vs as [|a vs IH]; intros v H; [contradiction|]. simpl. destruct H as [->|H].
  - destruct (existsb _ vs) eqn:E; [|exists v; simpl; auto]. apply existsb_exists in E. destruct E as (c & Hc & E).
    apply eqb_pos, pos_sym in E. destruct (IH c Hc) as (w & Hw & [Q|P]); exists w; (split; [exact Hw|]); right; [now rewrite Q|].
     eapply pos_trans; eassumption.
  - destruct (IH v H) as (w & Hw & P). exists w. split; [|exact P]. destruct (existsb _ vs); [exact Hw|right; exact Hw].
Qed.

Lemma lasts_pairwise : forall vs, pairwise_not (fun a b => pos_eq O (vt_pos a) (vt_pos b)) (lasts vs).
Proof.
  induction vs as [|a vs IH]; intros i j x y H Hi Hj P; simpl in *.
  - destruct i; discriminate.
  - destruct (existsb _ vs) eqn:E; [eapply IH; eassumption|]. destruct j as [|j]; [lia|]. destruct i as [|i].
    + simpl in Hi, Hj. injection Hi as ->. apply nth_error_In, lasts_in in Hj.
      apply Bool.not_true_iff_false in E. apply E. apply existsb_exists. exists y. split; [exact Hj|]. apply eqb_pos, pos_sym, P.
    + simpl in Hi, Hj. eapply (IH i j); eauto. lia.
Qed.

Lemma pairwise_map : forall A B (f : A -> B) (R : B -> B -> Prop) l, pairwise_not (fun a b => R (f a) (f b)) l -> pairwise_not R (map f l).
Proof.
  intros A B f R l H i j a b Hij Hi Hj. rewrite nth_error_map in Hi, Hj.
  destruct (nth_error l i) as [x|] eqn:Ex; [|discriminate]. destruct (nth_error l j) as [y|] eqn:Ey; [|discriminate].
  injection Hi as <-. injection Hj as <-. exact (H i j x y Hij Ex Ey).
Qed.

(** ** Sorting *)
Lemma insert_sorted : forall A (cmp : A -> A -> comparison) (le : A -> A -> Prop) x l,
  (forall y, In y l -> cmp y x <> Gt -> le y x) -> (forall y, In y l -> cmp y x = Gt -> le x y) ->
  (forall a b c, le a b -> le b c -> le a c) ->
  StronglySorted le l -> StronglySorted le (sort_insert cmp x l).
Proof.
  intros A cmp le x l. induction l as [|y l IH]; intros C1 C2 Tr S; simpl; [repeat constructor|].
  inv S. destruct (cmp y x) eqn:E.
  - constructor.
    + apply IH; auto; intros z Hz; [apply C1|apply C2]; now right.
    + apply Forall_forall. intros z Hz. apply (Permutation_in _ (sort_insert_perm _ cmp x l)) in Hz. destruct Hz as [<-|Hz].
      * apply C1; [left; reflexivity|congruence].
      * rewrite Forall_forall in *. auto.
  - constructor.
    + apply IH; auto; intros z Hz; [apply C1|apply C2]; now right.
    + apply Forall_forall. intros z Hz. apply (Permutation_in _ (sort_insert_perm _ cmp x l)) in Hz. destruct Hz as [<-|Hz].
      * apply C1; [left; reflexivity|congruence].
      * rewrite Forall_forall in *. auto.
  - assert (X : le x y) by (apply C2; [left; reflexivity|exact E]).
    constructor; [constructor; assumption|]. constructor; [exact X|].
    rewrite Forall_forall in *. intros z Hz. eapply Tr; [exact X|auto].
Qed.

Lemma sort_sorted : forall A (cmp : A -> A -> comparison) (le : A -> A -> Prop) (P : A -> Prop) l,
  (forall x y, P x -> P y -> cmp y x <> Gt -> le y x) -> (forall x y, P x -> P y -> cmp y x = Gt -> le x y) ->
  (forall a b c, le a b -> le b c -> le a c) ->
  (forall x, In x l -> P x) -> StronglySorted le (sort_by cmp l).
Proof.
  intros A cmp le P l C1 C2 Tr H. unfold sort_by.
  assert (G : forall acc, StronglySorted le acc -> (forall x, In x acc -> P x) ->
            StronglySorted le (fold_left (fun acc x => sort_insert cmp x acc) l acc)).
  { induction l as [|x l IH]; intros acc S Pa; simpl; [exact S|]. apply IH.
    - intros; apply H; now right.
    - apply insert_sorted; auto.
      + intros y Hy. apply C1; [apply H; now left|auto].
      + intros y Hy. apply C2; [apply H; now left|auto].
    - intros y Hy. apply (Permutation_in _ (sort_insert_perm _ cmp x acc)) in Hy. destruct Hy as [<-|Hy]; [apply H; now left|auto]. }
  apply G; [constructor|intros x []].
Qed.

(** ** Faces *)
Lemma mean_is : forall l, is_mean O l (mean O l).
Proof.
  intros l. unfold mean, is_mean. eexists. split; [|reflexivity]. change (v3_zero O) with (V3 (n_zero O) (n_zero O) (n_zero O)).
  generalize (V3 (n_zero O) (n_zero O) (n_zero O)). induction l as [|x l IH]; intros s; simpl; constructor. apply IH.
Qed.

Lemma face_inv : forall tx e planes plane f, build_face O tx e planes plane = Ok f ->
  exists vs raw, plane_vertices O (hget tx (bp_texture plane)) e planes plane = Ok vs
    /\ raw = map (finish (is_phong e)) (lasts vs)
    /\ f_center f = mean O (map vt_pos raw)
    /\ f_vertices f = map (move (fun x => v3_add O x (f_center f)))
         (sort_by (wind_cmp O (first_edge O plane) (second_axis O plane)) (map (move (fun x => v3_sub O x (f_center f))) raw))
    /\ f_indices f = fan (length (f_vertices f))
    /\ f_texture f = match hget tx (bp_texture plane) with Some _ => Some (bp_texture plane) | None => None end.
Proof.
  intros tx e planes plane f E. unfold build_face in E. apply bind_ok in E. destruct E as (vs & Ev & E). injection E as <-.
  exists vs, (unique_vertices O (is_phong e) vs). cbn [f_center f_vertices f_indices f_texture].
  split; [exact Ev|]. split; [apply unique_lasts|]. auto.
Qed.

Theorem face_fan : forall tx e planes plane f, build_face O tx e planes plane = Ok f ->
  is_fan (length (f_vertices f)) (f_indices f).
Proof.
  intros tx e planes plane f E. destruct (face_inv _ _ _ _ _ E) as (vs & raw & _ & _ & _ & _ & -> & _). apply fan_spec.
Qed.

Lemma raw_corners : forall tex e planes plane vs ph, plane_vertices O tex e planes plane = Ok vs ->
  corner_set O planes plane (map (finish ph) (lasts vs)).
Proof.
  intros tex e planes plane vs ph E. destruct (plane_vertices_inv _ _ _ _ _ E) as [G M]. split; [|split].
  - intros v Hv. apply in_map_iff in Hv. destruct Hv as (w & <- & Hw). rewrite finish_pos. apply lasts_in, G in Hw.
    destruct Hw as (p1 & p2 & H1 & H2 & Ew). destruct (vertex_inv _ _ _ _ _ _ _ Ew) as (t & uv & I & Hin & _).
    exists p1, p2. repeat split; assumption.
  - intros x Hx. destruct (M x Hx) as (v & Hv & <-). destruct (lasts_complete vs v Hv) as (w & Hw & P).
    exists (finish ph w). split; [now apply in_map|]. rewrite finish_pos. destruct P as [->|P]; auto.
  - apply pairwise_map. intros i j a b Hij Hi Hj. rewrite !finish_pos. exact (lasts_pairwise vs i j a b Hij Hi Hj).
Qed.

Lemma move_moved : forall (f : vec3 T -> vec3 T) l, Forall2 (displaced f) l (map (move f) l).
Proof. intros f l. induction l; constructor; [repeat split|assumption]. Qed.

(** The corners before and after the sort. *)
Theorem face_corners_built : forall tx e planes plane f, build_face O tx e planes plane = Ok f ->
  exists raw centred sorted, corner_set O planes plane raw
    /\ is_mean O (map vt_pos raw) (f_center f)
    /\ Forall2 (displaced (fun x => v3_sub O x (f_center f))) raw centred
    /\ Permutation centred sorted
    /\ Forall2 (displaced (fun x => v3_add O x (f_center f))) sorted (f_vertices f)
    /\ forall P, order_laws O P -> (forall v, In v centred -> P (angle_of O plane v)) ->
         StronglySorted (fun a b => not_above O (angle_of O plane b) (angle_of O plane a)) sorted.
Proof.
  intros tx e planes plane f E. destruct (face_inv _ _ _ _ _ E) as (vs & raw & Ev & -> & C & V & _).
  eexists _, (map (move (fun x => v3_sub O x (f_center f))) (map (finish (is_phong e)) (lasts vs))), _.
  split; [eapply raw_corners; exact Ev|]. split; [rewrite C; apply mean_is|]. split; [apply move_moved|].
  split; [apply Permutation_sym, sort_by_perm|]. split; [rewrite V; apply move_moved|].
  intros P W HP. eapply (sort_sorted _ _ _ (fun v => P (angle_of O plane v))).
  - intros x y Px Py Hc. destruct (law_total O P W (angle_of O plane x) (angle_of O plane y) Px Py) as [G|G]; [exact G|].
    exfalso. apply Hc. unfold wind_cmp. unfold greater in G. unfold angle_of in G. unfold angle. rewrite G. reflexivity.
  - intros x y Px Py Hc. apply (law_flip O P W). unfold wind_cmp, angle in Hc. unfold greater, angle_of.
    destruct (n_cmp O _ _) as [c|]; [congruence|discriminate].
  - intros a b c Hab Hbc. eapply (law_chain O P W); eassumption.
  - exact HP.
Qed.

(** ** Attributes *)
Lemma vertices_from : forall tx e planes plane f v, build_face O tx e planes plane = Ok f -> In v (f_vertices f) ->
  exists g, generated (hget tx (bp_texture plane)) e planes plane g
    /\ vt_normal v = vt_normal (finish (is_phong e) g) /\ vt_tangent v = vt_tangent g
    /\ vt_uv v = vt_uv g /\ vt_color v = vt_color g.
Proof.
  intros tx e planes plane f v E Hv. destruct (face_inv _ _ _ _ _ E) as (vs & raw & Ev & -> & C & V & _).
  rewrite V in Hv. apply in_map_iff in Hv. destruct Hv as (a & <- & Ha).
  apply (Permutation_in _ (sort_by_perm _ _ _)) in Ha. apply in_map_iff in Ha. destruct Ha as (b & <- & Hb).
  apply in_map_iff in Hb. destruct Hb as (g & <- & Hg). apply lasts_in in Hg.
  apply (proj1 (plane_vertices_inv _ _ _ _ _ Ev)) in Hg. exists g. split; [exact Hg|].
  destruct (is_phong e); repeat split; reflexivity.
Qed.

Theorem face_texture : forall tx e planes plane f, build_face O tx e planes plane = Ok f ->
  (forall t, f_texture f = Some t <-> t = bp_texture plane /\ exists size, hget tx t = Some size)
  /\ (forall v, In v (f_vertices f) -> (vt_uv v = None <-> f_texture f = None))
  /\ (forall v c, In v (f_vertices f) -> (vt_color v = Some c <-> exists d, bp_extra plane = ExDaikatana d c)).
Proof.
  intros tx e planes plane f E. destruct (face_inv _ _ _ _ _ E) as (vs & raw & _ & _ & _ & _ & _ & Ft). split; [|split].
  - intros t. rewrite Ft. destruct (hget tx (bp_texture plane)) eqn:H; split; intros K.
    + injection K as <-. eauto.
    + destruct K as [-> _]. reflexivity.
    + discriminate.
    + destruct K as [-> [s K]]. congruence.
  - intros v Hv. destruct (vertices_from _ _ _ _ _ _ E Hv) as (g & (p1 & p2 & _ & _ & Eg) & _ & _ & -> & _).
    destruct (vertex_inv _ _ _ _ _ _ _ Eg) as (t & uv & _ & _ & _ & U & Vg). rewrite Ft, Vg. cbn [vt_uv].
    destruct (hget tx (bp_texture plane)); [destruct U as (r & _ & ->); split; discriminate|rewrite U; tauto].
  - intros v c Hv. destruct (vertices_from _ _ _ _ _ _ E Hv) as (g & (p1 & p2 & _ & _ & Eg) & _ & _ & _ & ->).
    destruct (vertex_inv _ _ _ _ _ _ _ Eg) as (t & uv & _ & _ & _ & _ & Vg). rewrite Vg. cbn [vt_color].
    destruct (bp_extra plane) as [| |d|d c']; split; intros K; try discriminate; try (destruct K as [d' K]; discriminate).
    + injection K as <-. eauto.
    + destruct K as [d' K]. congruence.
Qed.

Lemma is_phong_iff : forall e : entity T, is_phong e = true <-> phong e.
Proof.
  intros e. unfold is_phong, phong, get_property. destruct (hget (e_props e) (lit "_phong")) as [s|].
  - rewrite str_eqb_eq. split; congruence.
  - split; discriminate.
Qed.

Theorem flat_normals : forall tx e planes plane f v, build_face O tx e planes plane = Ok f -> In v (f_vertices f) ->
  ~ phong e -> vt_normal v = plane_normal O plane.
Proof.
  intros tx e planes plane f v E Hv N. destruct (vertices_from _ _ _ _ _ _ E Hv) as (g & (p1 & p2 & _ & _ & Eg) & -> & _).
  destruct (vertex_inv _ _ _ _ _ _ _ Eg) as (t & uv & _ & _ & _ & _ & Vg).
  assert (P : is_phong e = false) by (apply Bool.not_true_iff_false; rewrite is_phong_iff; exact N).
  unfold finish. rewrite P, Vg. cbn [vt_normal]. unfold vertex_normal. now rewrite P.
Qed.

Theorem tangents_shared : forall tx e planes plane f v, build_face O tx e planes plane = Ok f -> In v (f_vertices f) ->
  vertex_tangent O plane = Ok (vt_tangent v).
Proof.
  intros tx e planes plane f v E Hv. destruct (vertices_from _ _ _ _ _ _ E Hv) as (g & (p1 & p2 & _ & _ & Eg) & _ & -> & _).
  destruct (vertex_inv _ _ _ _ _ _ _ Eg) as (t & uv & _ & _ & Et & _ & Vg). rewrite Vg. exact Et.
Qed.
End Geo.
