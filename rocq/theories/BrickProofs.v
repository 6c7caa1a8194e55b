(** Meshes and concave shapes of boxes: proofs of C132. *)
From Coq Require Import Reals Lra Lia ZArith Permutation SpecFloat.
From Flocq Require Import Core.
From Verif Require Import Prelude F32 Text MapModel GeoModel LayerModel GameDataModel SceneModel DiffSpec GatherSpec SurfaceSpec LayerSpec InvarianceSpec GeoSpec RealSpec EdgeSpec MapSpec NumberSpec ErrorSpec PointsSpec BoxSpec WoundSpec BoxEdgeSpec ShellSpec BrickSpec
  BaseProofs GatherProofs LayerProofs GeoProofs GeoFinal SurfaceProofs ColorProofs ErrorProofs BoxProofs BoxFinal BoxEdgeProofs ShellProofs.
Local Open Scope R_scope.

(** ** The edges of a box *)
Definition swap2 {A} (x : A * A) : A * A := (snd x, fst x).
Definition ring_of {A} (l : list A) : list (A * A) := match l with [w; x; y; z] => [(w, x); (x, y); (y, z); (z, w)] | _ => [] end.
Definition both {A B} (g : A -> B) (x : A * A) : B * B := (g (fst x), g (snd x)).
Definition corner_at (lo hi : vec3 Z) (k : bool * bool * bool) : vec3 Z :=
  let '(a, b, c) := k in V3 (vx (if a then hi else lo)) (vy (if b then hi else lo)) (vz (if c then hi else lo)).
Definition cycle_at (s : box_side) : list (bool * bool * bool) :=
  match s with
  | XUp => [(true, false, false); (true, false, true); (true, true, true); (true, true, false)]
  | XDown => [(false, false, false); (false, true, false); (false, true, true); (false, false, true)]
  | YUp => [(false, true, false); (true, true, false); (true, true, true); (false, true, true)]
  | YDown => [(false, false, false); (false, false, true); (true, false, true); (true, false, false)]
  | ZUp => [(false, false, true); (false, true, true); (true, true, true); (true, false, true)]
  | ZDown => [(false, false, false); (true, false, false); (true, true, false); (false, true, false)]
  end.
Lemma cycle_labels : forall lo hi s, cycle4 lo hi s = map (corner_at lo hi) (cycle_at s).
Proof. intros lo hi []; reflexivity. Qed.
Lemma edge_dec : forall x y : (bool * bool * bool) * (bool * bool * bool), {x = y} + {x <> y}.
Proof. repeat decide equality. Defined.
Lemma labels_closed : Permutation (flat_map (fun s => ring_of (cycle_at s)) all_sides) (map swap2 (flat_map (fun s => ring_of (cycle_at s)) all_sides)).
Proof. apply (proj2 (Permutation_count_occ edge_dec _ _)). intros [[[[] []] []] [[[] []] []]]; vm_compute; reflexivity. Qed.

Definition fan4 {A} (l : list A) : list (A * A * A) := match l with [w; x; y; z] => [(w, x, y); (w, y, z)] | _ => [] end.
Lemma fan4_sides : forall w x y z : vec3 R, exists D, Permutation (flat_map three_sides (fan4 [w; x; y; z])) (ring_of [w; x; y; z] ++ D) /\ Permutation D (map swap2 D).
Proof.
  intros w x y z. exists [(y, w); (w, y)]. split; [|apply perm_swap]. cbn [fan4 flat_map three_sides ring_of app]. do 2 constructor.
  apply (Permutation_app_comm [(y, w); (w, y)] [(y, z); (z, w)]).
Qed.

(** Going round the same four points the same way starts somewhere. *)
Lemma rotation : forall A (a b c d w x y z : A), NoDup [a; b; c; d] -> ring4 [a; b; c; d] w x -> ring4 [a; b; c; d] x y -> ring4 [a; b; c; d] y z ->
  In [w; x; y; z] [[a; b; c; d]; [b; c; d; a]; [c; d; a; b]; [d; a; b; c]].
Proof.
  intros A a b c d w x y z N H1 H2 H3. rewrite ring4_four in H1, H2, H3.
  assert (D : a <> b /\ a <> c /\ a <> d /\ b <> c /\ b <> d /\ c <> d).
  { inv N. inv H5. inv H7. cbn [In] in *. repeat split; intros ->; tauto. }
  destruct D as (D1 & D2 & D3 & D4 & D5 & D6).
  destruct H1 as [H1|[H1|[H1|H1]]]; injection H1 as -> ->;
    (destruct H2 as [H2|[H2|[H2|H2]]]; injection H2; intros; subst; try congruence);
    (destruct H3 as [H3|[H3|[H3|H3]]]; injection H3; intros; subst; try congruence); cbn [In]; tauto.
Qed.
Lemma ring_rotated : forall A (a b c d : A) l, In l [[a; b; c; d]; [b; c; d; a]; [c; d; a; b]; [d; a; b; c]] -> Permutation (ring_of l) (ring_of [a; b; c; d]).
Proof.
  intros A a b c d l [<-|[<-|[<-|[<-|[]]]]]; cbn [ring_of].
  - reflexivity.
  - symmetry. apply (Permutation_cons_append [(b, c); (c, d); (d, a)] (a, b)).
  - apply (Permutation_app_comm [(c, d); (d, a)] [(a, b); (b, c)]).
  - apply (Permutation_cons_append [(a, b); (b, c); (c, d)] (d, a)).
Qed.
Lemma ring_map : forall A B (g : A -> B) l, ring_of (map g l) = map (both g) (ring_of l).
Proof. intros A B g [|a [|b [|c [|d [|e l]]]]]; reflexivity. Qed.

(** Pyramids to a side. *)
Definition side_volume (lo hi : vec3 Z) (o : vec3 R) (s : box_side) : R :=
  let a := IZR (vx hi) - IZR (vx lo) in let b := IZR (vy hi) - IZR (vy lo) in let c := IZR (vz hi) - IZR (vz lo) in
  match s with
  | XUp => 2 * b * c * (IZR (vx hi) - vx o) | XDown => 2 * b * c * (vx o - IZR (vx lo))
  | YUp => 2 * a * c * (IZR (vy hi) - vy o) | YDown => 2 * a * c * (vy o - IZR (vy lo))
  | ZUp => 2 * a * b * (IZR (vz hi) - vz o) | ZDown => 2 * a * b * (vz o - IZR (vz lo))
  end.
Definition rotations {A} (l : list A) : list (list A) :=
  match l with [a; b; c; d] => [[a; b; c; d]; [b; c; d; a]; [c; d; a; b]; [d; a; b; c]] | _ => [] end.
Lemma fan_volume : forall lo hi s o l, In l (rotations (cycle4 lo hi s)) -> sum_numbers (six_volumes o) (fan4 (map reals l)) = side_volume lo hi o s.
Proof.
  intros [x y z] [x' y' z'] s [o1 o2 o3] l H. destruct s; cbn [cycle4 rotations In vx vy vz] in H; destruct H as [<-|[<-|[<-|[<-|[]]]]];
    cbn [map fan4 sum_numbers fold_right six_volumes]; unfold side_volume, inner, outer, minus, reals; cbn [vx vy vz]; ring.
Qed.
Lemma box_volume : forall lo hi o, sum_numbers (side_volume lo hi o) all_sides = 6 * IZR (volume (lo, hi)).
Proof. intros lo hi o. unfold volume. rewrite !mult_IZR, !minus_IZR. unfold all_sides, side_volume. cbn [sum_numbers fold_right]. ring. Qed.

(** ** Positions *)
Lemma cmp_value : forall x y, f32_cmp x y = Some Eq -> val x = val y.
Proof.
  intros x y H. unfold val. destruct x as [s|s| |s m e], y as [s'|s'| |s' m' e']; try reflexivity; try discriminate; try (destruct s; discriminate); try (destruct s'; discriminate).
  cbn in H. destruct s, s'; try discriminate; destruct (e ?= e')%Z eqn:Ce; try discriminate; apply Z.compare_eq in Ce; subst e'; destruct (Pos.compare_cont Eq m m') eqn:C; try discriminate;
    apply Pos.compare_eq in C; now subst.
Qed.
Lemma same_point : forall p x y, pos_eq (f32_num p) x y -> point_of x = point_of y.
Proof. intros p x y (A & B & C). unfold num_eq in *. cbn [n_cmp f32_num] in *. apply cmp_value in A, B, C. unfold point_of. congruence. Qed.
Lemma ints_point : forall v X, at_ints v X -> point_of v = reals X.
Proof. intros v X ((_ & A) & (_ & B) & (_ & C)). unfold point_of, reals. now rewrite A, B, C. Qed.

Definition place32 (f : face f32) (i : nat) : vec3 R := match nth_error (f_vertices f) i with Some v => point_of (vt_pos v) | None => V3 0 0 0 end.
Definition face32 (f : face f32) : list corner3 := map (fun '(i, j, k) => (place32 f i, place32 f j, place32 f k)) (triples (f_indices f)).
Definition triangles32 (faces : list (face f32)) : list corner3 := flat_map face32 faces.

Section Run.
Context (p : platform) (r : Z) (d : R) (Rr : (1 <= r <= 40000)%Z) (Dd : d <= / (3 * IZR r)) (AC : accurate_angle d (p_atan2 p)).
Local Notation O := (f32_num p).

Lemma face_brick : forall lo hi b s area plane tx e f, box lo hi -> box_brush p lo hi b -> box_plane lo hi s area plane -> exact_length p area ->
  slender r lo hi -> grid_plane plane -> build_face O tx e b plane = Ok f -> exists l, In l (rotations (cycle4 lo hi s)) /\ face32 f = fan4 (map reals l).
Proof.
  intros lo hi b s k plane tx e f Bx Bb Hp Hk Sl G E.
  destruct (box_wound p lo hi b s k plane r d tx e f Bx Bb Hp Hk Sl Rr Dd AC G E) as (ys & P & F & T).
  assert (PC : Permutation ys (cycle4 lo hi s)) by (eapply Permutation_trans; [exact P|apply Permutation_sym, cycle_corners]).
  assert (L : length ys = 4%nat) by (rewrite (Permutation_length PC); apply cycle_length).
  assert (N : NoDup ys) by (apply (Permutation_NoDup (Permutation_sym P)), corners_nodup; exact Bx).
  pose proof (cycle_turn lo hi s Bx) as TC. pose proof (fun x y => ring_same s ys (cycle4 lo hi s) x y PC N L T TC) as RS.
  exists ys. destruct (four_list _ ys L) as (w & x & y & z & ->). split.
  - pose proof (Permutation_NoDup PC N) as NC. destruct (four_list _ _ (cycle_length lo hi s)) as (a & a1 & a2 & a3 & EC). rewrite EC in *.
    apply rotation; [exact NC|apply RS; apply ring4_four; tauto..].
  - destruct (face_inv _ _ _ _ _ _ E) as (_ & _ & _ & _ & _ & _ & Ei & _). unfold face32, place32. rewrite Ei. clear - F.
    inversion F as [|v1 ? l1 ? A1 F1]; subst. inversion F1 as [|v2 ? l2 ? A2 F2]; subst. inversion F2 as [|v3 ? l3 ? A3 F3]; subst. inversion F3 as [|v4 ? l4 ? A4 F4]; subst. inversion F4; subst.
    cbn. now rewrite (ints_point _ _ A1), (ints_point _ _ A2), (ints_point _ _ A3), (ints_point _ _ A4).
Qed.

(** What is drawn of one box. *)
Definition wrapped (T : list corner3) (v : Z) (n : nat) : Prop := watertight T /\ length T = (12 * n)%nat /\ forall o, sum_numbers (six_volumes o) T = 6 * IZR v.
Lemma brush_brick : forall tx e planes b box1, block p r box1 planes -> build_brush O tx e planes = Ok b -> wrapped (triangles32 (bg_faces b)) (volume box1) 1.
Proof.
  intros tx e planes b [lo hi] (Bx & Sl & Gr & sides & P & F) E.
  assert (Bb : box_brush p lo hi planes).
  { split.
    - intros pl Hpl. destruct (Forall2_in_l _ _ _ _ _ _ F Hpl) as (s & _ & k & H). eauto.
    - intros s. assert (Hs : In s sides) by (apply (Permutation_in _ (Permutation_sym P)); destruct s; cbn; tauto).
      destruct (Forall2_in_r _ _ _ _ _ _ F Hs) as (pl & Hpl & k & H). exists pl, k. tauto. }
  assert (FS : Forall2 (fun f s => exists l, In l (rotations (cycle4 lo hi s)) /\ face32 f = fan4 (map reals l)) (bg_faces b) sides).
  { unfold build_brush in E. apply bind_ok in E. destruct E as (fs & Ef & E). injection E as <-. cbn [bg_faces]. apply mapM_ok in Ef.
    assert (Q : forall l, incl l planes -> Forall2 (fun pl f => build_face O tx e planes pl = Ok f) l fs ->
      Forall2 (fun pl s => exists k, box_plane lo hi s k pl /\ exact_length p k) l sides ->
      Forall2 (fun f s => exists l, In l (rotations (cycle4 lo hi s)) /\ face32 f = fan4 (map reals l)) fs sides).
    { clear - Bx Bb Gr Sl Rr Dd AC. intros l I H. revert sides I. induction H as [|pl f l fs E H IH]; intros sides I G; inv G; constructor.
      - match goal with A : exists k, _ |- _ => destruct A as (k & H1 & H2) end. apply (face_brick lo hi planes y k pl tx e f); auto. apply Gr, I. now left.
      - apply IH; [|assumption]. intros pl' Hp. apply I. now right. }
    apply (Q planes); auto. apply incl_refl. }
  generalize dependent (bg_faces b). intros fs FS. split; [|split].
  - assert (W : exists D, Permutation (flat_map three_sides (triangles32 fs)) (map (both (fun k => reals (corner_at lo hi k))) (flat_map (fun s => ring_of (cycle_at s)) sides) ++ D) /\ Permutation D (map swap2 D)).
    { clear - FS. induction FS as [|f s fs sides (l & Il & El) FS (D & P1 & P2)]; [exists []; split; constructor|].
      destruct (four_list _ _ (cycle_length lo hi s)) as (a & a1 & a2 & a3 & EC).
      assert (Ll : exists w x y z, l = [w; x; y; z]) by (rewrite EC in Il; destruct Il as [<-|[<-|[<-|[<-|[]]]]]; eauto 6). destruct Ll as (w & x & y & z & ->).
      destruct (fan4_sides (reals w) (reals x) (reals y) (reals z)) as (D' & P1' & P2'). exists (D' ++ D). split; [|rewrite map_app; now apply Permutation_app].
      cbn [triangles32 flat_map]. fold (triangles32 fs). rewrite flat_map_app, P1, El. cbn [map]. rewrite P1'.
      assert (Q : Permutation (ring_of [reals w; reals x; reals y; reals z]) (map (both (fun k => reals (corner_at lo hi k))) (ring_of (cycle_at s)))).
      { change [reals w; reals x; reals y; reals z] with (map reals [w; x; y; z]). rewrite ring_map.
        replace (map (both (fun k => reals (corner_at lo hi k))) (ring_of (cycle_at s))) with (map (both reals) (ring_of (cycle4 lo hi s)))
          by (rewrite cycle_labels, ring_map, map_map; reflexivity).
        apply Permutation_map. rewrite EC in *. now apply ring_rotated. }
      rewrite Q, map_app, <- !app_assoc. apply Permutation_app_head. rewrite !app_assoc. apply Permutation_app_tail, Permutation_app_comm. }
    destruct W as (D & P1 & P2). unfold watertight. change (fun pq : vec3 R * vec3 R => (snd pq, fst pq)) with (@swap2 (vec3 R)). rewrite P1, map_app. apply Permutation_app; [|exact P2].
    rewrite (Permutation_flat_map (fun s => ring_of (cycle_at s)) P). rewrite map_map. change (fun x : (bool * bool * bool) * (bool * bool * bool) => swap2 (both (fun k => reals (corner_at lo hi k)) x)) with (fun x => both (fun k => reals (corner_at lo hi k)) (swap2 x)).
    rewrite <- (map_map swap2 (both (fun k => reals (corner_at lo hi k)))). apply Permutation_map. exact labels_closed.
  - assert (L : length (triangles32 fs) = (2 * length sides)%nat).
    { clear - FS. induction FS as [|f s fs sides (l & Il & El) FS IH]; [reflexivity|]. cbn [triangles32 flat_map length]. fold (triangles32 fs). rewrite app_length, IH, El.
      destruct (four_list _ _ (cycle_length lo hi s)) as (a & a1 & a2 & a3 & EC). rewrite EC in Il. destruct Il as [<-|[<-|[<-|[<-|[]]]]]; cbn [map fan4 length]; lia. }
    rewrite L, (Permutation_length P). reflexivity.
  - intros o. rewrite <- (box_volume lo hi o). rewrite <- (numbers_perm _ (side_volume lo hi o) _ _ P). clear - FS.
    induction FS as [|f s fs sides (l & Il & El) FS IH]; [reflexivity|]. cbn [triangles32 flat_map]. fold (triangles32 fs). etransitivity; [apply numbers_app|]. etransitivity; [apply f_equal2; [rewrite El; exact (fan_volume lo hi s o l Il)|exact IH]|reflexivity].
Qed.

(** ** Several boxes *)
Lemma wrapped_app : forall T v n T' v' n', wrapped T v n -> wrapped T' v' n' -> wrapped (T ++ T') (v + v') (n + n').
Proof.
  intros T v n T' v' n' (A & B & C) (A' & B' & C'). split; [now apply tight_app|]. split; [rewrite app_length, B, B'; lia|]. intros o. rewrite numbers_app, C, C', plus_IZR. ring.
Qed.
Lemma wrapped_perm : forall T T' v n, Permutation T T' -> wrapped T v n -> wrapped T' v n.
Proof.
  intros T T' v n P (A & B & C). split; [exact (tight_perm _ _ P A)|]. split; [rewrite <- (Permutation_length P); exact B|]. intros o. rewrite <- (C o). symmetry. now apply numbers_perm.
Qed.
Definition boxed (b : brush_geo f32) (box1 : vec3 Z * vec3 Z) : Prop := wrapped (triangles32 (bg_faces b)) (volume box1) 1.
Lemma brushes_wrapped : forall bs boxes, Forall2 boxed bs boxes -> wrapped (triangles32 (flat_map bg_faces bs)) (fold_right (fun b s => volume b + s)%Z 0%Z boxes) (length boxes).
Proof.
  intros bs boxes F. induction F as [|b x bs boxes H F IH]; [split; [constructor|split; [reflexivity|intros o; cbn [sum_numbers triangles32 flat_map fold_right]; ring]]|].
  cbn [flat_map fold_right length]. unfold triangles32. rewrite flat_map_app. exact (wrapped_app _ _ _ _ _ _ H IH).
Qed.
Lemma total_volume : forall boxes, IZR (fold_right (fun b s => volume b + s)%Z 0%Z boxes) = sum_numbers (fun b => IZR (volume b)) boxes.
Proof. induction boxes as [|b l IH]; [reflexivity|]. cbn [fold_right sum_numbers]. rewrite plus_IZR, IH. reflexivity. Qed.

End Run.

(** ** What is drawn *)
Section Draw.
Context (p : platform).
Local Notation O := (f32_num p).
Local Notation laws := (f32_eq_laws p).
Definition fanned32 (f : face f32) : Prop := in_bounds f /\ exists n, length (f_indices f) = (3 * n)%nat.
Lemma built_fanned32 : forall tx e planes plane f, build_face O tx e planes plane = Ok f -> fanned32 f.
Proof.
  intros tx e planes plane f E. destruct (face_fan _ _ _ _ _ _ E) as (L & B & _). split; [exact B|]. eauto.
Qed.
Lemma draws_triangles32 : forall points ix faces, draws O points ix faces -> (forall f, In f faces -> fanned32 f) -> drawn_triangles (map point_of points) ix = triangles32 faces.
Proof.
  intros points ix faces (_ & _ & D) F. unfold drawn_triangles.
  assert (M : map (spot (map point_of points)) ix = flat_map (fun f => map (place32 f) (f_indices f)) faces).
  { assert (M : map (spot (map point_of points)) ix = map (fun c => match c with Some w => point_of (vt_pos w) | None => V3 0 0 0 end) (flat_map face_corners faces)).
    { clear F. induction D as [|i c ix cs (x & w & Ex & -> & K) D IH]; [reflexivity|]. cbn [map]. f_equal; [|exact IH]. unfold spot. rewrite nth_error_map, Ex. cbn [option_map].
      destruct K as [->|K]; [reflexivity|]. exact (same_point p _ _ K). }
    rewrite M. clear. induction faces as [|f l IH]; [reflexivity|]. cbn [flat_map]. rewrite map_app, IH. f_equal. unfold face_corners, corners. rewrite map_map. apply map_ext. intros i. reflexivity. }
  rewrite M, triples_flat by (intros f I; rewrite map_length; exact (proj2 (F f I))). unfold triangles32, face32.
  clear. induction faces as [|f l IH]; [reflexivity|]. cbn [flat_map]. rewrite IH, triples_map. reflexivity.
Qed.
Lemma split_textures32 : forall ts (l : list (face f32)), NoDup ts -> (forall f, In f l -> In (f_texture f) ts) ->
  Permutation (flat_map (fun t => filter (with_texture t) l) ts) l.
Proof.
  intros ts l N. induction l as [|f l IH]; intros H; [clear; induction ts; [constructor|exact IHts]|].
  specialize (IH (fun g I => H g (or_intror I))). pose proof (H f (or_introl eq_refl)) as I. apply in_split in I. destruct I as (t1 & t2 & ->).
  assert (N' : ~ In (f_texture f) (t1 ++ t2)) by now apply NoDup_remove_2 in N.
  assert (Sk : forall ts', ~ In (f_texture f) ts' -> flat_map (fun t => filter (with_texture t) (f :: l)) ts' = flat_map (fun t => filter (with_texture t) l) ts').
  { clear. induction ts' as [|t ts' IH]; intros N; [reflexivity|]. cbn [flat_map]. rewrite IH by (intros I; apply N; now right). f_equal. cbn [filter].
    destruct (with_texture t f) eqn:W; [|reflexivity]. apply with_texture_true in W. exfalso. apply N. left. now symmetry. }
  rewrite flat_map_app in IH |- *. cbn [flat_map] in IH |- *. rewrite !Sk by (intros I; apply N'; apply in_or_app; tauto). cbn [filter].
  assert (W : with_texture (f_texture f) f = true) by now apply with_texture_true. rewrite W. cbn [app]. etransitivity; [symmetry; apply Permutation_middle|]. now constructor.
Qed.

Definition fan_faces (g : entity_geo f32) : Prop := forall b f, In b (eg_brushes g) -> In f (bg_faces b) -> fanned32 f.
Lemma fan_bounds : forall g, fan_faces g -> geometry_in_bounds g.
Proof. intros g F b f Ib If. exact (proj1 (F b f Ib If)). Qed.
Lemma concave_drawn : forall g k, fan_faces g -> concave_collision O g = Ok k -> forall c T, In T (shells32 (NCollision c k)) ->
  T = triangles32 (flat_map bg_faces (eg_brushes g)) /\ eg_brushes g <> [].
Proof.
  intros g k F E c T I. destruct (concave_full O laws g (fan_bounds g F)) as (kept & vs & ix & E' & Fk & Ev & D & _). unfold collision_of in E'. rewrite E in E'. injection E' as ->.
  destruct vs as [|v vs]; [destruct I|]. cbn [shells32 map In cc_vertices cc_indices] in I. destruct I as [<-|[]]. change (point_of v :: map point_of vs) with (map point_of (v :: vs)).
  split; [apply (draws_triangles32 _ _ _ D); intros f If; apply in_flat_map in If; destruct If as (b & Ib & If); exact (F b f Ib If)|].
  intros N. rewrite N in Fk. inversion Fk; subst. discriminate.
Qed.
Lemma surface_drawn32 : forall g bl t os, fan_faces g -> texture_surface O g bl t = Ok os ->
  match os with Some s => drawn_triangles (map point_of (s_vertices s)) (s_indices s) | None => [] end = triangles32 (selected_faces (drawn_brush bl) (with_texture t) g)
  /\ (os <> None -> filter (drawn_brush bl) (eg_brushes g) <> []).
Proof.
  intros g bl t os F E. pose proof (fan_bounds g F) as Bd.
  assert (Fs : forall f, In f (selected_faces (drawn_brush bl) (with_texture t) g) -> fanned32 f).
  { intros f I. unfold selected_faces in I. apply in_flat_map in I. destruct I as (b & Ib & If). apply filter_In in Ib, If. exact (F b f (proj1 Ib) (proj1 If)). }
  destruct os as [s|].
  - split; [exact (draws_triangles32 _ _ _ (surface_draws O laws _ _ _ _ Bd E) Fs)|]. intros _ N.
    destruct (surface_full O laws g bl t Bd) as (os & E' & kept & res & Fk & _ & M). rewrite E in E'. injection E' as <-. rewrite N in Fk. inversion Fk; subst. destruct M as (M & _). now apply M.
  - split; [|congruence]. pose proof (proj1 (surface_absent O laws g bl t None Bd E) eq_refl) as Z. symmetry. unfold triangles32.
    revert Z Fs. generalize (selected_faces (drawn_brush bl) (with_texture t) g). induction l as [|f l IH]; intros Z Fs; [reflexivity|]. cbn [flat_map].
    rewrite (IH (fun x I => Z x (or_intror I)) (fun x I => Fs x (or_intror I))). destruct (Fs f (or_introl eq_refl)) as (B & _). unfold in_bounds in B. rewrite (Z f (or_introl eq_refl)) in B. unfold face32.
    destruct (f_indices f) as [|i ix]; [reflexivity|]. specialize (B i (or_introl eq_refl)). cbn [length] in B. lia.
Qed.
Lemma surfaces_drawn32 : forall g bl ts l, fan_faces g -> mapM (texture_surface O g bl) ts = Ok l -> NoDup ts ->
  (forall b f, In b (eg_brushes g) -> In f (bg_faces b) -> In (f_texture f) ts) -> filter_map (fun o => o) l <> [] ->
  Permutation (triangles32 (flat_map bg_faces (filter (drawn_brush bl) (eg_brushes g))))
    (flat_map (fun s => drawn_triangles (map point_of (s_vertices s)) (s_indices s)) (filter_map (fun o => o) l))
  /\ filter (drawn_brush bl) (eg_brushes g) <> [].
Proof.
  intros g bl ts l F M N H Ne. apply mapM_ok in M.
  assert (E : flat_map (fun s => drawn_triangles (map point_of (s_vertices s)) (s_indices s)) (filter_map (fun o => o) l) = flat_map (fun t => triangles32 (selected_faces (drawn_brush bl) (with_texture t) g)) ts).
  { clear Ne N H. induction M as [|t os ts l E M IH]; [reflexivity|]. destruct (surface_drawn32 g bl t os F E) as (D & _). cbn [flat_map]. rewrite <- D.
    destruct os as [s|]; cbn [filter_map flat_map app]; now rewrite IH. }
  split.
  - rewrite E. clear E M Ne. set (bs := filter (drawn_brush bl) (eg_brushes g)) in *. unfold triangles32 at 1.
    rewrite <- (Permutation_flat_map face32 (split_textures32 ts (flat_map bg_faces bs) N (fun f I => let '(ex_intro _ b (conj Ib If)) := proj1 (in_flat_map _ _ _) I in H b f (proj1 (proj1 (filter_In _ _ _) Ib)) If))).
    rewrite flat_map_flat. apply Permutation_refl'. apply flat_map_ext. intros t. unfold triangles32, selected_faces. fold bs. f_equal.
    clear. induction bs as [|b bs IH]; [reflexivity|]. cbn [flat_map]. rewrite filter_app. now rewrite IH.
  - destruct (filter_map (fun o => o) l) as [|s l'] eqn:Ef; [congruence|]. assert (I : In s (filter_map (fun o => o) l)) by (rewrite Ef; now left). apply filter_map_In in I. destruct I as (o & Io & ->).
    destruct (Forall2_in_r _ _ _ _ _ _ M Io) as (t & _ & Et). apply (surface_drawn32 g bl t (Some s) F Et). discriminate.
Qed.
End Draw.
