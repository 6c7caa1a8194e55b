(** Triangles of boxes against the boxes: proofs of C153. *)
From Coq Require Import Reals Lra Lia ZArith Permutation Psatz.
From Verif Require Import Prelude F32 Text MapModel GeoModel LayerModel GameDataModel SceneModel RunModel DiffSpec GatherSpec GeoSpec RealSpec WindSpec MapSpec Utf8Spec RunSpec InvarianceSpec ErrorSpec PointsSpec BoxSpec WoundSpec BoxEdgeSpec ShellSpec BrickSpec CartonSpec CladSpec
  BaseProofs GeoProofs RealProofs ErrorProofs BoxProofs BoxFinal BoxEdgeProofs BrickProofs BrickFinal.
Local Open Scope R_scope.

Definition slab (w x z q : vec3 R) : Prop := exists u v, 0 <= u <= 1 /\ 0 <= v <= 1
  /\ q = V3 (vx w + u * (vx x - vx w) + v * (vx z - vx w)) (vy w + u * (vy x - vy w) + v * (vy z - vy w)) (vz w + u * (vz x - vz w) + v * (vz z - vz w)).
Lemma two_triangles : forall w x y z q, vx w + vx y = vx x + vx z -> vy w + vy y = vy x + vy z -> vz w + vz y = vz x + vz z ->
  (covered [(w, x, y); (w, y, z)] q <-> slab w x z q).
Proof.
  intros w x y z q E1 E2 E3. split.
  - intros (a & b & c & [I|[I|[]]] & r & s & t & R0 & S0 & T0 & Su & ->); injection I as <- <- <-.
    + exists (s + t), t. split; [lra|]. split; [lra|]. unfold blend. replace r with (1 - s - t) by lra. replace (vx y) with (vx x + vx z - vx w) by lra. replace (vy y) with (vy x + vy z - vy w) by lra. replace (vz y) with (vz x + vz z - vz w) by lra. f_equal; ring.
    + exists s, (s + t). split; [lra|]. split; [lra|]. unfold blend. replace r with (1 - s - t) by lra. replace (vx y) with (vx x + vx z - vx w) by lra. replace (vy y) with (vy x + vy z - vy w) by lra. replace (vz y) with (vz x + vz z - vz w) by lra. f_equal; ring.
  - intros (u & v & U & V & ->). destruct (Rle_lt_dec v u) as [L|L].
    + exists w, x, y. split; [now left|]. exists (1 - u), (u - v), v. repeat (split; [lra|]). unfold blend. replace (vx y) with (vx x + vx z - vx w) by lra. replace (vy y) with (vy x + vy z - vy w) by lra. replace (vz y) with (vz x + vz z - vz w) by lra. f_equal; ring.
    + exists w, y, z. split; [right; now left|]. exists (1 - v), u, (v - u). repeat (split; [lra|]). unfold blend. replace (vx y) with (vx x + vx z - vx w) by lra. replace (vy y) with (vy x + vy z - vy w) by lra. replace (vz y) with (vz x + vz z - vz w) by lra. f_equal; ring.
Qed.
Lemma ratio : forall a b q, a < b -> a <= q <= b -> 0 <= (q - a) / (b - a) <= 1 /\ 0 <= (q - b) / (a - b) <= 1.
Proof.
  intros a b q L Q. pose proof (Rinv_0_lt_compat (b - a) ltac:(lra)) as P. assert (E : (b - a) * / (b - a) = 1) by (apply Rinv_r; lra).
  replace ((q - b) / (a - b)) with ((b - q) / (b - a)) by (field; lra). unfold Rdiv. split; split; nra.
Qed.
Lemma slab_side : forall lo hi s w x y z, box lo hi -> In [w; x; y; z] (rotations (cycle4 lo hi s)) -> forall q, slab (reals w) (reals x) (reals z) q <-> side_point lo hi s q.
Proof.
  intros [a b c] [a' b' c'] s w x y z (A & B & C & _) I [q1 q2 q3]. cbn [vx vy vz] in A, B, C. apply IZR_lt in A, B, C.
  destruct s; cbn [cycle4 rotations In vx vy vz] in I; destruct I as [I|[I|[I|[I|[]]]]]; injection I as <- <- <- <-;
    unfold slab, side_point, in_box, reals; cbn [vx vy vz];
    generalize dependent (IZR a); generalize dependent (IZR a'); generalize dependent (IZR b); generalize dependent (IZR b'); generalize dependent (IZR c); generalize dependent (IZR c');
    clear; intros c' c C b' b B a' a A.
  all: split;
    [intros (u & v & U & V & E); injection E as -> -> ->; repeat split; nra
    |intros ((Q1 & Q2 & Q3) & Q)].
  all: pose proof (fun L => ratio _ _ _ L Q1) as R1; pose proof (fun L => ratio _ _ _ L Q2) as R2; pose proof (fun L => ratio _ _ _ L Q3) as R3;
    specialize (R1 ltac:(assumption)); specialize (R2 ltac:(assumption)); specialize (R3 ltac:(assumption)); destruct R1 as (R1 & R1'), R2 as (R2 & R2'), R3 as (R3 & R3').
  all: let go e1 e2 := (exists e1, e2; split; [assumption|]; split; [assumption|]; subst; f_equal; (field; repeat split; lra)) in
    first [go ((q2 - b) / (b' - b)) ((q3 - c) / (c' - c))|go ((q2 - b) / (b' - b)) ((q3 - c') / (c - c'))|go ((q2 - b') / (b - b')) ((q3 - c) / (c' - c))|go ((q2 - b') / (b - b')) ((q3 - c') / (c - c'))
      |go ((q3 - c) / (c' - c)) ((q2 - b) / (b' - b))|go ((q3 - c') / (c - c')) ((q2 - b) / (b' - b))|go ((q3 - c) / (c' - c)) ((q2 - b') / (b - b'))|go ((q3 - c') / (c - c')) ((q2 - b') / (b - b'))
      |go ((q2 - b) / (b' - b)) ((q1 - a) / (a' - a))|go ((q2 - b) / (b' - b)) ((q1 - a') / (a - a'))|go ((q2 - b') / (b - b')) ((q1 - a) / (a' - a))|go ((q2 - b') / (b - b')) ((q1 - a') / (a - a'))
      |go ((q1 - a) / (a' - a)) ((q2 - b) / (b' - b))|go ((q1 - a') / (a - a')) ((q2 - b) / (b' - b))|go ((q1 - a) / (a' - a)) ((q2 - b') / (b - b'))|go ((q1 - a') / (a - a')) ((q2 - b') / (b - b'))
      |go ((q1 - a) / (a' - a)) ((q3 - c) / (c' - c))|go ((q1 - a) / (a' - a)) ((q3 - c') / (c - c'))|go ((q1 - a') / (a - a')) ((q3 - c) / (c' - c))|go ((q1 - a') / (a - a')) ((q3 - c') / (c - c'))
      |go ((q3 - c) / (c' - c)) ((q1 - a) / (a' - a))|go ((q3 - c') / (c - c')) ((q1 - a) / (a' - a))|go ((q3 - c) / (c' - c)) ((q1 - a') / (a - a'))|go ((q3 - c') / (c - c')) ((q1 - a') / (a - a'))].
Qed.

Lemma box_sides : forall lo hi x, on_box lo hi x <-> exists s, side_point lo hi s x.
Proof.
  intros lo hi x. split.
  - intros (I & [E|[E|[E|[E|[E|E]]]]]); [exists XDown|exists XUp|exists YDown|exists YUp|exists ZDown|exists ZUp]; split; assumption.
  - intros ([] & I & E); (split; [exact I|]); auto 10.
Qed.
Lemma covered_flat : forall fs x, covered (triangles32 fs) x <-> exists f, In f fs /\ covered (face32 f) x.
Proof.
  intros fs x. split.
  - intros (a & b & c & I & T). apply in_flat_map in I. destruct I as (f & If & I). exists f. split; [exact If|]. exists a, b, c. auto.
  - intros (f & If & a & b & c & I & T). exists a, b, c. split; [|exact T]. apply in_flat_map. eauto.
Qed.
Lemma covered_perm : forall l l' x, Permutation l l' -> covered l x -> covered l' x.
Proof. intros l l' x P (a & b & c & I & T). exists a, b, c. split; [exact (Permutation_in _ P I)|exact T]. Qed.

Section Run.
Context (p : platform) (r : Z) (a : R) (Rr : (1 <= r <= 40000)%Z) (Da : a <= / (3 * IZR r)) (AC : accurate_angle a (p_atan2 p)).
Local Notation O := (f32_num p).

Lemma face_clad : forall lo hi b s area plane tx e f, box lo hi -> box_brush p lo hi b -> box_plane lo hi s area plane -> exact_length p area ->
  slender r lo hi -> grid_plane plane -> build_face O tx e b plane = Ok f -> forall x, covered (face32 f) x <-> side_point lo hi s x.
Proof.
  intros lo hi b s k plane tx e f Bx Bb Hp Hk Sl G E x. destruct (face_brick p r a Rr Da AC lo hi b s k plane tx e f Bx Bb Hp Hk Sl G E) as (l & Il & ->).
  destruct (four_list _ _ (cycle_length lo hi s)) as (c0 & c1 & c2 & c3 & EC).
  assert (Ll : exists w x y z, l = [w; x; y; z]) by (rewrite EC in Il; destruct Il as [<-|[<-|[<-|[<-|[]]]]]; eauto 6). destruct Ll as (w & y & z & v & ->).
  cbn [map fan4]. rewrite <- (slab_side lo hi s w y z v Bx Il x).
  assert (P : (vx w + vx z = vx y + vx v /\ vy w + vy z = vy y + vy v /\ vz w + vz z = vz y + vz v)%Z).
  { clear - Il. destruct s; cbn [cycle4 rotations In vx vy vz] in Il; destruct Il as [I|[I|[I|[I|[]]]]]; injection I as <- <- <- <-; cbn [vx vy vz]; repeat split; ring. }
  destruct P as (P1 & P2 & P3). apply two_triangles; unfold reals; cbn [vx vy vz]; rewrite <- !plus_IZR; f_equal; assumption.
Qed.

Lemma block_brush : forall lo hi planes, block p r (lo, hi) planes -> box lo hi /\ slender r lo hi /\ (forall pl, In pl planes -> grid_plane pl) /\ box_brush p lo hi planes.
Proof.
  intros lo hi planes (Bx & Sl & Gr & sides & P & F). split; [exact Bx|]. split; [exact Sl|]. split; [exact Gr|]. split.
  - intros pl Hpl. destruct (Forall2_in_l _ _ _ _ _ _ F Hpl) as (s & _ & k & H). eauto.
  - intros s. assert (Hs : In s sides) by (apply (Permutation_in _ (Permutation_sym P)); destruct s; cbn; tauto).
    destruct (Forall2_in_r _ _ _ _ _ _ F Hs) as (pl & Hpl & k & H). exists pl, k. tauto.
Qed.

Theorem brush_clad : forall tx e planes b lo hi, block p r (lo, hi) planes -> build_brush O tx e planes = Ok b -> forall x, covered (triangles32 (bg_faces b)) x <-> on_box lo hi x.
Proof.
  intros tx e planes b lo hi Bk E x. destruct (block_brush lo hi planes Bk) as (Bx & Sl & Gr & Bb).
  unfold build_brush in E. apply bind_ok in E. destruct E as (fs & Ef & E). injection E as <-. cbn [bg_faces]. apply mapM_ok in Ef. rewrite covered_flat, box_sides. split.
  - intros (f & If & C). destruct (Forall2_in_r _ _ _ _ _ _ Ef If) as (pl & Ip & E). destruct (proj1 Bb pl Ip) as (s & area & Hp & Hk). exists s.
    exact (proj1 (face_clad lo hi planes s area pl tx e f Bx Bb Hp Hk Sl (Gr pl Ip) E x) C).
  - intros (s & C). destruct (proj2 Bb s) as (pl & area & Ip & Hp & Hk). destruct (Forall2_in_l _ _ _ _ _ _ Ef Ip) as (f & If & E). exists f. split; [exact If|].
    exact (proj2 (face_clad lo hi planes s area pl tx e f Bx Bb Hp Hk Sl (Gr pl Ip) E x) C).
Qed.

Lemma face_drawn : forall f : face f32, face32 f = drawn_triangles (map point_of (map vt_pos (f_vertices f))) (f_indices f).
Proof.
  intros f. unfold drawn_triangles, face32. rewrite <- ShellProofs.triples_map. f_equal. apply map_ext. intros i. unfold place32, spot. rewrite map_map, nth_error_map. now destruct (nth_error (f_vertices f) i).
Qed.
Theorem box_clad : forall tx e planes b lo hi, block p r (lo, hi) planes -> build_brush O tx e planes = Ok b ->
  forall x, (exists f, In f (bg_faces b) /\ covered (drawn_triangles (map point_of (map vt_pos (f_vertices f))) (f_indices f)) x) <-> on_box lo hi x.
Proof.
  intros tx e planes b lo hi Bk E x. rewrite <- (brush_clad tx e planes b lo hi Bk E x), covered_flat. split; intros (f & If & C); exists f; (split; [exact If|]); [rewrite face_drawn|rewrite <- face_drawn]; exact C.
Qed.

Section Map.
Context (order : hmap (list (brush_geo f32)) -> list (str * list (brush_geo f32))) (permutes : forall m, Permutation (order m) m).
Context (fuel : nat) (c : config) (text : str) (d : doc) (nodes : list (node f32)).
Context (Ft : file_text (cf_map c) text) (Td : text_document p text d) (Bd : block_document p r d) (Er : run p order fuel c = Ok nodes).

Lemma laid_clad : forall T, laid p r d T -> clads_boxes p r d T.
Proof.
  intros T (bs & (e0 & ch & I & S & F) & N & P).
  assert (Bx : exists boxes, Forall2 (block_of p r) ch boxes /\ Forall2 (fun b box1 => forall x, covered (triangles32 (bg_faces b)) x <-> on_box (fst box1) (snd box1) x) bs boxes).
  { clear - F Rr Da AC. induction F as [|ls b ch bs ((x & pls & tx & e & A & B & E) & _) F (boxes & F1 & F2)]; [exists []; split; constructor|]. exists (x :: boxes).
    split; constructor; [exists pls; auto|exact F1| |exact F2]. destruct x as [lo hi]. exact (brush_clad tx e pls b lo hi B E). }
  destruct Bx as (boxes & F1 & F2). exists e0, ch, boxes. split; [exact I|]. split; [exact S|]. split; [intros ->; inversion F; subst; now apply N|]. split; [exact F1|].
  intros x. split.
  - intros C. apply (covered_perm _ _ x (Permutation_sym P)), covered_flat in C. destruct C as (f & If & C). apply in_flat_map in If. destruct If as (b & Ib & If).
    destruct (Forall2_in_l _ _ _ _ _ _ F2 Ib) as ((lo & hi) & Ibx & Hx). exists lo, hi. split; [exact Ibx|]. apply Hx, covered_flat. eauto.
  - intros (lo & hi & Ibx & C). destruct (Forall2_in_r _ _ _ _ _ _ F2 Ibx) as (b & Ib & Hx). apply Hx, covered_flat in C. destruct C as (f & If & C).
    apply (covered_perm _ _ x P), covered_flat. exists f. split; [apply in_flat_map; eauto|exact C].
Qed.
Theorem clad_shapes : forall n0 o k T, In n0 nodes -> InvarianceSpec.within (NCollision o k) n0 -> In T (shells32 (NCollision o k)) -> clads_boxes p r d T.
Proof. intros n0 o k T I W IT. apply laid_clad. exact (shapes_of p r Rr order permutes fuel c text d nodes Ft Td Bd Er n0 o k T I W IT). Qed.
Theorem clad_meshes : (forall e lines ln pl, In e d -> In lines (doc_brushes e) -> In ln lines -> reads_as p ln pl -> ~ In (bp_texture pl) (bl_plane (cf_blacklist c))) ->
  forall n0 o v T, In n0 nodes -> InvarianceSpec.within (NVisual o v) n0 -> In T (shells32 (NVisual o v)) -> clads_boxes p r d T.
Proof. intros Bl n0 o v T I W IT. apply laid_clad. exact (meshes_of p r Rr order permutes fuel c text d nodes Ft Td Bd Er Bl n0 o v T I W IT). Qed.
End Map.
End Run.
