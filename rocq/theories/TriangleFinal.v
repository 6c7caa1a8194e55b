(** Triangles of whole runs: lemmas for C106. *)
From Coq Require Import Reals Lra Lia ZArith Permutation.
From Flocq Require Import Core.
From Verif Require Import Prelude F32 Text MapModel GeoModel LayerModel GameDataModel SceneModel RunModel
  GatherSpec SurfaceSpec GeoSpec NumberSpec LayerSpec TreeSpec PropertySpec MapSpec Utf8Spec RunSpec InvarianceSpec RealSpec WindSpec ErrorSpec PointsSpec UvSpec MeshSpec
  CornerSpec MeanSpec WoundSpec TriangleSpec
  BaseProofs GatherProofs FloatProofs NumberProofs ColorProofs ArithProofs ExactProofs GeoProofs GeoFinal AttributeProofs RunProofs SoundProofs ErrorProofs ErrorFinal NormalProofs
  PointsProofs PointsFinal UvProofs UvFinal MeshFinal WoundProofs TriangleProofs.
Local Open Scope R_scope.

Section Final.
Context (p : platform).
Local Notation O := (f32_num p).

Lemma fan_corner : forall (f : face f32) i j, nth_error (f_indices f) i = Some j -> nth_error (face_corners f) i = Some (nth_error (f_vertices f) j).
Proof. intros f i j H. unfold face_corners, corners. now rewrite nth_error_map, H. Qed.

Lemma fan_all : forall n l j, is_fan n l -> (3 <= n)%nat -> (j < n)%nat -> In j l.
Proof.
  intros n l j (_ & _ & K) L H. destruct j as [|[|j]].
  - destruct (K 0%nat) as (A & _); [lia|]. apply nth_error_In in A. exact A.
  - destruct (K 0%nat) as (_ & A & _); [lia|]. apply nth_error_In in A. exact A.
  - destruct (K j) as (_ & _ & A); [lia|]. apply nth_error_In in A. replace (S (S j)) with (j + 2)%nat by lia. exact A.
Qed.

(** The face a triangle comes from. *)
Lemma triangle_origin : forall order, (forall m, Permutation (order m) m) -> forall fuel c text d nodes,
  file_text (cf_map c) text -> text_document p text d -> grid_document p d -> run p order fuel c = Ok nodes ->
  forall n0 n points ix t, In n0 nodes -> InvarianceSpec.within n n0 -> In (points, ix, t) (drawings n) ->
  exists count, length ix = (3 * count)%nat /\ forall k, (k < count)%nat ->
  exists v v' v'' e planes pl x f w w' w'' m, kth_triangle points ix k v v' v'' /\ finite_point v /\ finite_point v' /\ finite_point v''
    /\ side_of p d e planes pl /\ (forall u, t = Some u -> drawn_as (cf_textures c) pl u)
    /\ (forall q, In q planes -> grid_plane q) /\ In pl planes /\ (Z.of_nat (length planes) <= 4000)%Z /\ build_face O (cf_textures c) x planes pl = Ok f
    /\ nth_error (f_vertices f) 0 = Some w /\ nth_error (f_vertices f) (m + 1) = Some w' /\ nth_error (f_vertices f) (m + 2) = Some w''
    /\ point_of v = point_of (vt_pos w) /\ point_of v' = point_of (vt_pos w') /\ point_of v'' = point_of (vt_pos w'')
    /\ (forall bm, (forall q, In q points -> norm (point_of q) <= bm) -> forall z, In z (f_vertices f) -> norm (point_of (vt_pos z)) <= bm).
Proof.
  intros order P fuel c text d nodes Ft Td Gd Er n0 n points ix t I0 W Is.
  pose proof Er as Er'. rewrite run_split in Er'. pose proof Ft as Ft'. apply read_ok in Ft'. rewrite Ft' in Er'. cbn [bind] in Er'.
  apply bind_ok in Er'. destruct Er' as ([ps es] & El & _). pose proof (loaded_document p text d ps es Td El) as Ag.
  set (B := fun bg : brush_geo f32 => exists e b planes x, In e d /\ In b (doc_brushes e) /\ Forall2 (reads_as p) b planes
    /\ (forall k, get_property x k = doc_value e k)
    /\ forall f, In f (bg_faces bg) -> exists pl, In pl planes /\ build_face O (cf_textures c) x planes pl = Ok f).
  assert (Bb : forall b f, B b -> In f (bg_faces b) -> in_bounds f).
  { intros b f (e & b' & planes & x & _ & _ & _ & _ & K) Hf. destruct (K f Hf) as (pl & _ & E). apply face_fan in E. destruct E as (_ & E & _). exact E. }
  assert (Made : forall gs, build_geometry O (cf_textures c) es = Ok gs -> forall e g, In (e, g) (combine es gs) -> Forall B (eg_brushes g)).
  { intros gs Eg e g Ie. apply geometry_shape in Eg. pose proof Ie as Ie'. apply in_combine_l in Ie'. apply (in_combine_Forall2 _ _ _ _ _ _ _ Eg) in Ie. destruct Ie as (Ie & _).
    destruct (Forall2_in_r _ _ _ _ _ _ Ag Ie') as (x & Hx & Px & Fx). apply Forall_forall. intros bg Hb.
    destruct (Forall2_in_r _ _ _ _ _ _ Ie Hb) as (br & Hbr & F & _). destruct (Forall2_in_r _ _ _ _ _ _ Fx Hbr) as (lb & Hlb & Fb).
    exists x, lb, br, e. repeat split; auto. intros f Hf. destruct (Forall2_in_r _ _ _ _ _ _ F Hf) as (pl & Hpl & Ef). eauto. }
  assert (K : forall bg f, B bg -> In f (bg_faces bg) -> exists e planes x pl, side_of p d e planes pl
    /\ (forall q, In q planes -> grid_plane q) /\ In pl planes /\ (Z.of_nat (length planes) <= 4000)%Z /\ build_face O (cf_textures c) x planes pl = Ok f
    /\ forall w, In w (f_vertices f) -> finite_point (vt_pos w)).
  { intros bg f (e & b & planes & x & Ie & Ib & Fb & Pr & K) Hf. destruct (K f Hf) as (pl & Ipl & Ef).
    assert (G : forall q, In q planes -> grid_plane q).
    { intros q Hq. destruct (Forall2_in_r _ _ _ _ _ _ Fb Hq) as (ln & Hln & Rl). destruct (Gd e b Ie Ib) as (_ & Gb). eauto. }
    assert (L : (Z.of_nat (length planes) <= 4000)%Z) by (rewrite <- (Forall2_length _ _ _ _ _ Fb); apply (Gd e b Ie Ib)).
    assert (G' : forall q, In q (pl :: planes) -> grid_plane q) by (intros q [<-|I]; auto).
    destruct (corners_inside p (cf_textures c) x planes pl f Ef G' L) as (_ & Fin).
    exists e, planes, x, pl. split; [exists b; auto|]. split; [exact G|]. split; [exact Ipl|]. split; [exact L|]. split; [exact Ef|].
    intros w Hw. now apply Fin. }
  assert (Fin : forall v, In v points -> finite_point v).
  { assert (Fn : fine p B n) by (eapply run_fine; [exact Bb|exact P|exact Ft|exact El|exact Made|exact Er|exact I0|exact W]).
    assert (Ip : In points (point_lists n)).
    { destruct n as [o a ch|o [|ss]|o [|cs|cs]]; cbn [drawings point_lists] in *; try contradiction; apply in_map_iff in Is; destruct Is as (s & Es & Is); injection Es as <- _ _; now apply in_map. }
    unfold fine in Fn. rewrite Forall_forall in Fn. intros v Hv. destruct (Fn _ Ip v Hv) as (b & f & w & Hb & Hf & Hw & -> & _).
    destruct (K b f Hb Hf) as (e & planes & x & pl & _ & _ & _ & _ & _ & Fw). now apply Fw. }
  assert (Tr : all_traced p B n) by (eapply run_traced; [exact Bb|exact P|exact Ft|exact El|exact Made|exact Er|exact I0|exact W]).
  unfold all_traced in Tr. rewrite Forall_forall in Tr. destruct (Tr _ Is) as (faces & (Dl & Db & Df) & Src).
  assert (Fl : forall f, In f faces -> is_fan (length (f_vertices f)) (f_indices f)).
  { intros f Hf. destruct (Src f Hf) as ((b & Bg & Hfb) & _). destruct (K b f Bg Hfb) as (_ & planes & x & pl & _ & _ & _ & _ & Ef & _). eapply face_fan; exact Ef. }
  assert (M3 : forall f, In f faces -> exists q, length (face_corners f) = (3 * q)%nat).
  { intros f Hf. destruct (Fl f Hf) as (Lf & _). unfold face_corners, corners. rewrite map_length. eauto. }
  assert (Tot : exists q, length (flat_map face_corners faces) = (3 * q)%nat).
  { clear -M3. induction faces as [|f faces IH]; [exists 0%nat; reflexivity|]. destruct (M3 f (or_introl eq_refl)) as (a & Ha). destruct IH as (b & Hb); [intros; apply M3; now right|].
    cbn [flat_map]. rewrite app_length, Ha, Hb. exists (a + b)%nat. lia. }
  destruct Tot as (count & Tot). pose proof (Forall2_length _ _ _ _ _ Df) as Lx. exists count. split; [congruence|]. intros k Lk.
  destruct (triple_face faces k M3) as (f & m & h & If & Lm & Lh & Eh & Nf); [lia|].
  destruct (Src f If) as ((b & Bg & Hfb) & Tx). destruct (K b f Bg Hfb) as (e & planes & x & pl & Sd & G & Ipl & L & Ef & Fw).
  assert (G' : forall q, In q (pl :: planes) -> grid_plane q) by (intros q [<-|I]; auto).
  pose proof (Fl f If) as Fan. destruct Fan as (Lf & Bf & Kf).
  assert (Lc : length (face_corners f) = length (f_indices f)) by (unfold face_corners, corners; apply map_length).
  destruct (Kf m) as (F0 & F1 & F2); [lia|].
  (* the point of each corner *)
  assert (Get : forall i j, (i < length (face_corners f))%nat -> nth_error (f_indices f) i = Some j -> exists l q w, nth_error ix (h + i) = Some l /\ nth_error points l = Some q
    /\ nth_error (f_vertices f) j = Some w /\ point_of q = point_of (vt_pos w)).
  { intros i j Hi Hj. pose proof (Nf i Hi) as N0. rewrite (fan_corner f i j Hj) in N0. destruct (Forall2_nth_r _ _ _ _ _ _ _ Df N0) as (l & Hl & q & w & Hq & Ew & Pw).
    exists l, q, w. split; [exact Hl|]. split; [exact Hq|]. split; [exact Ew|]. destruct Pw as [->|Pw]; [reflexivity|].
    apply (pos_eq_point p) in Pw; [exact Pw|apply finite_fins, Fin; apply nth_error_In in Hq; exact Hq|apply finite_fins, Fw; apply nth_error_In in Ew; exact Ew]. }
  destruct (Get (3 * m)%nat 0%nat) as (l0 & q0 & w0 & X0 & Q0 & W0 & P0); [lia|exact F0|].
  destruct (Get (3 * m + 1)%nat (m + 1)%nat) as (l1 & q1 & w1 & X1 & Q1 & W1 & P1); [lia|exact F1|].
  destruct (Get (3 * m + 2)%nat (m + 2)%nat) as (l2 & q2 & w2 & X2 & Q2 & W2 & P2); [lia|exact F2|].
  exists q0, q1, q2, e, planes, pl, x, f, w0, w1, w2, m.
  split. { exists l0, l1, l2. rewrite <- Eh. replace (h + 3 * m + 1)%nat with (h + (3 * m + 1))%nat by lia. replace (h + 3 * m + 2)%nat with (h + (3 * m + 2))%nat by lia. repeat split; assumption. }
  split; [apply Fin; apply nth_error_In in Q0; exact Q0|]. split; [apply Fin; apply nth_error_In in Q1; exact Q1|]. split; [apply Fin; apply nth_error_In in Q2; exact Q2|].
  split; [exact Sd|]. split.
  { intros u ->. destruct (face_texture O (cf_textures c) x planes pl f Ef) as (T1 & _ & _). rewrite <- Tx. destruct (f_texture f) as [name|] eqn:Ft0; cbn [drawn_as].
    - destruct (proj1 (T1 name) eq_refl) as (-> & Sz). auto.
    - destruct (hget (cf_textures c) (bp_texture pl)) as [size|] eqn:Hs; [|reflexivity]. assert (None = Some (bp_texture pl)) by (apply T1; eauto). discriminate. }
  split; [exact G|]. split; [exact Ipl|]. split; [exact L|]. split; [exact Ef|]. split; [exact W0|]. split; [exact W1|]. split; [exact W2|]. split; [exact P0|]. split; [exact P1|]. split; [exact P2|].
  intros bm Bm w' Hw'. apply In_nth_error in Hw'. destruct Hw' as (j & Hj). assert (Lj : (j < length (f_vertices f))%nat) by (apply nth_error_Some; congruence).
  assert (Ij : In j (f_indices f)) by (apply (fan_all (length (f_vertices f))); [repeat split; assumption || apply Kf; assumption|lia|exact Lj]).
  apply In_nth_error in Ij. destruct Ij as (i & Hi). destruct (Get i j) as (l & q & w'' & _ & Hq & Hw'' & Pq); [rewrite Lc; apply nth_error_Some; congruence|exact Hi|].
  assert (w'' = w') by congruence. subst w''. rewrite <- Pq. apply Bm. apply nth_error_In in Hq. exact Hq.
Qed.

Theorem triangles : forall order, (forall m, Permutation (order m) m) -> forall fuel c text d nodes,
  file_text (cf_map c) text -> text_document p text d -> grid_document p d -> run p order fuel c = Ok nodes ->
  forall n0 n points ix t, In n0 nodes -> InvarianceSpec.within n n0 -> In (points, ix, t) (drawings n) ->
  exists count, length ix = (3 * count)%nat /\ forall k, (k < count)%nat ->
  exists v v' v'' e planes pl, kth_triangle points ix k v v' v'' /\ finite_point v /\ finite_point v' /\ finite_point v''
    /\ side_of p d e planes pl /\ (forall u, t = Some u -> drawn_as (cf_textures c) pl u)
    /\ (forall m w, (forall q, In q points -> norm (point_of q) <= m) -> In w [v; v'; v''] ->
         near_solid m (map plane_of planes) (point_of w) /\ near_side_corner m (plane_of pl) (map plane_of planes) (point_of w))
    /\ (well_shaped p planes pl -> clockwise (facing (plane_of pl)) (point_of v) (point_of v') (point_of v'')).
Proof.
  intros order P fuel c text d nodes Ft Td Gd Er n0 n points ix t I0 W Is.
  destruct (triangle_origin order P fuel c text d nodes Ft Td Gd Er n0 n points ix t I0 W Is) as (count & Lx & K). exists count. split; [exact Lx|]. intros k Lk.
  destruct (K k Lk) as (q0 & q1 & q2 & e & planes & pl & x & f & w0 & w1 & w2 & m & Tr & F0 & F1 & F2 & Sd & Dr & G & Ipl & L & Ef & W0 & W1 & W2 & P0 & P1 & P2 & Bm).
  assert (G' : forall q, In q (pl :: planes) -> grid_plane q) by (intros q [<-|I]; auto).
  exists q0, q1, q2, e, planes, pl. split; [exact Tr|]. split; [exact F0|]. split; [exact F1|]. split; [exact F2|]. split; [exact Sd|]. split; [exact Dr|]. split.
  { intros bm w Bd Hw. pose proof (Bm bm Bd) as Bw.
    assert (Ex : exists w', In w' (f_vertices f) /\ point_of w = point_of (vt_pos w')).
    { destruct Hw as [<-|[<-|[<-|[]]]]; [exists w0|exists w1|exists w2]; (split; [|assumption]); [apply nth_error_In in W0; exact W0|apply nth_error_In in W1; exact W1|apply nth_error_In in W2; exact W2]. }
    destruct Ex as (w' & Hw' & ->). destruct (face_near p (cf_textures c) x planes pl f bm Ef G Ipl L Bw w' Hw') as (_ & N1 & _).
    split; [exact N1|]. exact (face_side _ _ _ _ _ _ _ _ Ef G' L Bw Hw'). }
  intros (CL & SI & dd & s & r & bb & xs & AC & ND & T & SP & BL & S0 & Dd & Small & TH). rewrite P0, P1, P2.
  eapply (wound_floats p (cf_textures c) x planes pl f dd s r bb xs Ef G' L CL SI AC ND T SP BL S0 Dd Small TH 0%nat (m + 1)%nat (m + 2)%nat); [lia|lia|exact W0|exact W1|exact W2].
Qed.
End Final.
