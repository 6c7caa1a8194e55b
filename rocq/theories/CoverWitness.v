(** A box whose sides are all good, to try C107 on. *)
From Coq Require Import Reals Lra Lia ZArith Permutation.
From Flocq Require Import Core.
From Verif Require Import Prelude F32 Text MapModel GeoModel LayerModel GameDataModel SceneModel RunModel Witness SceneWitness
  MapSpec Utf8Spec RunSpec InvarianceSpec LayerSpec TreeSpec NumberSpec KeptSpec RealSpec WindSpec ErrorSpec PointsSpec CornerSpec MeanSpec SolidSpec WoundSpec MeshSpec TriangleSpec SharedSpec CoverSpec
  BaseProofs PlaneProofs MapProofs RunProofs PrintProofs FloatProofs ArithProofs ExactProofs BoxSpec ErrorProofs ErrorFinal SharedProofs
  GeoWitness RunWitness PointsWitness ErrorWitness CornerWitness WindWitness WoundWitness KeptWitness TriangleWitness.
Local Open Scope R_scope.

(** ** The sides by name *)
Inductive dir := East | West | North | South | Top | Bottom.
Definition dirs : list dir := [East; West; North; South; Top; Bottom].
Definition plane_at (d : dir) : brush_plane f32 := match d with East => east | West => west | North => north | South => south | Top => lid | Bottom => ground end.
Lemma box6_dirs : box6 = map plane_at dirs.
Proof. reflexivity. Qed.
Definition out (d : dir) : vec3 Z :=
  match d with East => V3 1 0 0 | West => V3 (-1) 0 0 | North => V3 0 1 0 | South => V3 0 (-1) 0 | Top => V3 0 0 1 | Bottom => V3 0 0 (-1) end%Z.
Definition turn (a b c : dir) : Z := zinner (zouter (out a) (out b)) (out c).
Definition place (d : dir) : vec3 Z :=
  match d with East => V3 16 0 0 | West => V3 (-16) 0 0 | North => V3 0 24 0 | South => V3 0 (-8) 0 | Top => V3 0 0 32 | Bottom => V3 0 0 0 end%Z.
Definition corner (a b c : dir) : vec3 Z :=
  V3 (vx (place a) + vx (place b) + vx (place c))%Z (vy (place a) + vy (place b) + vy (place c))%Z (vz (place a) + vz (place b) + vz (place c))%Z.

Lemma in_dirs : forall d, In d dirs.
Proof. intros []; cbn; tauto. Qed.
Lemma in_box6 : forall pl, In pl box6 -> exists d, pl = plane_at d.
Proof. intros pl H. rewrite box6_dirs in H. apply in_map_iff in H. destruct H as (d & <- & _). eauto. Qed.
Lemma box6_in : forall d, In (plane_at d) box6.
Proof. intros d. rewrite box6_dirs. apply in_map, in_dirs. Qed.

Lemma box_cases : forall a b c x, crossing (plane_at a) (plane_at b) (plane_at c) x -> turn a b c = 1%Z /\ x = reals (corner a b c).
Proof.
  intros a b c x (A & B & C & D).
  destruct a, b, c; cbn [plane_at] in *; sides; turning D; try discriminate D; clear D; equations; (split; [reflexivity|]);
  (apply vec_eq; unfold reals; cbn [vx vy vz]; match goal with |- _ = IZR ?k => let n := eval vm_compute in k in change k with n end; lra).
Qed.

Lemma box_crossing : forall a b c, turn a b c = 1%Z -> 1 <= openness (plane_of (plane_at a)) (plane_of (plane_at b)) (plane_of (plane_at c))
  /\ crossing (plane_at a) (plane_at b) (plane_at c) (reals (corner a b c)) /\ in_solid box6 (reals (corner a b c))
  /\ distances (plane_of (plane_at a)) (plane_of (plane_at b)) (plane_of (plane_at c)) (reals (corner a b c)) <= 180.
Proof.
  intros a b c H.
  assert (OP : 1 <= openness (plane_of (plane_at a)) (plane_of (plane_at b)) (plane_of (plane_at c))).
  { destruct a, b, c; try discriminate H; cbn [plane_at]; sides; (apply (tri_open _ _ _ _ _ _ _ _ _ 64 64 64); try grid; try lia; try (vm_compute; split; reflexivity || discriminate); [lra|];
     match goal with |- _ <= IZR ?z => replace z with 262144%Z by (vm_compute; reflexivity) end; replace (64 * 64 * 64)%Z with 262144%Z by reflexivity; lra). }
  split; [exact OP|]. split; [|split].
  - assert (On : on_plane (plane_of (plane_at a)) (reals (corner a b c)) /\ on_plane (plane_of (plane_at b)) (reals (corner a b c)) /\ on_plane (plane_of (plane_at c)) (reals (corner a b c)))
      by (clear OP; destruct a, b, c; try discriminate H; cbn [plane_at]; sides; (split; [|split]); apply tri_on; first [grid|reflexivity]).
    destruct On as (A & B & C). split; [exact A|]. split; [exact B|]. split; [exact C|]. lra.
  - clear OP. intros q Q. apply in_box6 in Q. destruct Q as (d & ->). destruct a, b, c; try discriminate H; destruct d; cbn [plane_at]; sides; apply tri_within; [grid|grid|grid|znum..].
  - clear OP. assert (N : forall k, on_grid k -> (zinner k k <= 45 * 45)%Z -> norm (point_of (fvz k)) <= 45).
    { intros j G0 Hj. destruct (point_fvz j G0) as [_ ->]. apply (norm_reals j 45); lia. }
    assert (NP : forall d, norm (bp_v0 (plane_of (plane_at d))) <= 45) by (intros d; destruct d; cbn [plane_at]; sides; cbn [plane_of bp_v0 tri wall_at]; apply N; [grid|znum..]).
    assert (NC : norm (reals (corner a b c)) <= 45) by (apply (norm_reals _ 45); [lia|]; destruct a, b, c; try discriminate H; znum).
    unfold distances. pose proof (NP a). pose proof (NP b). pose proof (NP c). lra.
Qed.

Definition haze : R := / 1000 * (4 / 10).
Lemma box_blur : forall a b c x, crossing (plane_at a) (plane_at b) (plane_at c) x ->
  1 <= openness (plane_of (plane_at a)) (plane_of (plane_at b)) (plane_of (plane_at c)) /\ blur (plane_at a) (plane_at b) (plane_at c) x <= haze /\ in_solid box6 x.
Proof.
  intros a b c x X. destruct (box_cases a b c x X) as (K & ->). destruct (box_crossing a b c K) as (OP & _ & S & D).
  split; [exact OP|]. split; [|exact S]. unfold blur, haze. set (o := openness _ _ _) in *. set (d := distances _ _ _ _) in *.
  assert (D0 : d / o <= 180) by (apply Rmult_le_reg_r with o; [lra|]; unfold Rdiv; rewrite Rmult_assoc, Rinv_l, Rmult_1_r by lra; nra).
  replace (2 ^ 19) with 524288 by ring. lra.
Qed.

(** Different pairs of planes meet a side far from each other. *)
Definition far (k l : vec3 Z) : bool := ((32 <=? Z.abs (vx k - vx l)) || (32 <=? Z.abs (vy k - vy l)) || (32 <=? Z.abs (vz k - vz l)))%Z.
Lemma far_norm : forall k l, far k l = true -> 32 <= norm (minus (reals k) (reals l)).
Proof.
  intros k l H. rewrite minus_reals. destruct (coord_norm (reals (zminus k l))) as (N1 & N2 & N3). set (m := norm _) in *. clearbody m. unfold reals, zminus in N1, N2, N3. cbn [vx vy vz] in N1, N2, N3.
  rewrite <- abs_IZR in N1, N2, N3. unfold far in H. apply orb_prop in H. destruct H as [H|H]; [apply orb_prop in H; destruct H as [H|H]|]; apply Z.leb_le, IZR_le in H; lra.
Qed.
Lemma box_unique : forall a b c b' c', turn a b c = 1%Z -> turn a b' c' = 1%Z -> (b = b' /\ c = c') \/ far (corner a b c) (corner a b' c') = true.
Proof. intros a b c b' c' H H'. destruct a, b, c; try discriminate H; destruct b', c'; try discriminate H'; vm_compute; auto. Qed.

Lemma box_clear : forall a, clear box6 (plane_at a) /\ simple box6 (plane_at a).
Proof.
  intros a. split.
  - intros p1 p2 x I1 I2 X. left. apply in_box6 in I1, I2. destruct I1 as (b & ->). destruct I2 as (c & ->). destruct (box_blur a b c x X) as (OP & BL & T). split; [exact T|]. split; [lra|]. intros q H. unfold slack.
    assert (Q : norm (bp_v0 (plane_of q)) <= 45).
    { assert (N : forall k, on_grid k -> (zinner k k <= 45 * 45)%Z -> norm (point_of (fvz k)) <= 45) by (intros k G K; destruct (point_fvz k G) as [_ ->]; apply (norm_reals k 45); lia).
      apply in_box6 in H. destruct H as (d & ->). destruct d; cbn [plane_at]; sides; cbn [plane_of bp_v0 tri wall_at]; apply N; [grid|znum..]. }
    unfold haze in BL. replace (2 ^ 20) with 1048576 by ring. lra.
  - intros p1 p2 x p1' p2' x' I1 I2 I1' I2' X X' _ _. apply in_box6 in I1, I2, I1', I2'. destruct I1 as (b & ->). destruct I2 as (c & ->). destruct I1' as (b' & ->). destruct I2' as (c' & ->).
    destruct (box_blur a b c x X) as (_ & BL & _). destruct (box_blur a b' c' x' X') as (_ & BL' & _).
    destruct (box_cases _ _ _ _ X) as (K & ->). destruct (box_cases _ _ _ _ X') as (K' & ->). unfold haze in *.
    assert (E30 : / 10 ^ 30 <= / 1000) by (apply Rinv_le_contravar; [lra|]; replace (10 ^ 30) with 1000000000000000000000000000000 by ring; lra).
    destruct (box_unique a b c b' c' K K') as [(-> & ->)|F]; [left; auto|]. right. apply far_norm in F. lra.
Qed.

Definition around (a : dir) : list (vec3 Z) :=
  match a with
  | East => [corner East North Top; corner East Top South; corner East South Bottom; corner East Bottom North]
  | West => [corner West Top North; corner West South Top; corner West Bottom South; corner West North Bottom]
  | North => [corner North Top East; corner North West Top; corner North Bottom West; corner North East Bottom]
  | South => [corner South East Top; corner South Top West; corner South West Bottom; corner South Bottom East]
  | Top => [corner Top East North; corner Top North West; corner Top West South; corner Top South East]
  | Bottom => [corner Bottom North East; corner Bottom West North; corner Bottom South West; corner Bottom East South]
  end.
Lemma around_true : forall a x, In x (map reals (around a)) <-> true_corner box6 (plane_at a) x.
Proof.
  intros a x. split.
  - intros H. apply in_map_iff in H. destruct H as (k & <- & H).
    assert (E : exists b c, turn a b c = 1%Z /\ k = corner a b c) by (destruct a; cbn [around In] in H; repeat (destruct H as [<-|H]; [do 2 eexists; split; [|reflexivity]; reflexivity|]); destruct H).
    destruct E as (b & c & T & ->). destruct (box_crossing a b c T) as (_ & X & S & _). split; [|exact S]. exists (plane_at b), (plane_at c). split; [apply box6_in|]. split; [apply box6_in|exact X].
  - intros ((p1 & p2 & I1 & I2 & X) & _). apply in_box6 in I1, I2. destruct I1 as (b & ->). destruct I2 as (c & ->). destruct (box_cases _ _ _ _ X) as (T & ->). apply in_map.
    destruct a, b, c; try discriminate T; cbn [around In]; auto.
Qed.

Lemma box_bounded : bounded (solid (map plane_of box6)).
Proof.
  exists 32. intros x S. assert (W : forall d, RealSpec.within 0 (plane_of (plane_at d)) x) by (intros d; apply S, in_map, box6_in).
  pose proof (W East) as H1. pose proof (W West) as H2. pose proof (W North) as H3. pose proof (W South) as H4. pose proof (W Top) as H5. pose proof (W Bottom) as H6. clear W S.
  cbn [plane_at] in *. sides. equations. repeat split; apply Rabs_le; lra.
Qed.

Lemma box_good : forall a, good_side squared box6 (plane_at a) haze.
Proof.
  intros a. assert (ND : NoDup (map reals (around a))).
  { apply FinFun.Injective_map_NoDup.
    - intros [k1 k2 k3] [l1 l2 l3] H. unfold reals in H. cbn [vx vy vz] in H. injection H as A B C. apply eq_IZR in A, B, C. congruence.
    - destruct a; repeat (constructor; [cbn [In around]; intros H; repeat destruct H as [H|H]; try contradiction; vm_compute in H; discriminate H|]); constructor. }
  assert (Len : length (map reals (around a)) = 4%nat) by (destruct a; reflexivity).
  split; [apply box_clear|]. split; [destruct box_bounded as (m & B); exists m; intros x (_ & S); now apply B|]. split.
  { destruct (map reals (around a)) as [|x [|y [|z l]]] eqn:E; [discriminate Len..|]. exists x, y, z.
    assert (I : forall w, In w [x; y; z] -> true_corner box6 (plane_at a) w) by (intros w H; apply around_true; rewrite E; cbn [In] in *; tauto).
    repeat (split; [apply I; cbn; tauto|]). inversion ND as [|? ? N1 ND1]; subst. inversion ND1 as [|? ? N2 ND2]; subst. cbn [In] in N1, N2. intuition. }
  exists (/ 3), 1, 22. split; [exact diagonal_accurate|]. split.
  { apply simple_spread with (map reals (around a)); [intros q H; apply crate_grid; destruct H as [<-|H]; [apply box6_in|exact H]|apply box_clear|exact ND|apply around_true| |].
    - set (m := fun k : vec3 Z => match a with East => V3 16 8 16 | West => V3 (-16) 8 16 | North => V3 0 24 16 | South => V3 0 (-8) 16 | Top => V3 0 8 32 | Bottom => V3 0 8 0 end%Z).
    assert (G : average (map reals (around a)) = reals (m (V3 0 0 0)%Z)).
    { unfold m. destruct a; unfold average, reals; cbn [around map corner place vx vy vz length fold_right]; cbn [Z.add Z.opp Pos.add Z.pos_sub Pos.succ]; cbn [INR]; apply vec_eq; cbn [vx vy vz]; field. }
    unfold spread. rewrite G. cbn zeta. set (o := m (V3 0 0 0)%Z).
    assert (D : forall k, In k (around a) -> zinner (zminus k o) (zminus k o) = 512%Z) by (unfold o, m; intros k H; destruct a; cbn [around In] in H; repeat (destruct H as [<-|H]; [reflexivity|]); destruct H).
    assert (D2 : forall k l, In k (around a) -> In l (around a) -> k = l \/ (zinner (zminus k o) (zminus l o) <= 0)%Z).
    { unfold o, m; intros k l H H'; destruct a; cbn [around In] in H, H'; repeat (destruct H as [<-|H]; [repeat (destruct H' as [<-|H']; [first [left; reflexivity|right; vm_compute; discriminate]|]); destruct H'|]); destruct H. }
    split.
      + intros x H. apply in_map_iff in H. destruct H as (k & <- & H). apply Rle_trans with (sqrt (22 * 22)); [rewrite sqrt_square; lra|]. unfold norm. apply sqrt_le_1_alt. rewrite minus_reals, inner_reals, (D k H). lra.
      + intros x y H H' N. apply in_map_iff in H, H'. destruct H as (k & <- & H). destruct H' as (l & <- & H'). destruct (D2 k l H H') as [->|L]; [now elim N|]. left.
      rewrite !minus_reals, inner_reals. apply (IZR_le _ 0). exact L.
    - rewrite Len. unfold haze. cbn [INR]. replace (10 ^ 20) with 100000000000000000000 by ring. lra. }
  split; [intros p1 p2 x I1 I2 X _; apply in_box6 in I1, I2; destruct I1 as (b & ->); destruct I2 as (c & ->); apply (box_blur a b c x X)|]. split; lra.
Qed.

(** Other names of textures change nothing. *)
Lemma good_paint : forall p t planes pl b, good_side p planes pl b -> good_side p (map (paint t) planes) (paint t pl) b.
Proof.
  intros p t planes pl b (CL & BD & TH & d & s & r & AC & AS & BL & S0 & Dd).
  assert (Un : forall q, In q (map (paint t) planes) -> exists q', q = paint t q' /\ In q' planes) by (intros q H; apply in_map_iff in H; destruct H as (q' & <- & H); eauto).
  assert (So : forall x, in_solid (map (paint t) planes) x <-> in_solid planes x).
  { intros x. split; [intros S q H; exact (S (paint t q) (in_map _ _ _ H))|]. intros S q H. destruct (Un q H) as (q' & -> & H'). exact (S q' H'). }
  assert (Co : forall x, true_corner planes pl x -> true_corner (map (paint t) planes) (paint t pl) x).
  { intros x ((p1 & p2 & I1 & I2 & X) & S). split; [|now apply So]. exists (paint t p1), (paint t p2). split; [now apply in_map|]. split; [now apply in_map|exact X]. }
  split.
  { intros p1 p2 x I1 I2 X. destruct (Un p1 I1) as (q1 & -> & J1). destruct (Un p2 I2) as (q2 & -> & J2). destruct (CL q1 q2 x J1 J2 X) as [(A & B & C)|(q & J & A)].
    - left. split; [now apply So|]. split; [exact B|]. intros q H. destruct (Un q H) as (q' & -> & H'). exact (C q' H').
    - right. exists (paint t q). split; [now apply in_map|exact A]. }
  split; [replace (map plane_of (map (paint t) planes)) with (map plane_of planes) by (rewrite map_map; reflexivity); exact BD|].
  split. { destruct TH as (x & y & z & X & Y & Z & N). exists x, y, z. auto. }
  exists d, s, r. split; [exact AC|]. split.
  { intros ls (N & I & C).
    assert (PR : exists ks, map snd ks = map snd ls /\ map (fun pq => (paint t (fst pq), paint t (snd pq))) (map fst ks) = map fst ls
      /\ forall p1 p2 x, In (p1, p2, x) ks -> In p1 planes /\ In p2 planes /\ In (paint t p1, paint t p2, x) ls).
    { clear -I Un. induction ls as [|((p1 & p2) & x) ls IH]; [exists []; split; [reflexivity|]; split; [reflexivity|intros ? ? ? []]|].
      destruct IH as (ks & A & B & D); [intros; apply I; now right|]. destruct (I p1 p2 x (or_introl eq_refl)) as (I1 & I2 & _). destruct (Un p1 I1) as (q1 & -> & J1). destruct (Un p2 I2) as (q2 & -> & J2).
      exists ((q1, q2, x) :: ks). cbn [map fst snd]. rewrite A, B. split; [reflexivity|]. split; [reflexivity|].
      intros p1 p2 y [E|H]; [injection E as <- <- <-; split; [exact J1|]; split; [exact J2|now left]|]. destruct (D _ _ _ H) as (? & ? & ?). split; [assumption|]. split; [assumption|now right]. }
    destruct PR as (ks & A & B & D). destruct (AS ks) as (SP & Small).
    - split; [|split].
      + rewrite <- B in N. apply NoDup_map_inv in N. exact N.
      + intros p1 p2 x H. destruct (D _ _ _ H) as (I1 & I2 & H'). destruct (I _ _ _ H') as (_ & _ & X & S). apply So in S. auto.
      + intros x Tx. rewrite A. apply C, Co, Tx.
    - rewrite <- A. split; [exact SP|]. rewrite <- (map_length snd), A, map_length in Small. exact Small. }
  split.
  { intros p1 p2 x I1 I2 X S. destruct (Un p1 I1) as (q1 & -> & J1). destruct (Un p2 I2) as (q2 & -> & J2). apply So in S. exact (BL q1 q2 x J1 J2 X S). }
  auto.
Qed.

(** ** The map with a moat *)
Local Notation P := squared.
Definition moat_doc : doc := source_doc P moat.
Lemma moat_squared : exists nodes, run P given 4 moat_config = Ok nodes.
Proof. eexists. vm_compute. reflexivity. Qed.
Lemma moat_read : file_text (cf_map moat_config) moat_text /\ text_document P moat_text moat_doc /\ grid_document P moat_doc.
Proof. exact moat_file. Qed.

Theorem moat_covered : exists e w b nodes, file_text (cf_map moat_config) moat_text /\ text_document P moat_text moat_doc /\ grid_document P moat_doc /\ run P given 4 moat_config = Ok nodes
  /\ in_tree moat_doc e /\ In b (doc_brushes e) /\ Forall2 (reads_as P) b box6 /\ brush_class (cf_game moat_config) e (BrushData VMesh CConcave) /\ stays (cf_textures moat_config) e box6
  /\ (forall pl, In pl box6 -> visible (cf_textures moat_config) (cf_blacklist moat_config) box6 pl /\ good_side P box6 pl haze)
  /\ In w moat_doc /\ In (map (plane_line P) flood) (doc_brushes w) /\ Forall2 (reads_as P) (map (plane_line P) flood) flood
  /\ moved (cf_textures moat_config) w flood (wl_texture moat_layer)
  /\ only_one (fun l => wl_texture l = wl_texture moat_layer) (gd_layers (cf_game moat_config)) moat_layer /\ (forall pl, In pl flood -> good_side P flood pl haze)
  /\ allowance haze <= / 1000.
Proof.
  destruct moat_squared as (nodes & Er). destruct moat_read as (F & T & G).
  exists (map (item_doc P) [MProp (lit "classname") (lit "handle"); MProp (lit "_tb_group") (lit "7"); MBrush stone]),
    (map (item_doc P) [MProp (lit "classname") (lit "worldspawn"); MBrush stone; MBrush flood]), (map (plane_line P) box6), nodes.
  assert (Id : In (map (item_doc P) [MProp (lit "classname") (lit "door"); MProp (lit "_tb_id") (lit "7")]) moat_doc) by (right; right; now left).
  split; [exact F|]. split; [exact T|]. split; [exact G|]. split; [exact Er|]. split.
  { eapply TreeMember with (g := lit "7"); [apply TreeTop; [exact Id|reflexivity]|now left|reflexivity|reflexivity]. }
  split; [left; reflexivity|]. split; [exact (lines_read stone (or_introl eq_refl))|].
  split. { exists (lit "handle"), handle_def. eexists. split; [reflexivity|]. split; [|reflexivity]. exists [wall_def], []. split; [reflexivity|]. split; [reflexivity|]. intros y [<-|[]]. discriminate. }
  split; [left; discriminate|].
  assert (GS : forall pl, In pl box6 -> good_side P box6 pl haze) by (intros pl H; apply in_box6 in H; destruct H as (a & ->); apply box_good).
  split. { intros pl H. split; [split; [exists pl; split; [exact H|intros t _ []]|intros t _ []]|]. now apply GS. }
  split; [right; now left|]. split; [right; left; reflexivity|]. split; [exact (lines_read flood (or_intror eq_refl))|].
  split. { split; [reflexivity|]. split; [now left|]. intros q H. unfold flood in H. apply in_map_iff in H. destruct H as (q' & <- & _). reflexivity. }
  split. { exists [], []. split; [reflexivity|]. split; [reflexivity|]. split; intros y []. }
  split. { intros pl H. unfold flood in H. apply in_map_iff in H. destruct H as (q & <- & H). apply good_paint. apply GS. exact H. }
  unfold allowance, haze. replace (10 ^ 20) with 100000000000000000000 by ring. lra.
Qed.

(** One brush of it. *)
Lemma box_built : exists g, build_brush (f32_num P) textures (world []) box6 = Ok g /\ length (bg_faces g) = 6%nat.
Proof. eexists. split; vm_compute; reflexivity. Qed.
Theorem box_surface : exists g f, build_brush (f32_num P) textures (world []) box6 = Ok g /\ (forall q, In q box6 -> grid_plane q) /\ (Z.of_nat (length box6) <= 4000)%Z
  /\ (forall pl, In pl box6 -> good_side P box6 pl haze) /\ build_face (f32_num P) textures (world []) box6 lid = Ok f /\ surface_of (map plane_of box6) (V3 3 5 32).
Proof.
  destruct box_built as (g & E & _).
  assert (Ef : exists f, build_face (f32_num P) textures (world []) box6 lid = Ok f) by (eexists; vm_compute; reflexivity). destruct Ef as (f & Ef).
  exists g, f. split; [exact E|]. split; [exact crate_grid|]. split; [vm_compute; discriminate|]. split; [intros pl H; apply in_box6 in H; destruct H as (a & ->); apply box_good|]. split; [exact Ef|]. split.
  - intros q H. apply in_map_iff in H. destruct H as (q' & <- & H). apply in_box6 in H. destruct H as (d & ->). replace (V3 3 5 32) with (reals (V3 3 5 32)%Z) by reflexivity.
    destruct d; cbn [plane_at]; sides; apply tri_within; [grid|grid|grid|znum..].
  - exists (plane_of lid). split; [apply in_map; cbn; tauto|]. replace (V3 3 5 32) with (reals (V3 3 5 32)%Z) by reflexivity. apply tri_on; first [grid|reflexivity].
Qed.
