(** Vertices of the meshes of whole runs: lemmas for C102. *)
From Coq Require Import Reals Lra Lia ZArith Permutation.
From Flocq Require Import Core.
From Verif Require Import Prelude F32 Text MapModel GeoModel LayerModel GameDataModel SceneModel RunModel
  GatherSpec SurfaceSpec GeoSpec NumberSpec LayerSpec TreeSpec PropertySpec MapSpec Utf8Spec RunSpec InvarianceSpec RealSpec ErrorSpec PointsSpec UvSpec MeshSpec
  BaseProofs GatherProofs FloatProofs NumberProofs ColorProofs ArithProofs ExactProofs GeoProofs GeoFinal AttributeProofs RunProofs SoundProofs ErrorProofs ErrorFinal NormalProofs
  PointsProofs PointsFinal UvProofs UvFinal MeshProofs.
Local Open Scope R_scope.

Section Final.
Context (p : platform).
Local Notation O := (f32_num p).

Lemma coordinate_bound : forall k r m texel scale offset size, 0 <= k <= 1 -> 0 <= texel <= 8 -> 0 <= m -> r <= 46 / 10 * m + 100 * eta ->
  / 2 ^ 20 <= Rabs scale -> sane_size size ->
  coordinate_error k (texel * r) scale offset size <= coordinate_error k (texel * (5 * m)) scale offset size + / 10 ^ 30.
Proof.
  intros k r m texel scale offset size K T M Rm S (N1 & N2). unfold coordinate_error.
  pose proof eta_small as HE. assert (P20 : 0 < / 2 ^ 20) by (apply Rinv_0_lt_compat; lra).
  assert (NP : 1 <= IZR (Z.of_N size)) by (apply (IZR_le 1); lia). set (n := IZR (Z.of_N size)) in *. set (o := Rabs offset) in *. set (s := Rabs scale) in *.
  assert (H : texel * r <= texel * (5 * m) + 800 * eta).
  { apply Rle_trans with (texel * (5 * m + 100 * eta)); [apply Rmult_le_compat_l; lra|]. assert (texel * (100 * eta) <= 8 * (100 * eta)) by (apply Rmult_le_compat_r; lra). lra. }
  assert (Is : 0 < / s <= 2 ^ 20).
  { split; [apply Rinv_0_lt_compat; lra|]. rewrite <- (Rinv_inv (2 ^ 20)). apply Rinv_le_contravar; assumption. }
  assert (In1 : 0 < / n <= 1) by (split; [apply Rinv_0_lt_compat; lra|rewrite <- Rinv_1; apply Rinv_le_contravar; lra]).
  assert (E1 : texel * r / s <= texel * (5 * m) / s + 800 * eta * 2 ^ 20).
  { apply Rle_trans with ((texel * (5 * m) + 800 * eta) * / s); [apply Rmult_le_compat_r; lra|]. rewrite Rmult_plus_distr_r.
    assert (800 * eta * / s <= 800 * eta * 2 ^ 20) by (apply Rmult_le_compat_l; lra). unfold Rdiv. lra. }
  assert (E2 : (texel * r / s + o) / n <= (texel * (5 * m) / s + o) / n + 800 * eta * 2 ^ 20).
  { apply Rle_trans with ((texel * (5 * m) / s + o + 800 * eta * 2 ^ 20) * / n); [apply Rmult_le_compat_r; lra|]. rewrite (Rmult_plus_distr_r _ (800 * eta * 2 ^ 20)).
    assert (800 * eta * 2 ^ 20 * / n <= 800 * eta * 2 ^ 20 * 1) by (apply Rmult_le_compat_l; lra). unfold Rdiv at 3. lra. }
  assert (E3 : k * ((texel * r / s + o) / n) <= k * ((texel * (5 * m) / s + o) / n) + 800 * eta * 2 ^ 20).
  { apply Rle_trans with (k * ((texel * (5 * m) / s + o) / n + 800 * eta * 2 ^ 20)); [apply Rmult_le_compat_l; lra|]. rewrite Rmult_plus_distr_l.
    assert (k * (800 * eta * 2 ^ 20) <= 1 * (800 * eta * 2 ^ 20)) by (apply Rmult_le_compat_r; lra). lra. }
  lra.
Qed.

Lemma face_uv : forall tx e planes plane f v size m, build_face O tx e planes plane = Ok f ->
  (forall q, In q (plane :: planes) -> grid_plane q) -> (Z.of_nat (length planes) <= 4000)%Z -> In v (f_vertices f) ->
  hget tx (bp_texture plane) = Some size -> (forall w, In w (f_vertices f) -> norm (point_of (vt_pos w)) <= m) ->
  exists t, vt_uv v = Some t /\ near_uv p m plane size (point_of (vt_pos v)) t.
Proof.
  intros tx e planes plane f v size m E G L Hv Hs Bm.
  destruct (corner_origin O (f32_eq_laws p) tx e planes plane f v E Hv) as (p1 & p2 & x & _ & _ & _ & _ & U). rewrite Hs in U. destruct U as (t & _ & Eu).
  exists t. split; [exact Eu|]. intros Sx Sy N1 N2.
  assert (Ne : f_vertices f <> []) by (intros K; rewrite K in Hv; destruct Hv).
  pose proof (centre_size p tx e planes plane f m E G L Ne Bm) as Cs. pose proof (Bm v Hv) as Vm.
  assert (M0 : 0 <= m) by (eapply Rle_trans; [apply norm_pos|exact Vm]).
  assert (Re : norm (point_of (vt_pos v)) + norm (point_of (f_center f)) <= 46 / 10 * m + 100 * eta) by lra.
  pose proof Sx as (_ & Bx & _). pose proof Sy as (_ & By & _).
  destruct (bp_uv plane) as [uo vo|ua uo va vo] eqn:Huv.
  - intros c s d Ht Ho Hp. pose proof Ht as (_ & Hd & _).
    destruct (standard_accurate p tx e planes plane f v size uo vo c s d E G L Hv Hs Huv Ht Ho Hp Sx Sy N1 N2) as (a & t' & Et & F1 & F2 & Na & Ma & E1 & E2).
    rewrite Eu in Et. injection Et as <-. exists a. split; [exact Na|]. split; [exact Ma|]. split; [exact F1|]. split; [exact F2|].
    assert (K : 0 <= / 2 ^ 20 + 2 * d <= 1) by lra.
    split; (eapply Rle_trans; [eassumption|]).
    + pose proof (coordinate_bound _ _ m 1 _ (val uo) (fst size) K ltac:(lra) M0 Re Bx N1) as C. rewrite !Rmult_1_l in C. exact C.
    + pose proof (coordinate_bound _ _ m 1 _ (val vo) (snd size) K ltac:(lra) M0 Re By N2) as C. rewrite !Rmult_1_l in C. exact C.
  - intros Ha Hb Ho Hp.
    destruct (valve_accurate p tx e planes plane f v size ua uo va vo E G L Hv Hs Huv Ha Hb Ho Hp Sx Sy N1 N2) as (t' & Et & F1 & F2 & E1 & E2).
    rewrite Eu in Et. injection Et as <-. split; [exact F1|]. split; [exact F2|].
    assert (K : 0 <= / 2 ^ 20 <= 1) by lra.
    assert (A : forall a, sane_axis a -> 0 <= norm (point_of a) <= 8).
    { intros a (_ & X & Y & Z). split; [apply norm_pos|]. eapply Rle_trans; [apply (norm_cube _ 4); assumption|lra]. }
    split; (eapply Rle_trans; [eassumption|]); apply coordinate_bound; auto.
Qed.

Lemma face_normal : forall tx x e planes plane f v, build_face O tx x planes plane = Ok f -> (forall k, get_property x k = doc_value e k) ->
  (forall q, In q (plane :: planes) -> grid_plane q) -> In v (f_vertices f) -> near_normal e (plane_of plane) (vt_normal v).
Proof.
  intros tx x e planes plane f v E Pr G Hv. destruct (unit_normals p tx x planes plane f v E G Hv) as [F N]. split; [exact F|]. split; [exact N|].
  intros Np w Hw. assert (NP : ~ phong x) by (intros H; apply Np; rewrite <- Pr; exact H).
  rewrite (flat_normals O tx x planes plane f v E Hv NP).
  assert (Gp : grid_plane plane) by (apply G; now left). destruct (normal_near p plane Gp) as [_ D].
  assert (w = unit_along (facing (plane_of plane))).
  { destruct Hw as [[Z _]|[_ ->]]; [exfalso; apply Gp; exact Z|]. unfold unit_along, vscale. f_equal; unfold Rdiv; ring. }
  subst w. eapply Rle_trans; [exact D|]. lra.
Qed.

Lemma face_side : forall tx e planes plane f m v, build_face O tx e planes plane = Ok f -> (forall q, In q (plane :: planes) -> grid_plane q) ->
  (Z.of_nat (length planes) <= 4000)%Z -> (forall v, In v (f_vertices f) -> norm (point_of (vt_pos v)) <= m) -> In v (f_vertices f) ->
  near_side_corner m (plane_of plane) (map plane_of planes) (point_of (vt_pos v)).
Proof.
  intros tx e planes plane f m v E G L Bm Hv.
  assert (Ne : f_vertices f <> []) by (intros K; rewrite K in Hv; destruct Hv).
  pose proof (centre_size p tx e planes plane f m E G L Ne Bm) as Cs. pose proof (Bm v Hv) as Vm. pose proof eta_small as HE.
  assert (M0 : 0 <= m) by (eapply Rle_trans; [apply norm_pos|exact Vm]).
  destruct (corners_accurate p tx e planes plane f v E G L Hv) as (p1 & p2 & x & I1 & I2 & X0 & X1 & X2 & Op & D).
  exists (plane_of p1), (plane_of p2), x.
  split; [now apply in_map|]. split; [now apply in_map|]. split; [exact X0|]. split; [exact X1|]. split; [exact X2|]. split; [exact Op|].
  eapply Rle_trans; [exact D|]. set (g := / 2 ^ 19 * _). clearbody g.
  replace (2 ^ 23) with 8388608 by ring. replace (2 ^ 21) with 2097152 by ring. replace (10 ^ 29) with 100000000000000000000000000000 by ring. replace (10 ^ 30) with 1000000000000000000000000000000 by ring. lra.
Qed.

Lemma all_some : forall A (l : list (option A)), (forall x, In x l -> x <> None) -> exists r, l = map Some r.
Proof.
  intros A l. induction l as [|[a|] l IH]; intros H; [exists []; reflexivity| |exfalso; apply (H None); [now left|reflexivity]].
  destruct IH as (r & ->); [intros x Hx; apply H; now right|]. exists (a :: r). reflexivity.
Qed.

Theorem mesh_vertices : forall order, (forall m, Permutation (order m) m) -> forall fuel c text d nodes,
  file_text (cf_map c) text -> text_document p text d -> grid_document p d -> run p order fuel c = Ok nodes ->
  forall n0 o ss s m, In n0 nodes -> InvarianceSpec.within (NVisual o (VisMesh ss)) n0 -> In s ss ->
  (forall v, In v (s_vertices s) -> norm (point_of v) <= m) ->
  length (s_normals s) = length (s_vertices s) /\ length (s_tangents s) = length (s_vertices s) /\
  forall i v, nth_error (s_vertices s) i = Some v ->
  exists e planes pl n t, side_of p d e planes pl /\ drawn_as (cf_textures c) pl (s_texture s)
    /\ finite_point v /\ near_solid m (map plane_of planes) (point_of v) /\ near_side_corner m (plane_of pl) (map plane_of planes) (point_of v)
    /\ nth_error (s_normals s) i = Some n /\ near_normal e (plane_of pl) n
    /\ nth_error (s_tangents s) i = Some t /\ (forall ua uo va vo, bp_uv pl = UVValve ua uo va vo -> fst t = ua)
    /\ (forall cs, s_colors s = Some cs -> exists numbers color, bp_extra pl = ExDaikatana numbers color /\ nth_error cs i = Some color)
    /\ forall size, hget (cf_textures c) (bp_texture pl) = Some size ->
         exists uvs uv, s_uvs s = Some uvs /\ nth_error uvs i = Some uv /\ near_uv p m pl size (point_of v) uv.
Proof.
  intros order P fuel c text d nodes Ft Td Gd Er n0 o ss s m I0 W Is Bm.
  pose proof Er as Er'. rewrite run_split in Er'. pose proof Ft as Ft'. apply read_ok in Ft'. rewrite Ft' in Er'. cbn [bind] in Er'.
  apply bind_ok in Er'. destruct Er' as ([ps es] & El & _). pose proof (loaded_document p text d ps es Td El) as Ag.
  set (B := fun bg : brush_geo f32 => exists e b planes x, In e d /\ In b (doc_brushes e) /\ Forall2 (reads_as p) b planes
    /\ (forall k, get_property x k = doc_value e k)
    /\ forall f, In f (bg_faces bg) -> exists pl, In pl planes /\ build_face O (cf_textures c) x planes pl = Ok f).
  assert (Bb : forall b f, B b -> In f (bg_faces b) -> in_bounds f).
  { intros b f (e & b' & planes & x & _ & _ & _ & _ & K) Hf. destruct (K f Hf) as (pl & _ & E). apply face_fan in E. destruct E as (_ & E & _). exact E. }
  assert (Fn : meshed p B (NVisual o (VisMesh ss))).
  { eapply run_mesh; [exact Bb|exact P|exact Ft|exact El| |exact Er|exact I0|exact W].
    intros gs Eg e g Ie. apply geometry_shape in Eg. pose proof Ie as Ie'. apply in_combine_l in Ie'. apply (in_combine_Forall2 _ _ _ _ _ _ _ Eg) in Ie. destruct Ie as (Ie & _).
    destruct (Forall2_in_r _ _ _ _ _ _ Ag Ie') as (x & Hx & Px & Fx). apply Forall_forall. intros bg Hb.
    destruct (Forall2_in_r _ _ _ _ _ _ Ie Hb) as (br & Hbr & F & _). destruct (Forall2_in_r _ _ _ _ _ _ Fx Hbr) as (lb & Hlb & Fb).
    exists x, lb, br, e. repeat split; auto. intros f Hf. destruct (Forall2_in_r _ _ _ _ _ _ F Hf) as (pl & Hpl & Ef). eauto. }
  specialize (Fn o ss eq_refl). rewrite Forall_forall in Fn. destruct (Fn s Is) as (vs & Ne & (D1 & D2 & D3 & D4 & D5) & Src).
  assert (K : forall bg f, B bg -> In f (bg_faces bg) -> exists e b planes x pl, In e d /\ In b (doc_brushes e) /\ Forall2 (reads_as p) b planes
    /\ (forall k, get_property x k = doc_value e k)
    /\ (forall q, In q planes -> grid_plane q) /\ In pl planes /\ (Z.of_nat (length planes) <= 4000)%Z /\ build_face O (cf_textures c) x planes pl = Ok f
    /\ forall w, In w (f_vertices f) -> finite_point (vt_pos w)).
  { intros bg f (e & b & planes & x & Ie & Ib & Fb & Pr & K) Hf. destruct (K f Hf) as (pl & Ipl & Ef).
    assert (G : forall q, In q planes -> grid_plane q).
    { intros q Hq. destruct (Forall2_in_r _ _ _ _ _ _ Fb Hq) as (ln & Hln & Rl). destruct (Gd e b Ie Ib) as (_ & Gb). eauto. }
    assert (L : (Z.of_nat (length planes) <= 4000)%Z) by (rewrite <- (Forall2_length _ _ _ _ _ Fb); apply (Gd e b Ie Ib)).
    assert (G' : forall q, In q (pl :: planes) -> grid_plane q) by (intros q [<-|I]; auto).
    destruct (corners_inside p (cf_textures c) x planes pl f Ef G' L) as (_ & Fin).
    exists e, b, planes, x, pl. split; [exact Ie|]. split; [exact Ib|]. split; [exact Fb|]. split; [exact Pr|]. split; [exact G|]. split; [exact Ipl|]. split; [exact L|]. split; [exact Ef|].
    intros w Hw. now apply Fin. }
  assert (Fin : forall v, In v (s_vertices s) -> finite_point v).
  { intros v' Hv'. rewrite D1 in Hv'. apply in_map_iff in Hv'. destruct Hv' as (w & <- & Hw). destruct (Src w Hw) as (bg & f & Bg & Hf & _ & Hwf & _).
    destruct (K bg f Bg Hf) as (e & b & planes & x & pl & _ & _ & _ & _ & _ & _ & _ & _ & Fw). now apply Fw. }
  split; [now rewrite D1, D2, !map_length|]. split; [now rewrite D1, D3, !map_length|].
  intros i v Hi. pose proof (Fin v (nth_error_In _ _ Hi)) as Fv. rewrite D1, nth_error_map in Hi.
  destruct (nth_error vs i) as [w|] eqn:Hw; [|discriminate]. injection Hi as <-.
  destruct (Src w (nth_error_In _ _ Hw)) as (bg & f & Bg & Hf & Tf & Hwf & Cov).
  destruct (K bg f Bg Hf) as (e & b & planes & x & pl & Ie & Ib & Fb & Pr & G & Ipl & L & Ef & Fw).
  assert (G' : forall q, In q (pl :: planes) -> grid_plane q) by (intros q [<-|I]; auto).
  assert (Bf : forall w', In w' (f_vertices f) -> norm (point_of (vt_pos w')) <= m).
  { intros w' Hw'. destruct (Cov w' Hw') as (v' & Iv & [<-|Eq]); [now apply Bm|].
    apply (pos_eq_point p) in Eq; [rewrite <- Eq; now apply Bm|apply finite_fins; now apply Fin|apply finite_fins; now apply Fw]. }
  exists e, planes, pl, (vt_normal w), (vt_tangent w).
  split; [exists b; auto|].
  destruct (face_near p (cf_textures c) x planes pl f m Ef G Ipl L Bf w Hwf) as (_ & N1 & _).
  destruct (face_texture O (cf_textures c) x planes pl f Ef) as (Tx & Un & Co).
  split.
  { rewrite <- Tf. destruct (f_texture f) as [name|] eqn:Ft0; cbn [drawn_as].
    - destruct (proj1 (Tx name) eq_refl) as (-> & Sz). auto.
    - destruct (hget (cf_textures c) (bp_texture pl)) as [size|] eqn:Hs; [|reflexivity]. assert (None = Some (bp_texture pl)) by (apply Tx; eauto). discriminate. }
  split; [exact Fv|]. split; [exact N1|]. split; [exact (face_side _ _ _ _ _ _ _ Ef G' L Bf Hwf)|].
  split; [rewrite D2, nth_error_map, Hw; reflexivity|]. split; [exact (face_normal _ _ _ _ _ _ _ Ef Pr G' Hwf)|].
  split; [rewrite D3, nth_error_map, Hw; reflexivity|]. split.
  { intros ua uo va vo Hu. destruct (corner_origin O (f32_eq_laws p) _ _ _ _ _ _ Ef Hwf) as (p1 & p2 & y & _ & _ & _ & Et & _).
    unfold vertex_tangent in Et. rewrite Hu in Et. injection Et as Et. rewrite <- Et. reflexivity. }
  split.
  { intros cs Hc. apply D5 in Hc. assert (Q : nth_error (map vt_color vs) i = Some (vt_color w)) by (rewrite nth_error_map, Hw; reflexivity).
    rewrite Hc, nth_error_map in Q. destruct (nth_error cs i) as [col|]; [|discriminate]. injection Q as Q. symmetry in Q. apply (Co w col Hwf) in Q. destruct Q as (n & Q). eauto. }
  intros size Hs. destruct (face_uv _ _ _ _ _ _ _ m Ef G' L Hwf Hs Bf) as (uv & Eu & Nu).
  destruct (all_some _ (map vt_uv vs)) as (uvs & Euv).
  { intros z Hz. apply in_map_iff in Hz. destruct Hz as (w' & <- & Hw'). destruct (Src w' Hw') as (bg' & f' & Bg' & Hf' & Tf' & Hwf' & _).
    destruct (K bg' f' Bg' Hf') as (e' & b' & planes' & x' & pl' & _ & _ & _ & _ & _ & _ & _ & Ef' & _).
    destruct (face_texture O (cf_textures c) x' planes' pl' f' Ef') as (_ & Un' & _). intros Z. apply (Un' w' Hwf') in Z. rewrite Tf', <- Tf in Z.
    assert (f_texture f = Some (bp_texture pl)) by (apply Tx; eauto). congruence. }
  exists uvs, uv. split; [now apply D4|]. split; [|exact Nu].
  assert (Q : nth_error (map vt_uv vs) i = Some (Some uv)) by (rewrite nth_error_map, Hw; cbn; now rewrite Eu).
  rewrite Euv, nth_error_map in Q. destruct (nth_error uvs i); [injection Q as ->; reflexivity|discriminate].
Qed.
End Final.
