(** Brushes with a plane through fewer than three places: proofs of C137. *)
From Coq Require Import SpecFloat Permutation Lia.
From Verif Require Import Prelude F32 Text MapModel GeoModel GameDataModel SceneModel RunModel GatherSpec GeoSpec MapSpec Utf8Spec TreeSpec RunSpec PointsSpec PlaceSpec ActorSpec LostSpec
  BaseProofs GatherProofs GeoProofs GeoFinal DegenerateProofs ActorProofs.
From Verif Require InvarianceProofs.
Local Close Scope R_scope.
Local Open Scope nat_scope.

Lemma all_some : forall v, all_nan v -> some_nan v.
Proof. intros v (H & _). now left. Qed.

(** ** Infinite coordinates *)
Definition wild (x : f32) : Prop := x = NaN \/ exists s, x = S754_infinity s.
Lemma wild_sub : forall x y, wild x \/ wild y -> wild (f32_sub x y).
Proof.
  intros x y [[->|[s ->]]|[->|[s ->]]]; unfold wild.
  - left. apply nan_sub. auto.
  - destruct y as [t|[]| |t m e], s; cbn; first [left; reflexivity|right; eexists; reflexivity].
  - left. apply nan_sub. auto.
  - destruct x as [t|[]| |t m e], s; cbn; first [left; reflexivity|right; eexists; reflexivity].
Qed.
Lemma wild_add : forall x y, wild x \/ wild y -> wild (f32_add x y).
Proof.
  intros x y [[->|[s ->]]|[->|[s ->]]]; unfold wild.
  - left. apply nan_add. auto.
  - destruct y as [t|[]| |t m e], s; cbn; first [left; reflexivity|right; eexists; reflexivity].
  - left. apply nan_add. auto.
  - destruct x as [t|[]| |t m e], s; cbn; first [left; reflexivity|right; eexists; reflexivity].
Qed.
Lemma wild_mul : forall x y, wild x \/ wild y -> wild (f32_mul x y).
Proof.
  intros x y [[->|[s ->]]|[->|[s ->]]]; unfold wild.
  - left. apply nan_mul. auto.
  - destruct y as [t|[]| |t m e], s; cbn; first [left; reflexivity|right; eexists; reflexivity].
  - left. apply nan_mul. auto.
  - destruct x as [t|[]| |t m e], s; cbn; first [left; reflexivity|right; eexists; reflexivity].
Qed.
Lemma not_finite : forall x, ~ finite x -> wild x.
Proof. intros x H. destruct x as [s|s| |s m e]; [|right; eauto|left; reflexivity|]; exfalso; apply H; reflexivity. Qed.
Definition wild_vec (v : vec3 f32) : Prop := wild (vx v) \/ wild (vy v) \/ wild (vz v).
Lemma not_finite_vec : forall v, ~ finite_vec v -> wild_vec v.
Proof.
  intros v H. unfold finite_vec, finite in H. unfold wild_vec.
  destruct (f32_finite (vx v)) eqn:A; [|left; apply not_finite; unfold finite; congruence].
  destruct (f32_finite (vy v)) eqn:B; [|right; left; apply not_finite; unfold finite; congruence].
  destruct (f32_finite (vz v)) eqn:C; [|right; right; apply not_finite; unfold finite; congruence]. exfalso. auto.
Qed.

(** ** Counting *)
Lemma filter_le : forall A (f : A -> bool) l, length (filter f l) <= length l.
Proof. intros A f l. induction l as [|a l IH]; [cbn; lia|]. cbn [filter]. destruct (f a); cbn [length]; lia. Qed.
Section Count.
Context {A : Type} (f : A -> bool).
Local Notation count l := (length (filter f l)).
Lemma pairs_count : forall l m, 1 <= count m -> length l + count l * (length m - 1) <= length (filter (fun pq => f (fst pq) || f (snd pq)) (list_prod l m)).
Proof.
  intros l m H. induction l as [|a l IH]; [cbn; lia|]. cbn [list_prod]. rewrite filter_app, app_length.
  assert (E : length (filter (fun pq => f (fst pq) || f (snd pq)) (map (fun y => (a, y)) m)) = if f a then length m else count m).
  { clear. induction m as [|y m IH]; [cbn; destruct (f a); reflexivity|]. cbn [map filter fst snd].
    destruct (f a) eqn:Ea; cbn [orb].
    - cbn [length]. now rewrite IH.
    - destruct (f y); cbn [length]; now rewrite IH. }
  rewrite E. cbn [filter length]. pose proof (filter_le _ f m). destruct (f a); cbn [length]; nia.
Qed.
Lemma count_in : forall l a, In a l -> f a = true -> 1 <= count l.
Proof. intros l a I E. assert (H : In a (filter f l)) by (apply filter_In; auto). destruct (filter f l); [destruct H|cbn; lia]. Qed.
End Count.

Section Lost.
Context (p : platform).
Local Notation O := (f32_num p).

Lemma normalize_wild : forall v, wild_vec v -> some_nan (n_normalize O v).
Proof.
  intros v H. cbn [n_normalize f32_num]. unfold normalize_with.
  set (d := f32_add (f32_add (f32_mul (vx v) (vx v)) (f32_mul (vy v) (vy v))) (f32_mul (vz v) (vz v))).
  assert (D : wild d).
  { unfold d. destruct H as [H|[H|H]].
    - apply wild_add. left. apply wild_add. left. apply wild_mul. auto.
    - apply wild_add. left. apply wild_add. right. apply wild_mul. auto.
    - apply wild_add. right. apply wild_mul. auto. }
  assert (S : wild (f32_sqrt d)) by (destruct D as [->|[[] ->]]; [left; reflexivity|left; reflexivity|right; exists false; reflexivity]).
  unfold some_nan. destruct (p_simd p); cbn [vx vy vz].
  - assert (Q : forall x, wild x -> f32_div x (f32_sqrt d) = NaN).
    { intros x Hx. destruct S as [->|[s ->]]; [apply nan_div; auto|]. destruct Hx as [->|[t ->]]; reflexivity. }
    destruct H as [H|[H|H]]; auto.
  - assert (Q : forall x, wild x -> f32_mul x (f32_div f32_one (f32_sqrt d)) = NaN).
    { intros x Hx. destruct S as [->|[s ->]]; [apply nan_mul; right; apply nan_div; auto|].
      destruct Hx as [->|[t ->]]; [reflexivity|]. destruct s, t; reflexivity. }
    destruct H as [H|[H|H]]; auto.
Qed.
Lemma cross_wild : forall a b, wild_vec a \/ wild_vec b -> wild_vec (v3_cross O a b).
Proof.
  intros a b H. unfold v3_cross, wild_vec. cbn [n_sub n_mul f32_num vx vy vz].
  destruct H as [[H|[H|H]]|[H|[H|H]]].
  - right. right. apply wild_sub. left. apply wild_mul. auto.
  - left. apply wild_sub. left. apply wild_mul. auto.
  - left. apply wild_sub. right. apply wild_mul. auto.
  - right. left. apply wild_sub. left. apply wild_mul. auto.
  - left. apply wild_sub. right. apply wild_mul. auto.
  - left. apply wild_sub. left. apply wild_mul. auto.
Qed.
Lemma unfit_nan : forall pl, unfit p pl -> some_nan (plane_normal O pl).
Proof.
  intros pl H. unfold unfit in H.
  assert (C : coincident p pl \/ (~ finite_vec (bp_v0 pl) \/ ~ finite_vec (bp_v1 pl)) \/ ~ finite_vec (bp_v2 pl)) by (unfold coincident, same_place; tauto).
  destruct C as [C|C]; [apply all_some; now apply coincident_nan|].
  assert (W : forall a b, wild_vec a \/ wild_vec b -> wild_vec (v3_sub O a b)).
  { intros a b K. unfold v3_sub, wild_vec. cbn [vx vy vz n_sub f32_num]. destruct K as [[K|[K|K]]|[K|[K|K]]]; first
      [left; apply wild_sub; auto; fail|right; left; apply wild_sub; auto; fail|right; right; apply wild_sub; auto]. }
  unfold plane_normal. apply normalize_wild, cross_wild. destruct C as [[C|C]|C]; apply not_finite_vec in C.
  - left. apply W. auto.
  - right. apply W. auto.
  - left. apply W. auto.
Qed.

Lemma cross_nan_r : forall a b, some_nan b -> some_nan (v3_cross O a b).
Proof.
  intros a b H. unfold v3_cross, some_nan. cbn [n_sub n_mul f32_num vx vy vz]. destruct H as [H|[H|H]].
  - right. left. apply nan_sub. left. apply nan_mul. auto.
  - left. apply nan_sub. right. apply nan_mul. auto.
  - left. apply nan_sub. left. apply nan_mul. auto.
Qed.
Definition bad (pl : brush_plane f32) : bool :=
  let n := plane_normal O pl in
  match vx n with S754_nan => true | _ => match vy n with S754_nan => true | _ => match vz n with S754_nan => true | _ => false end end end.
Lemma bad_iff : forall pl, bad pl = true <-> some_nan (plane_normal O pl).
Proof.
  intros pl. unfold bad, some_nan. destruct (plane_normal O pl) as [x y z]. cbn [vx vy vz].
  destruct x, y, z; split; intros H; auto; try discriminate; destruct H as [H|[H|H]]; discriminate.
Qed.

Lemma intersect_lost : forall p0 p1 p2, bad p0 = true \/ bad p1 = true \/ bad p2 = true -> exists x, intersect_planes O p0 p1 p2 = Some x /\ lost x.
Proof.
  intros p0 p1 p2 H. rewrite !bad_iff in H. unfold intersect_planes.
  assert (D : v3_dot O (v3_cross O (plane_normal O p0) (plane_normal O p1)) (plane_normal O p2) = NaN).
  { apply dot_nan. destruct H as [H|[H|H]]; [left; now apply cross_nan|left; now apply cross_nan_r|now right]. }
  rewrite D. unfold n_ltb. cbn [n_cmp f32_num]. rewrite nan_cmp by auto. eexists. split; [reflexivity|].
  unfold lost, v3_divs. cbn [vx vy vz n_div f32_num]. rewrite !nan_div by auto. auto.
Qed.
Definition lostb (v : vertex f32) : bool := match vx (vt_pos v), vy (vt_pos v), vz (vt_pos v) with S754_nan, S754_nan, S754_nan => true | _, _, _ => false end.
Lemma lostb_iff : forall v, lostb v = true <-> lost (vt_pos v).
Proof.
  intros v. unfold lostb, lost. destruct (vt_pos v) as [x y z]. cbn [vx vy vz].
  destruct x, y, z; split; intros H; auto; try discriminate; destruct H as (H1 & H2 & H3); discriminate.
Qed.
Lemma vertex_lost : forall tex e planes plane p1 p2 o, build_plane_vertex O tex e planes plane p1 p2 = Ok o -> bad plane = true \/ bad p1 = true \/ bad p2 = true ->
  exists v, o = Some v /\ lostb v = true.
Proof.
  intros tex e planes plane p1 p2 o E H. unfold build_plane_vertex in E. destruct (intersect_lost _ _ _ H) as (x & Ex & Lx). rewrite Ex in E.
  assert (Hh : vertex_in_hull O x planes = true) by (apply hull_iff, inside_nan; left; apply Lx). rewrite Hh in E.
  apply bind_ok in E. destruct E as (t & _ & E). apply bind_ok in E. destruct E as (u & _ & E). injection E as <-. eexists. split; [reflexivity|]. now apply lostb_iff.
Qed.
Definition involved (plane : brush_plane f32) (pq : brush_plane f32 * brush_plane f32) : bool := bad plane || (bad (fst pq) || bad (snd pq)).
Lemma vertices_lost : forall tex e planes plane vs, plane_vertices O tex e planes plane = Ok vs ->
  length (filter (involved plane) (list_prod planes planes)) <= length (filter lostb vs).
Proof.
  intros tex e planes plane vs E. unfold plane_vertices in E. apply bind_ok in E. destruct E as (os & Eo & E). injection E as <-. apply mapM_ok in Eo.
  induction Eo as [|pq o l os Ho Eo IH]; [cbn; lia|]. cbn [filter filter_map]. destruct (involved plane pq) eqn:I.
  - unfold involved in I. apply Bool.orb_prop in I. assert (I' : bad plane = true \/ bad (fst pq) = true \/ bad (snd pq) = true) by (destruct I as [I|I]; [auto|apply Bool.orb_prop in I; auto]).
    destruct (vertex_lost _ _ _ _ _ _ _ Ho I') as (v & -> & Lv). cbn [filter]. rewrite Lv. cbn [length]. lia.
  - destruct o as [v|]; [|exact IH]. cbn [filter]. destruct (lostb v); cbn [length]; lia.
Qed.

Lemma eqb_lost : forall a b, lost b -> v3_eqb O a b = false.
Proof.
  intros a b (H & _). unfold v3_eqb, n_eqb. cbn [n_cmp f32_num]. rewrite H. rewrite (nan_cmp (vx a) NaN) by auto. reflexivity.
Qed.
Lemma unique_lost : forall ph vs, length (filter lostb vs) <= length (filter lostb (unique_vertices O ph vs)).
Proof.
  intros ph vs. induction vs as [|v vs IH]; [cbn; lia|]. cbn [unique_vertices filter]. destruct (lostb v) eqn:L.
  - apply lostb_iff in L. assert (Ex : existsb (fun c => v3_eqb O (vt_pos c) (vt_pos v)) vs = false).
    { clear IH. induction vs as [|c vs IH]; [reflexivity|]. cbn [existsb]. now rewrite eqb_lost, IH. }
    rewrite Ex. cbn [filter].
    assert (P : lostb (if ph then
           let v' := fold_left (fun acc next => if v3_eqb O (vt_pos next) (vt_pos acc) then set_normal acc (vt_normal next) else acc) vs v in
           set_normal v' (n_normalize O (vt_normal v')) else v) = true).
    { apply lostb_iff. destruct ph; [|exact L]. cbv zeta. unfold set_normal at 1. cbn [vt_pos].
      assert (F : forall l acc, lost (vt_pos acc) -> lost (vt_pos (fold_left (fun acc next => if v3_eqb O (vt_pos next) (vt_pos acc) then set_normal acc (vt_normal next) else acc) l acc))).
      { induction l as [|n l IHl]; intros acc La; [exact La|]. cbn [fold_left]. apply IHl. destruct (v3_eqb O (vt_pos n) (vt_pos acc)); exact La. }
      now apply F. }
    cbv zeta in P |- *. rewrite P. cbn [length]. lia.
  - destruct (existsb (fun c => v3_eqb O (vt_pos c) (vt_pos v)) vs); [exact IH|]. cbn [filter]. match goal with |- context [if lostb ?x then _ else _] => destruct (lostb x) end; cbn [length]; lia.
Qed.
Lemma unique_shorter : forall ph (vs : list (vertex f32)), length (unique_vertices O ph vs) <= length vs.
Proof.
  intros ph vs. induction vs as [|v vs IH]; [cbn; lia|]. cbn [unique_vertices]. destruct (existsb (fun c => v3_eqb O (vt_pos c) (vt_pos v)) vs); cbn [length]; lia.
Qed.

Lemma add_lost : forall a b, lost a \/ lost b -> lost (v3_add O a b).
Proof.
  intros a b H. unfold lost, v3_add. cbn [vx vy vz n_add f32_num]. rewrite !nan_add; auto; destruct H as [(A & B & C)|(A & B & C)]; auto.
Qed.
Lemma sub_lost : forall a b, lost a \/ lost b -> lost (v3_sub O a b).
Proof.
  intros a b H. unfold lost, v3_sub. cbn [vx vy vz n_sub f32_num]. rewrite !nan_sub; auto; destruct H as [(A & B & C)|(A & B & C)]; auto.
Qed.
Lemma divs_lost : forall a k, lost a -> lost (v3_divs O a k).
Proof. intros a k (A & B & C). unfold lost, v3_divs. cbn [vx vy vz n_div f32_num]. rewrite A, B, C. auto. Qed.
Lemma fold_lost : forall l s, lost s \/ (exists x, In x l /\ lost x) -> lost (fold_left (v3_add O) l s).
Proof.
  induction l as [|a l IH]; intros s H; [destruct H as [H|(x & [] & _)]; exact H|]. cbn [fold_left]. apply IH.
  destruct H as [H|(x & [->|I] & Lx)]; [left; apply add_lost; auto|left; apply add_lost; auto|right; eauto].
Qed.
Lemma mean_lost : forall l x, In x l -> lost x -> lost (mean O l).
Proof. intros l x I Lx. unfold mean. apply divs_lost, fold_lost. right. eauto. Qed.
Lemma is_mean_lost : forall l x c, In x l -> lost x -> is_mean O l c -> lost c.
Proof.
  intros l x c I Lx (s & Hs & ->). apply divs_lost.
  assert (E : forall s0 l0 r, sum_from O s0 l0 r -> r = fold_left (v3_add O) l0 s0) by (intros s0 l0 r Hr; induction Hr; [reflexivity|exact IHHr]).
  rewrite (E _ _ _ Hs). apply fold_lost. right. eauto.
Qed.

(** ** Faces *)
Lemma face_lost : forall tx e planes plane d f, In d planes -> bad d = true -> build_face O tx e planes plane = Ok f ->
  lost_face f /\ 2 * length planes - 1 <= length (f_vertices f) /\ (bad plane = true -> length (f_vertices f) = length planes * length planes).
Proof.
  intros tx e planes plane d f Id Bd E. unfold build_face in E. apply bind_ok in E. destruct E as (vs & Ev & E). injection E as <-.
  pose proof (vertices_lost _ _ _ _ _ Ev) as Lv. pose proof (unique_lost (is_phong e) vs) as Lu. set (uniq := unique_vertices O (is_phong e) vs) in *.
  pose proof (count_in bad planes d Id Bd) as Cn. pose proof (pairs_count bad planes planes Cn) as Pc.
  assert (Le : length (filter (fun pq => bad (fst pq) || bad (snd pq)) (list_prod planes planes)) <= length (filter (involved plane) (list_prod planes planes))).
  { generalize (list_prod planes planes). intros l. induction l as [|pq l IH]; [cbn; lia|]. cbn [filter]. unfold involved at 1.
    destruct (bad (fst pq) || bad (snd pq)); [rewrite Bool.orb_true_r; cbn [length]; lia|]. destruct (bad plane); cbn [orb length]; lia. }
  assert (Np : 1 <= length planes) by (destruct planes; [destruct Id|cbn; lia]).
  assert (Hc : 2 * length planes - 1 <= length (filter lostb uniq)) by nia.
  assert (Lm : exists v, In v uniq /\ lostb v = true).
  { destruct (filter lostb uniq) as [|v l] eqn:F; [cbn in Hc; lia|]. exists v. apply filter_In. rewrite F. now left. }
  destruct Lm as (v & Iv & Lvv). apply lostb_iff in Lvv.
  assert (Lc : lost (mean O (map vt_pos uniq))) by (apply (mean_lost _ (vt_pos v)); [now apply in_map|exact Lvv]).
  pose proof (filter_le _ lostb uniq) as Fl.
  unfold lost_face. cbn [f_vertices f_center].
  assert (Ln : forall g cmp h, length (map (move g) (sort_by cmp (map (move h) uniq))) = length uniq) by (intros; now rewrite map_length, sort_by_length, map_length).
  rewrite Ln. split; [split; [|split; [exact Lc|]]|split; [lia|]].
  - intros K. apply (f_equal (@length _)) in K. rewrite Ln in K. cbn in K. lia.
  - apply Forall_forall. intros w Iw. apply in_map_iff in Iw. destruct Iw as (w0 & <- & _). cbn [move vt_pos]. apply add_lost. now right.
  - intros Bp. assert (All : filter (involved plane) (list_prod planes planes) = list_prod planes planes).
    { generalize (list_prod planes planes). intros l. induction l as [|pq l IH]; [reflexivity|]. cbn [filter]. unfold involved at 1. rewrite Bp. cbn [orb]. now rewrite IH. }
    rewrite All, prod_length in Lv. pose proof (unique_shorter (is_phong e) vs) as Us. fold uniq in Us.
    assert (Lvs : length vs <= length planes * length planes).
    { unfold plane_vertices in Ev. apply bind_ok in Ev. destruct Ev as (os & Eo & Ev). injection Ev as <-. apply mapM_ok in Eo. apply Forall2_length in Eo. rewrite prod_length in Eo. rewrite Eo. apply filter_map_length_le. }
    lia.
Qed.

(** ** Brushes and entities *)
Theorem brush_lost : forall tx e b bg d, build_brush O tx e b = Ok bg -> In d b -> unfit p d ->
  lost (bg_center bg) /\ Forall lost_face (bg_faces bg).
Proof.
  intros tx e b bg d E Id Ud. apply unfit_nan, bad_iff in Ud. unfold build_brush in E. apply bind_ok in E. destruct E as (fs & Ef & E). injection E as <-. apply mapM_ok in Ef. cbn [bg_center bg_faces].
  assert (Al : Forall lost_face fs).
  { apply Forall_forall. intros f If. destruct (Forall2_in_r _ _ _ _ _ _ Ef If) as (pl & _ & Ep). exact (proj1 (face_lost _ _ _ _ _ _ Id Ud Ep)). }
  split; [|exact Al]. destruct (Forall2_in_l _ _ _ _ _ _ Ef Id) as (f & If & _). apply (mean_lost _ (f_center f)); [now apply in_map|]. rewrite Forall_forall in Al. apply Al, If.
Qed.
Theorem brush_corners : forall tx e b bg d, build_brush O tx e b = Ok bg -> In d b -> unfit p d ->
  Forall2 (fun pl f => 2 * length b - 1 <= length (f_vertices f) /\ (unfit p pl -> length (f_vertices f) = length b * length b)) b (bg_faces bg).
Proof.
  intros tx e b bg d E Id Ud. apply unfit_nan, bad_iff in Ud. unfold build_brush in E. apply bind_ok in E. destruct E as (fs & Ef & E). injection E as <-. apply mapM_ok in Ef. cbn [bg_faces].
  assert (G : forall l, Forall2 (fun x y => build_face O tx e b x = Ok y) l fs -> Forall2 (fun pl f => 2 * length b - 1 <= length (f_vertices f) /\ (unfit p pl -> length (f_vertices f) = length b * length b)) l fs).
  { clear Ef. intros l Ef. induction Ef as [|pl f l fs Ep Ef IH]; constructor; [|exact IH]. destruct (face_lost _ _ _ _ _ _ Id Ud Ep) as (_ & A & B). split; [exact A|].
    intros U. apply B. now apply bad_iff, unfit_nan. }
  now apply G.
Qed.
Lemma centre_lost : forall tx e c, centre_of p tx e c -> marred p e -> lost c.
Proof.
  intros tx e c (x & gs & (Ap & Ab) & Fb & C) (No & lines & l & pl & Il & Ill & Rd & U). unfold entity_center in C.
  assert (Ho : hget (e_props x) (lit "origin") = None) by (change (get_property x (lit "origin") = None); now rewrite Ap). rewrite Ho in C.
  destruct (Forall2_in_l _ _ _ _ _ _ Ab Il) as (b & Ib & Fl). destruct (Forall2_in_l _ _ _ _ _ _ Fl Ill) as (pl' & Ip & Rd'). pose proof (InvarianceProofs.read_unique p _ _ _ Rd Rd') as ->.
  destruct (Forall2_in_l _ _ _ _ _ _ Fb Ib) as (g & Ig & Eg). apply (is_mean_lost (map bg_center gs) (bg_center g)); [now apply in_map| |exact C].
  exact (proj1 (brush_lost _ _ _ _ _ Eg Ip U)).
Qed.
Lemma same_lost : forall a b, same_vec3 a b -> lost b -> lost a.
Proof.
  intros a b (X & Y & Z) (A & B & C). unfold lost.
  assert (Q : forall x, same_f32 x NaN -> x = NaN) by (intros x [->|(s & t & _ & K)]; [reflexivity|discriminate]).
  rewrite A in X. rewrite B in Y. rewrite C in Z. auto.
Qed.
Lemma minus_lost : forall a b, lost a \/ lost b -> lost (minus a b).
Proof. intros a b H. unfold lost, minus. cbn [vx vy vz]. rewrite !nan_sub; auto; destruct H as [(A & B & C)|(A & B & C)]; auto. Qed.
Theorem tree_nowhere : forall gd fd tx others up e n, entity_tree p gd fd tx others up e n -> marred p e -> nowhere n.
Proof.
  intros gd fd tx others up e n H M. destruct H as [up e c o a v k ge es actors Hc Ho Hd Hk Hg Hs Ha]. pose proof (centre_lost tx e c Hc M) as Lc.
  exists o, a, (ge ++ actors). split; [reflexivity|]. split.
  - unfold offset in Ho. destruct up; eapply same_lost; eauto. apply minus_lost. now left.
  - apply Forall_app. split.
    + destruct Hg as (lv & lk & -> & Hv & Hk'). apply Forall_app. split; [destruct Hv as [(_ & ->)|(_ & ->)]|destruct Hk' as [(_ & ->)|(_ & ->)]]; repeat constructor; apply Lc.
    + apply Forall_forall. intros m Im. destruct (Forall2_in_r _ _ _ _ _ _ Ha Im) as (e' & _ & T). inversion T as [up' e0 c' o' a' v' k' ge' es' actors' _ Ho' _ _ _ _ _]; subst. cbn [node_place offset] in *. eapply same_lost; [exact Ho'|]. apply minus_lost. now right.
Qed.
End Lost.

Theorem world_nowhere : forall p order, (forall m, Permutation (order m) m) -> forall fuel c text d nodes w others,
  file_text (cf_map c) text -> text_document p text d -> run p order fuel c = Ok nodes -> doc_world d others w -> marred p w ->
  exists n rest, nodes = n :: rest /\ nowhere n.
Proof.
  intros p order Po fuel c text d nodes w others Ft Td Er Dw M.
  destruct (run_tree p order Po fuel c text d nodes Ft Td Er) as (w' & others' & world & layers & tops & rest & Dw' & -> & Tw & _).
  exists world, (layers ++ rest). split; [reflexivity|]. eapply tree_nowhere; [exact Tw|].
  assert (E : w' = w); [|now rewrite E].
  destruct Dw as (pre & post & Ed & -> & Cw & No). destruct Dw' as (pre' & post' & Ed' & -> & Cw' & No').
  assert (I : In w' d) by (rewrite Ed'; apply in_or_app; right; now left). rewrite Ed in I. apply in_app_or in I. destruct I as [I|[I|I]].
  - exfalso. apply (No w'); [apply in_or_app; now left|exact Cw'].
  - now symmetry.
  - exfalso. apply (No w'); [apply in_or_app; now right|exact Cw'].
Qed.
