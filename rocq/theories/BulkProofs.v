(** The volume of brushes in single precision: proofs of C134. *)
From Coq Require Import Reals Lra Lia ZArith Permutation Psatz Classical.
From Verif Require Import Prelude F32 Text MapModel GeoModel GeoSpec RealSpec WindSpec ErrorSpec CornerSpec SolidSpec WoundSpec SharedSpec CoverSpec EdgeSpec SeamSpec
  ShellSpec BulkSpec BaseProofs GeoProofs ErrorProofs ErrorFinal WindProofs SolidProofs.
From Verif Require EdgeProofs ClosedProofs SeamProofs ShellProofs.
Import EdgeProofs ClosedProofs SeamProofs.
Local Open Scope R_scope.

(** ** The steps of a ring *)
Definition step (pq : vec3 R * vec3 R) : bool := if v3_dec (fst pq) (snd pq) then false else true.
Definition steps (ys : list (vec3 R)) : list (vec3 R * vec3 R) := filter step (cycle ys).
Lemma filter_once : forall A (f : A -> bool) l, (forall i j z, (i < j)%nat -> nth_error l i = Some z -> nth_error l j = Some z -> f z = true -> False) -> NoDup (filter f l).
Proof.
  intros A f l. induction l as [|a l IH]; intros H; [constructor|]. cbn [filter]. assert (N : NoDup (filter f l)) by (apply IH; intros i j z L X Y; now apply (H (S i) (S j) z); [lia|..]).
  destruct (f a) eqn:E; [|exact N]. constructor; [|exact N]. intros I. apply filter_In in I. destruct I as (I & _). apply In_nth_error in I. destruct I as (j & Hj).
  apply (H 0%nat (S j) a); auto. lia.
Qed.
Lemma walk_at : forall l i p q, nth_error (walk l) i = Some (p, q) -> nth_error l i = Some p /\ nth_error l (S i) = Some q.
Proof.
  induction l as [|a [|b l] IH]; intros i p q E; [destruct i; discriminate E..|]. change (walk (a :: b :: l)) with ((a, b) :: walk (b :: l)) in E. destruct i as [|i].
  - injection E as <- <-. auto.
  - exact (IH i p q E).
Qed.
Lemma cycle_at : forall l i p q, nth_error (cycle l) i = Some (p, q) -> nth_error l i = Some p /\ nth_error l (S i mod length l) = Some q.
Proof.
  intros [|a l] i p q E; [destruct i; discriminate E|]. unfold cycle in E. apply walk_at in E. destruct E as (H & H').
  assert (L : (S i < length ((a :: l) ++ [a]))%nat) by (apply nth_error_Some; congruence). rewrite app_length in L. cbn [length] in L.
  rewrite nth_error_app1 in H by (cbn [length]; lia). split; [exact H|]. destruct (Si_mod _ _ _ _ H) as [(L' & ->)|(L' & ->)].
  - rewrite nth_error_app1 in H' by exact L'. exact H'.
  - rewrite nth_error_app2 in H' by lia. rewrite L', Nat.sub_diag in H'. exact H'.
Qed.
Lemma steps_in : forall ys x y, In (x, y) (steps ys) <-> follows ys x y /\ x <> y.
Proof.
  intros ys x y. unfold steps. rewrite filter_In, cycle_next. unfold step. cbn [fst snd]. destruct (v3_dec x y) as [E|E]; split; intros (A & B); try discriminate; try contradiction; split; auto.
Qed.
Section Ring.
Context (F : vec3 R) (ys : list (vec3 R)).
Context (Ord : forall i j k a b d, (i < j)%nat -> (j < k)%nat -> nth_error ys i = Some a -> nth_error ys j = Some b -> nth_error ys k = Some d ->
  a <> b -> b <> d -> a <> d -> clockwise F a b d).
Lemma steps_once : (forall x y, exists c, In c ys /\ c <> x /\ c <> y) -> NoDup (steps ys).
Proof.
  intros Third. apply filter_once. intros i j [x y] L Hi Hj St. apply cycle_at in Hi, Hj. destruct Hi as (Xi & Yi), Hj as (Xj & Yj).
  assert (N : x <> y) by (unfold step in St; cbn [fst snd] in St; destruct (v3_dec x y); [discriminate St|assumption]). clear St.
  destruct (Third x y) as (c & Ic & Nx & Ny). apply In_nth_error in Ic. destruct Ic as (k & Hk).
  assert (Lj : (j < length ys)%nat) by (apply nth_error_Some; congruence). assert (Lk : (k < length ys)%nat) by (apply nth_error_Some; congruence).
  rewrite Nat.mod_small in Yi by lia.
  assert (S i <> j) by (intros <-; congruence). assert (k <> i) by (intros ->; congruence). assert (k <> S i) by (intros ->; congruence). assert (k <> j) by (intros ->; congruence).
  destruct (lt_dec k i).
  { apply (cw_flip F c x y); [apply (Ord k i (S i)); auto|apply (Ord k (S i) j); auto; lia]. }
  destruct (lt_dec j k).
  { apply (cw_flip F x y c); [apply (Ord i (S i) k); auto; lia|]. apply cw_turn. apply (Ord (S i) j k); auto. lia. }
  destruct (Si_mod _ _ _ _ Xj) as [(L' & E)|(L' & E)]; rewrite E in Yj.
  - apply (cw_flip F x c y); [apply (Ord i k (S j)); auto; lia|]. apply cw_turn, cw_turn. apply (Ord (S i) k j); auto; lia.
  - assert (i <> 0%nat) by (intros ->; congruence). apply (cw_flip F x y c); [apply (Ord i (S i) k); auto; lia|]. apply cw_turn. apply (Ord 0%nat i k); auto; lia.
Qed.
End Ring.
Lemma third_of : forall P : vec3 R -> Prop, three P -> forall x y, exists c, P c /\ c <> x /\ c <> y.
Proof.
  intros P (a & b & c & A & B & C & N1 & N2 & N3) x y. destruct (v3_dec a x) as [->|Ax].
  - destruct (v3_dec b y) as [->|By]; [exists c|exists b]; auto.
  - destruct (v3_dec a y) as [->|Ay]; [|exists a; auto]. destruct (v3_dec b x) as [->|Bx]; [exists c|exists b]; auto.
Qed.
Lemma steps_sum : forall ys, sum_vectors product (cycle ys) = sum_vectors product (steps ys).
Proof.
  intros ys. unfold steps. generalize (cycle ys). intros l. induction l as [|[x y] l IH]; [reflexivity|]. cbn [filter]. unfold step at 1. cbn [fst snd].
  destruct (v3_dec x y) as [<-|N]; cbn [sum_vectors fold_right]; fold (sum_vectors product l); rewrite IH; [|reflexivity].
  fold (sum_vectors product (filter step l)). destruct (sum_vectors product (filter step l)) as [s1 s2 s3]. unfold product. vectors. cbn [fst snd vx vy vz]. f_equal; ring.
Qed.
(** Two rings through the same points, both clockwise. *)
Lemma same_steps : forall F ys zs,
  (forall i j k a b d, (i < j)%nat -> (j < k)%nat -> nth_error ys i = Some a -> nth_error ys j = Some b -> nth_error ys k = Some d -> a <> b -> b <> d -> a <> d -> clockwise F a b d) ->
  (forall i j k a b d, (i < j)%nat -> (j < k)%nat -> nth_error zs i = Some a -> nth_error zs j = Some b -> nth_error zs k = Some d -> a <> b -> b <> d -> a <> d -> clockwise F a b d) ->
  three (fun x => In x ys) -> (forall x, In x ys <-> In x zs) -> Permutation (steps ys) (steps zs).
Proof.
  intros F ys zs Oy Oz Th Eq. pose proof (third_of _ Th) as T3. apply NoDup_Permutation.
  - now apply (steps_once F).
  - apply (steps_once F); [exact Oz|]. intros x y. destruct (T3 x y) as (c & I & X). exists c. split; [now apply Eq|exact X].
  - intros [x y]. rewrite !steps_in. split; intros (Fo & N); (split; [|exact N]).
    + destruct (follows_in _ _ _ Fo) as (Ix & Iy). apply (side_follows F); auto; [now apply Eq|now apply Eq|]. intros c Ic Cx Cy. apply (follows_side F ys Oy); auto. now apply Eq.
    + destruct (follows_in _ _ _ Fo) as (Ix & Iy). apply (side_follows F); auto; [now apply Eq|now apply Eq|]. intros c Ic Cx Cy. apply (follows_side F zs Oz); auto. now apply Eq.
Qed.

(** ** Areas and volumes of rings *)
Lemma cut_fans : forall a l, cut (a :: l) = fans a l.
Proof. intros a l. reflexivity. Qed.
Lemma cut_area : forall ys, sum_vectors area_vector (cut ys) = sum_vectors product (steps ys).
Proof. intros [|a l]; [reflexivity|]. rewrite cut_fans, fans_cycle. apply steps_sum. Qed.
Lemma numbers_flat : forall A B (g : B -> R) (h : A -> list B) l, sum_numbers g (flat_map h l) = sum_numbers (fun x => sum_numbers g (h x)) l.
Proof.
  intros A B g h l. assert (Ap : forall l1 l2, sum_numbers g (l1 ++ l2) = sum_numbers g l1 + sum_numbers g l2).
  { induction l1 as [|x l1 IH]; intros l2; [unfold sum_numbers; cbn; ring|]. cbn [app sum_numbers fold_right]. fold (sum_numbers g (l1 ++ l2)) (sum_numbers g l1). rewrite IH. ring. }
  induction l as [|a l IH]; [reflexivity|]. cbn [flat_map]. rewrite Ap, IH. reflexivity.
Qed.
Lemma numbers_cons : forall A (g : A -> R) x l, sum_numbers g (x :: l) = g x + sum_numbers g l.
Proof. reflexivity. Qed.
Lemma vectors_ext : forall A (g h : A -> vec3 R) l, (forall x, g x = h x) -> sum_vectors g l = sum_vectors h l.
Proof. intros A g h l E. induction l as [|x l IH]; [reflexivity|]. cbn [sum_vectors fold_right]. fold (sum_vectors g l) (sum_vectors h l). now rewrite IH, E. Qed.
Lemma volume_moves : forall o c l, sum_numbers (six_volumes c) l = sum_numbers (six_volumes o) l + inner (minus c o) (sum_vectors area_vector l).
Proof.
  intros o c l. induction l as [|[[p q] r] l IH]; [unfold inner, sum_numbers; cbn; ring|]. cbn [sum_numbers sum_vectors fold_right].
  fold (sum_numbers (six_volumes c) l) (sum_numbers (six_volumes o) l) (sum_vectors area_vector l). rewrite IH. generalize (sum_vectors area_vector l) (sum_numbers (six_volumes o) l).
  intros s n. unfold six_volumes, area_vector. vectors. ring.
Qed.
(** All triangles of a fan from its own tip are flat. *)
Lemma fan_flat : forall a l, sum_numbers (six_volumes a) (fans a l) = 0.
Proof.
  intros a l. induction l as [|b [|c l] IH]; [reflexivity..|]. change (fans a (b :: c :: l)) with ((a, b, c) :: fans a (c :: l)). cbn [sum_numbers fold_right].
  fold (sum_numbers (six_volumes a) (fans a (c :: l))). rewrite IH. unfold six_volumes. vectors. ring.
Qed.
Lemma cut_volume : forall a l c, sum_numbers (six_volumes c) (cut (a :: l)) = inner (minus c a) (sum_vectors product (steps (a :: l))).
Proof. intros a l c. rewrite (volume_moves a), cut_area, cut_fans, fan_flat. ring. Qed.
Lemma in_plane_area : forall F a l, (forall x, In x l -> inner F (minus x a) = 0) -> outer F (sum_vectors area_vector (fans a l)) = V3 0 0 0.
Proof.
  intros F a l. induction l as [|b [|c l] IH]; intros H; [cbn; vectors; f_equal; ring..|]. change (fans a (b :: c :: l)) with ((a, b, c) :: fans a (c :: l)).
  cbn [sum_vectors fold_right]. fold (sum_vectors area_vector (fans a (c :: l))). specialize (IH (fun x I => H x (or_intror I))).
  pose proof (H b (or_introl eq_refl)) as Hb. pose proof (H c (or_intror (or_introl eq_refl))) as Hc. generalize dependent (sum_vectors area_vector (fans a (c :: l))). intros s IH.
  cbn [area_vector]. pose proof (triple_outer F (minus b a) (minus c a)) as T. rewrite Hb, Hc in T.
  generalize dependent (outer (minus b a) (minus c a)). intros n T. change (V3 (vx n + vx s) (vy n + vy s) (vz n + vz s)) with (plus n s).
  replace (outer F (plus n s)) with (plus (outer F n) (outer F s)) by (vectors; f_equal; ring). rewrite T, IH. vectors. f_equal; ring.
Qed.
Lemma along_null : forall F n d, outer F n = V3 0 0 0 -> inner F d = 0 -> F <> V3 0 0 0 -> inner d n = 0.
Proof.
  intros F n d Z D NF. pose proof (inner_pos F NF) as PF. pose proof (triple_outer F F n) as T1. rewrite Z in T1. apply (f_equal (inner d)) in T1.
  assert (E1 : inner d (outer F (V3 0 0 0)) = 0) by (vectors; ring). assert (E2 : inner d (minus (scaled (inner F n) F) (scaled (inner F F) n)) = inner F n * inner F d - inner F F * inner d n) by (generalize (inner F n) (inner F F); intros; vectors; ring).
  rewrite E1, E2, D in T1. nra.
Qed.
(** Two rings in one plane with the same steps span the same volume. *)
Lemma same_volume : forall F ys zs c, F <> V3 0 0 0 -> (forall x y, In x ys -> In y ys -> inner F (minus x y) = 0) -> (forall x, In x ys <-> In x zs) -> Permutation (steps ys) (steps zs) ->
  sum_numbers (six_volumes c) (cut ys) = sum_numbers (six_volumes c) (cut zs).
Proof.
  intros F [|a l] [|b m] c NF Pl Eq Pm; [reflexivity|exfalso; apply (proj2 (Eq b)); now left|exfalso; apply (proj1 (Eq a)); now left|].
  rewrite !cut_volume. rewrite <- (sum_perm _ product _ _ Pm). assert (Ib : In b (a :: l)) by (apply Eq; now left).
  assert (Z : inner (minus a b) (sum_vectors product (steps (a :: l))) = 0).
  { rewrite <- cut_area, cut_fans. apply (along_null F); [|apply Pl; [now left|exact Ib]|exact NF]. apply in_plane_area. intros x I. apply Pl; [now right|now left]. }
  generalize dependent (sum_vectors product (steps (a :: l))). intros s Z. replace (inner (minus c b) s) with (inner (minus c a) s + inner (minus a b) s) by (vectors; ring). lra.
Qed.

Lemma pointwise : forall A B (Q : A -> B -> Prop) l m, length l = length m -> (forall i x y, nth_error l i = Some x -> nth_error m i = Some y -> Q x y) -> Forall2 Q l m.
Proof.
  intros A B Q l. induction l as [|x l IH]; intros [|y m] L H; try discriminate L; constructor; [now apply (H 0%nat)|]. apply IH; [now injection L|]. intros i x' y' E1 E2. now apply (H (S i)).
Qed.

(** ** A brush *)
Section Brush.
Context (p : platform) (tx : texture_info) (e : entity f32) (planes : list (brush_plane f32)) (g : brush_geo f32) (b : R).
Local Notation O := (f32_num p).
Local Notation K := (map plane_of planes).
Context (Eb : build_brush O tx e planes = Ok g) (Gr : forall q, In q planes -> grid_plane q) (Ln : (Z.of_nat (length planes) <= 4000)%Z)
  (Good : forall pl, In pl planes -> good_side p planes pl b).
Definition trail (pl : brush_plane f32) (ys : list (vec3 R)) : Prop := (forall x, In x ys <-> true_corner planes pl x) /\ turning pl ys.
Lemma outline_trail : forall pl ys, outline planes pl ys -> trail pl ys.
Proof. intros pl ys (_ & T & C). split; [exact T|]. intros i j k x y z L1 L2 X Y Z _ _ _. now apply (C i j k). Qed.
Lemma trail_outline : forall pl ys, trail pl ys -> outline planes pl (nodup v3_dec ys).
Proof.
  intros pl ys (T & C). split; [apply NoDup_nodup|]. split; [intros x; rewrite nodup_In; apply T|]. intros i j k x y z L1 L2 X Y Z. now apply (nodup_turns (facing (plane_of pl)) ys C i j k).
Qed.
Lemma three_trail : forall pl ys, In pl planes -> trail pl ys -> three (fun x => In x ys).
Proof.
  intros pl ys I (T & _). destruct (Good pl I) as (_ & _ & (x & y & z & Tx & Ty & Tz & N) & _). exists x, y, z. repeat split; try (now apply T); apply N.
Qed.
Lemma facing_null : forall pl, In pl planes -> facing (plane_of pl) <> V3 0 0 0.
Proof.
  intros pl I Z. destruct (Gr pl I) as (_ & _ & _ & Pr & _). apply Pr. unfold norm. rewrite Z. unfold inner. cbn [vx vy vz]. replace (0 * 0 + 0 * 0 + 0 * 0) with 0 by ring. apply sqrt_0.
Qed.
Lemma trails_volume : forall pl ys zs c, In pl planes -> trail pl ys -> trail pl zs -> sum_numbers (six_volumes c) (cut ys) = sum_numbers (six_volumes c) (cut zs).
Proof.
  intros pl ys zs c I Ty Tz. pose proof (three_trail pl ys I Ty) as Th. destruct Ty as (Ey & Cy), Tz as (Ez & Cz).
  assert (Eq : forall x, In x ys <-> In x zs) by (intros x; rewrite Ey, Ez; reflexivity).
  apply (same_volume (facing (plane_of pl))); [now apply facing_null| |exact Eq|now apply (same_steps (facing (plane_of pl)))].
  intros x y Ix Iy. apply Ey in Ix, Iy. destruct Ix as ((? & ? & _ & _ & Ox & _) & _), Iy as ((? & ? & _ & _ & Oy & _) & _). unfold on_plane in Ox, Oy.
  replace (inner (facing (plane_of pl)) (minus x y)) with (inner (facing (plane_of pl)) (minus x (bp_v0 (plane_of pl))) - inner (facing (plane_of pl)) (minus y (bp_v0 (plane_of pl)))) by (generalize (facing (plane_of pl)); intros; vectors; ring). lra.
Qed.
Lemma volumes_same : forall l rings rings' c, (forall pl, In pl l -> In pl planes) -> Forall2 trail l rings -> Forall2 trail l rings' ->
  sum_numbers (six_volumes c) (flat_map cut rings) = sum_numbers (six_volumes c) (flat_map cut rings').
Proof.
  intros l rings rings' c Inc F. revert rings'. induction F as [|pl ys l rings T F IH]; intros rings' F'; inversion F' as [|? zs ? rings'' T' F'' E1 E2]; subst; [reflexivity|].
  rewrite !numbers_flat, !numbers_cons.
  specialize (IH (fun q I => Inc q (or_intror I)) rings'' F''). rewrite !numbers_flat in IH. rewrite IH. f_equal. apply (trails_volume pl); auto. apply Inc. now left.
Qed.

Section Rings.
Context (rings : list (list (vec3 R))) (Rg : rings_of (allowance b) planes (bg_faces g) rings) (Tn : Forall2 turning planes rings) (Me : meet rings) (On : meet_once rings).
Lemma trails : Forall2 trail planes rings.
Proof.
  assert (A : forall i pl ys, nth_error planes i = Some pl -> nth_error rings i = Some ys -> trail pl ys).
  { intros i pl ys Ep Ey. destruct (ring_plane p planes g b Gr Good rings Rg Tn i ys Ey) as (q & Eq & T & C). assert (q = pl) as -> by congruence. split; assumption. }
  apply pointwise; [now apply Forall2_length in Tn|exact A].
Qed.
Lemma closed : sum_vectors area_vector (flat_map cut rings) = V3 0 0 0.
Proof.
  assert (E1 : sum_vectors area_vector (flat_map cut rings) = sum_vectors product (flat_map steps rings)).
  { rewrite !sum_flat. apply vectors_ext. exact cut_area. }
  rewrite E1. clear E1. set (L := flat_map steps rings).
  assert (In_L : forall x y, In (x, y) L <-> x <> y /\ exists i ys, nth_error rings i = Some ys /\ follows ys x y).
  { intros x y. unfold L. rewrite in_flat_map. split.
    - intros (ys & I & S). apply steps_in in S. destruct S as (Fo & N). split; [exact N|]. apply In_nth_error in I. destruct I as (i & E). eauto.
    - intros (N & i & ys & E & Fo). exists ys. split; [now apply nth_error_In in E|]. now apply steps_in. }
  assert (Sh : forall x, In x L -> In (swap x) L).
  { intros [x y] I. apply In_L in I. destruct I as (N & i & ys & E & Fo). apply In_L. split; [cbn; congruence|]. destruct (Me i ys x y E Fo N) as (j & zs & _ & Ez & Fz). eauto. }
  assert (Nf : forall ys, In ys rings -> NoDup (steps ys)).
  { intros ys I. apply In_nth_error in I. destruct I as (i & Ey). destruct (ring_plane p planes g b Gr Good rings Rg Tn i ys Ey) as (pl & Ep & T & C). apply (steps_once (facing (plane_of pl))); [exact C|].
    apply (third_of (fun x => In x ys)), (three_trail pl); [now apply nth_error_In in Ep|split; assumption]. }
  assert (ND : NoDup L).
  { unfold L. clear - On Nf. induction rings as [|ys l IH]; [constructor|]. cbn [flat_map].
    assert (A : forall l l' : list (vec3 R * vec3 R), NoDup l -> NoDup l' -> (forall x, In x l -> ~ In x l') -> NoDup (l ++ l')).
    { clear. induction l as [|x l IH]; intros l' X Y Z; [exact Y|]. inversion_clear X. cbn [app]. constructor; [|apply IH; auto; intros y I; apply Z; now right].
      rewrite in_app_iff. intros [I|I]; [contradiction|]. apply (Z x (or_introl eq_refl) I). }
    apply A.
    - apply Nf. now left.
    - apply IH; [|intros zs I; apply Nf; now right]. intros i j zs ws x y Hi Hj X Y N. specialize (On (S i) (S j) zs ws x y Hi Hj X Y N). lia.
    - intros [x y] I I'. apply in_flat_map in I'. destruct I' as (zs & Iz & I'). apply In_nth_error in Iz. destruct Iz as (j & Hj). apply steps_in in I, I'.
      specialize (On 0%nat (S j) ys zs x y eq_refl Hj (proj1 I) (proj1 I') (proj2 I)). lia. }
  assert (Pm : Permutation L (map swap L)).
  { apply NoDup_Permutation; [exact ND| |].
    - apply FinFun.Injective_map_NoDup; [|exact ND]. intros [x y] [x' y'] X. unfold swap in X. cbn [fst snd] in X. congruence.
    - intros x. split; intros I.
      + apply in_map_iff. exists (swap x). split; [destruct x; reflexivity|now apply Sh].
      + apply in_map_iff in I. destruct I as (y & <- & I). now apply Sh. }
  pose proof (sum_perm _ product _ _ Pm) as E. rewrite sum_map in E. clear - E.
  assert (Neg : sum_vectors (fun x => product (swap x)) L = scaled (-1) (sum_vectors product L)).
  { clear. induction L as [|[x y] L IH]; [unfold scaled; cbn; f_equal; ring|]. cbn [sum_vectors fold_right]. fold (sum_vectors (fun x => product (swap x)) L) (sum_vectors product L). rewrite IH.
    unfold product, swap, scaled, outer. cbn [fst snd vx vy vz]. f_equal; ring. }
  rewrite Neg in E. pose proof (f_equal vx E) as X. pose proof (f_equal vy E) as Y. pose proof (f_equal vz E) as Z. unfold scaled in X, Y, Z. cbn [vx vy vz] in X, Y, Z.
  destruct (sum_vectors product L) as [x y z]. cbn [vx vy vz] in *. f_equal; lra.
Qed.
End Rings.

(** *** The volume is positive *)
Lemma outline_positive : forall o pl ys, deep K o -> In pl planes -> outline planes pl ys -> 0 < sum_numbers (six_volumes o) (cut ys).
Proof.
  intros o pl ys Dp I Ou. pose proof (three_trail pl ys I (outline_trail pl ys Ou)) as Th. destruct Ou as (Nd & Eq & C).
  pose proof (Dp (plane_of pl) (in_map _ _ _ I)) as Do.
  assert (Pos : forall t, In t (cut ys) -> 0 < six_volumes o t).
  { intros [[x y] z] It. destruct ys as [|a l]; [destruct It|]. rewrite cut_fans in It.
    assert (Gf : forall l, In (x, y, z) (fans a l) -> x = a /\ exists i, nth_error l i = Some y /\ nth_error l (S i) = Some z).
    { clear. induction l as [|u [|w l] IH]; intros I; [destruct I..|]. change (fans a (u :: w :: l)) with ((a, u, w) :: fans a (w :: l)) in I.
      destruct I as [I|I]; [injection I as <- <- <-; split; [reflexivity|now exists 0%nat]|]. destruct (IH I) as (-> & i & A). split; [reflexivity|now exists (S i)]. }
    destruct (Gf l It) as (-> & i & Hy & Hz). clear Gf It.
    assert (Cw : clockwise (facing (plane_of pl)) a y z) by (apply (C 0%nat (S i) (S (S i))); auto; lia).
    assert (On : forall u, In u (a :: l) -> on_plane (plane_of pl) u) by (intros u Iu; apply Eq in Iu; destruct Iu as ((? & ? & _ & _ & Ox & _) & _); exact Ox).
    assert (Op : on_plane (plane_of pl) a) by (apply On; now left). assert (Oq : on_plane (plane_of pl) y) by (apply On; right; now apply nth_error_In in Hy).
    assert (Or : on_plane (plane_of pl) z) by (apply On; right; now apply nth_error_In in Hz).
    pose proof (on_both _ a y Op Oq) as D1. pose proof (on_both _ a z Op Or) as D2. unfold on_plane in Op. unfold clockwise in Cw.
    assert (Dq : inner (facing (plane_of pl)) (minus o a) < 0).
    { replace (inner (facing (plane_of pl)) (minus o a)) with (inner (facing (plane_of pl)) (minus o (bp_v0 (plane_of pl))) - inner (facing (plane_of pl)) (minus a (bp_v0 (plane_of pl)))) by (generalize (facing (plane_of pl)); intros; vectors; ring). lra. }
    clear - Cw D1 D2 Dq. revert Cw D1 D2 Dq. generalize (facing (plane_of pl)). intros F C D1 D2 Dq.
    set (u := minus y a) in *. set (w := minus z a) in *. set (n := outer u w).
    assert (Al : scaled (inner F F) n = scaled (inner F n) F).
    { pose proof (triple_outer F F n) as T1. assert (Z1 : outer F n = V3 0 0 0). { unfold n. rewrite triple_outer, D2, D1. unfold scaled, minus. cbn [vx vy vz]. f_equal; ring. }
      rewrite Z1, outer_null in T1. pose proof (f_equal vx T1) as X. pose proof (f_equal vy T1) as Y. pose proof (f_equal vz T1) as W. unfold scaled, minus in *. cbn [vx vy vz] in *. f_equal; lra. }
    assert (NF : F <> V3 0 0 0) by (intros ->; revert Dq; vectors; lra). pose proof (inner_pos F NF) as PF.
    assert (V : inner F F * six_volumes o (a, y, z) = inner F n * inner F (minus o a)).
    { transitivity (inner (scaled (inner F F) n) (minus o a)); [|rewrite Al; vectors; ring]. unfold six_volumes, n, u, w. vectors. ring. }
    assert (0 < inner F n * inner F (minus o a)) by (unfold n; nra). nra. }
  assert (Ne : cut ys <> []).
  { destruct Th as (x & y & z & Ix & Iy & Iz & N1 & N2 & N3).
    assert (L : (3 <= length ys)%nat) by (change 3%nat with (length [x; y; z]); apply NoDup_incl_length; [repeat constructor; cbn [In]; intuition congruence|intros w [<-|[<-|[<-|[]]]]; assumption]).
    destruct ys as [|a [|c [|d l']]]; cbn [length] in L; try lia. discriminate. }
  clear - Pos Ne.
  assert (G : forall l, (forall t, In t l -> 0 < six_volumes o t) -> 0 <= sum_numbers (six_volumes o) l /\ (l <> [] -> 0 < sum_numbers (six_volumes o) l)).
  { induction l as [|x l IH]; intros P; [unfold sum_numbers; cbn; split; [lra|congruence]|]. destruct (IH (fun y I => P y (or_intror I))) as (A & _). pose proof (P x (or_introl eq_refl)).
    cbn [sum_numbers fold_right]. fold (sum_numbers (six_volumes o) l). split; [lra|intros _; lra]. }
  now apply G.
Qed.
Lemma outlines_positive : forall o l rings, deep K o -> (forall pl, In pl l -> In pl planes) -> Forall2 (outline planes) l rings ->
  0 <= sum_numbers (six_volumes o) (flat_map cut rings) /\ (l <> [] -> 0 < sum_numbers (six_volumes o) (flat_map cut rings)).
Proof.
  intros o l rings Dp Inc F. rewrite numbers_flat. induction F as [|pl ys l rings Ou F IH]; [unfold sum_numbers; cbn; split; [lra|congruence]|].
  destruct (IH (fun q I => Inc q (or_intror I))) as (A & _). pose proof (outline_positive o pl ys Dp (Inc pl (or_introl eq_refl)) Ou). rewrite numbers_cons. cbv beta. split; [apply Rplus_le_le_0_compat; [now apply Rlt_le|exact A]|intros _; now apply Rplus_lt_le_0_compat].
Qed.
End Brush.

(** ** Rounding *)
Lemma rotate_points : forall points : list (vec3 R), triples (map (spot points) (fan (length points))) = cut points.
Proof.
  intros [|o l]; [reflexivity|]. unfold fan. destruct (length (o :: l) <? 3)%nat eqn:L; [apply Nat.ltb_lt in L; destruct l as [|a [|c l]]; cbn [length] in L; [reflexivity..|lia]|].
  apply Nat.ltb_ge in L. rewrite ShellProofs.triples_map, triples_fan, map_map, cut_fans.
  assert (G : forall l s n, n = (length l - 1)%nat -> forall pts, (forall i x, nth_error l i = Some x -> spot pts (S (s + i)) = x) -> spot pts 0 = o ->
    map (fun i => (spot pts 0, spot pts (i + 1), spot pts (i + 2))) (seq s n) = fans o l).
  { clear. induction l as [|a [|c l] IH]; intros s n -> pts H P0; [reflexivity..|]. cbn [length Nat.sub seq map]. change (fans o (a :: c :: l)) with ((o, a, c) :: fans o (c :: l)). f_equal.
    - rewrite P0. f_equal; [f_equal|].
      + rewrite <- (H 0%nat a eq_refl). f_equal. lia.
      + rewrite <- (H 1%nat c eq_refl). f_equal. lia.
    - apply IH; [cbn [length]; lia| |exact P0]. intros i x Hi. rewrite <- (H (S i) x Hi). f_equal. lia. }
  apply (G l 0%nat); [cbn [length]; lia| |reflexivity]. intros i x Hi. unfold spot. cbn [nth_error Nat.add]. now rewrite Hi.
Qed.
Definition nigh (h : R) (x y : vec3 R) : Prop := norm (minus x y) <= h.
Definition nigh3 (h : R) (s t : corner3) : Prop := let '(a, b, c) := s in let '(x, y, z) := t in nigh h a x /\ nigh h b y /\ nigh h c z.
Lemma cut_nigh : forall h xs ys, Forall2 (nigh h) xs ys -> Forall2 (nigh3 h) (cut xs) (cut ys).
Proof.
  intros h xs ys F. destruct F as [|a x xs ys Na F]; [constructor|]. rewrite !cut_fans. induction F as [|b y xs ys Nb F IH]; [constructor|].
  destruct F as [|c z xs ys Nc F]; [constructor|]. change (fans a (b :: c :: xs)) with ((a, b, c) :: fans a (c :: xs)). change (fans x (y :: z :: ys)) with ((x, y, z) :: fans x (z :: ys)).
  constructor; [repeat split; assumption|exact IH].
Qed.
Lemma cut_points : forall ys x y z, In (x, y, z) (cut ys) -> In x ys /\ In y ys /\ In z ys.
Proof.
  intros [|a l] x y z I; [destruct I|]. rewrite cut_fans in I.
  assert (G : forall l, In (x, y, z) (fans a l) -> x = a /\ In y l /\ In z l).
  { clear. induction l as [|b [|c l] IH]; intros I; [destruct I..|]. change (fans a (b :: c :: l)) with ((a, b, c) :: fans a (c :: l)) in I.
    destruct I as [I|I]; [injection I as <- <- <-; cbn; auto|]. destruct (IH I) as (-> & A & B). split; [reflexivity|]. split; now right. }
  destruct (G l I) as (-> & A & B). split; [now left|]. split; now right.
Qed.
Lemma there : forall u w, vplus u (minus w u) = w.
Proof. intros [u1 u2 u3] [w1 w2 w3]. unfold vplus, minus. cbn [vx vy vz]. f_equal; ring. Qed.
Lemma grows : forall u w d k, norm u <= d -> norm (minus w u) <= k -> norm w <= d + k.
Proof. intros u w d k Hu Hw. pose proof (norm_triangle u (minus w u)) as T. rewrite there in T. lra. Qed.
Lemma outer_near : forall u w u' w' d k, norm u <= d -> norm w <= d -> norm (minus u' u) <= k -> norm (minus w' w) <= k ->
  norm (minus (outer u' w') (outer u w)) <= (d + k) ^ 2 - d ^ 2.
Proof.
  intros u w u' w' d k Hu Hw Ku Kw. replace (minus (outer u' w') (outer u w)) with (vplus (outer (minus u' u) w') (outer u (minus w' w))) by (unfold vplus; vectors; f_equal; ring).
  eapply Rle_trans; [apply norm_triangle|]. pose proof (outer_norm (minus u' u) w') as A. pose proof (outer_norm u (minus w' w)) as B.
  pose proof (grows w w' d k Hw Kw) as W.
  pose proof (norm_pos (minus u' u)). pose proof (norm_pos u). pose proof (norm_pos (minus w' w)). pose proof (norm_pos w').
  assert (norm (minus u' u) * norm w' <= k * (d + k)) by (apply Rmult_le_compat; assumption). assert (norm u * norm (minus w' w) <= d * k) by (apply Rmult_le_compat; assumption). nra.
Qed.
Lemma volume_near : forall h m c s t, nigh3 h s t -> (let '(x, y, z) := t in norm (minus x c) <= m /\ norm (minus y c) <= m /\ norm (minus z c) <= m) ->
  Rabs (six_volumes c s - six_volumes c t) <= (m + h) ^ 3 - m ^ 3.
Proof.
  intros h m c [[a b] d] [[x y] z] (Na & Nb & Nd) (Mx & My & Mz). unfold nigh in *. unfold six_volumes.
  assert (Sh : forall u w, minus (minus u c) (minus w c) = minus u w) by (intros; unfold minus; cbn [vx vy vz]; f_equal; ring).
  rewrite <- (Sh a x) in Na. rewrite <- (Sh b y) in Nb. rewrite <- (Sh d z) in Nd. clear Sh.
  generalize dependent (minus a c). generalize dependent (minus b c). generalize dependent (minus d c). generalize dependent (minus x c). generalize dependent (minus y c). generalize dependent (minus z c).
  clear. intros z Mz y My x Mx d Nd b Nb a Na.
  pose proof (outer_near y z b d m h My Mz Nb Nd) as Q.
  replace (- inner a (outer b d) - - inner x (outer y z)) with (- (inner (minus a x) (outer b d) + inner x (minus (outer b d) (outer y z)))) by (generalize (outer b d) (outer y z); intros; vectors; ring).
  rewrite Rabs_Ropp. eapply Rle_trans; [apply Rabs_triang|]. pose proof (abs_inner (minus a x) (outer b d)) as A. pose proof (abs_inner x (minus (outer b d) (outer y z))) as B.
  pose proof (grows y b m h My Nb) as Bb. pose proof (grows z d m h Mz Nd) as Bd. pose proof (outer_norm b d) as Ob.
  pose proof (norm_pos b). pose proof (norm_pos d). pose proof (norm_pos (minus a x)). pose proof (norm_pos x). pose proof (norm_pos (outer b d)). pose proof (norm_pos (minus (outer b d) (outer y z))).
  assert (norm (outer b d) <= (m + h) * (m + h)) by (eapply Rle_trans; [exact Ob|apply Rmult_le_compat; assumption]).
  assert (norm (minus a x) * norm (outer b d) <= h * ((m + h) * (m + h))) by (apply Rmult_le_compat; assumption).
  assert (norm x * norm (minus (outer b d) (outer y z)) <= m * ((m + h) ^ 2 - m ^ 2)) by (apply Rmult_le_compat; assumption).
  replace ((m + h) ^ 3 - m ^ 3) with (h * ((m + h) * (m + h)) + m * ((m + h) ^ 2 - m ^ 2)) by ring. lra.
Qed.
Lemma area_near : forall h d s t, nigh3 h s t -> (let '(x, y, z) := t in norm (minus y x) <= d /\ norm (minus z x) <= d) ->
  norm (minus (area_vector s) (area_vector t)) <= (d + 2 * h) ^ 2 - d ^ 2.
Proof.
  intros h d [[a b] c] [[x y] z] (Na & Nb & Nc) (My & Mz). unfold nigh in *. unfold area_vector. apply outer_near; [exact My|exact Mz| |].
  - replace (minus (minus b a) (minus y x)) with (vplus (minus b y) (minus x a)) by (unfold vplus, minus; cbn [vx vy vz]; f_equal; ring).
    pose proof (norm_triangle (minus b y) (minus x a)). assert (norm (minus x a) = norm (minus a x)) by (unfold norm; f_equal; vectors; ring). lra.
  - replace (minus (minus c a) (minus z x)) with (vplus (minus c z) (minus x a)) by (unfold vplus, minus; cbn [vx vy vz]; f_equal; ring).
    pose proof (norm_triangle (minus c z) (minus x a)). assert (norm (minus x a) = norm (minus a x)) by (unfold norm; f_equal; vectors; ring). lra.
Qed.
Lemma numbers_near : forall A (g : A -> R) (Q : A -> A -> Prop) k l m, (forall x y, In y m -> Q x y -> Rabs (g x - g y) <= k) -> Forall2 Q l m ->
  Rabs (sum_numbers g l - sum_numbers g m) <= INR (length l) * k.
Proof.
  intros A g Q k l m H F. induction F as [|x y l m X F IH]; [unfold sum_numbers; cbn; rewrite Rminus_0_r, Rabs_R0; lra|].
  rewrite !numbers_cons. cbn [length]. rewrite S_INR. pose proof (H x y (or_introl eq_refl) X) as B. specialize (IH (fun u w I => H u w (or_intror I))).
  replace (g x + sum_numbers g l - (g y + sum_numbers g m)) with ((g x - g y) + (sum_numbers g l - sum_numbers g m)) by ring. eapply Rle_trans; [apply Rabs_triang|]. lra.
Qed.
Lemma vectors_near : forall A (g : A -> vec3 R) (Q : A -> A -> Prop) k l m, (forall x y, In y m -> Q x y -> norm (minus (g x) (g y)) <= k) -> Forall2 Q l m ->
  norm (minus (sum_vectors g l) (sum_vectors g m)) <= INR (length l) * k.
Proof.
  intros A g Q k l m H F. induction F as [|x y l m X F IH].
  - cbn. unfold norm, inner, minus. cbn [vx vy vz]. replace (_ + _ + _) with 0 by ring. rewrite sqrt_0. lra.
  - cbn [length]. rewrite S_INR. pose proof (H x y (or_introl eq_refl) X) as B. specialize (IH (fun u w I => H u w (or_intror I))).
    cbn [sum_vectors fold_right]. fold (sum_vectors g l) (sum_vectors g m). generalize dependent (sum_vectors g l). generalize dependent (sum_vectors g m). intros s t IH.
    match goal with |- norm ?v <= _ => replace v with (vplus (minus (g x) (g y)) (minus t s)) by (unfold vplus, minus; cbn [vx vy vz]; f_equal; ring) end.
    eapply Rle_trans; [apply norm_triangle|]. lra.
Qed.

(** ** The faces of a brush *)
Lemma flat_Forall2 : forall A B C D (Q : A -> B -> Prop) (S : C -> D -> Prop) (g : A -> list C) (h : B -> list D) l m,
  (forall x y, Q x y -> Forall2 S (g x) (h y)) -> Forall2 Q l m -> Forall2 S (flat_map g l) (flat_map h m).
Proof. intros A B C D Q S g h l m H F. induction F as [|x y l m X F IH]; [constructor|]. cbn [flat_map]. apply Forall2_app; auto. Qed.
Lemma Forall2_image : forall A B C (Q : A -> B -> Prop) (S : A -> C -> Prop) (h : B -> C) l m, (forall x y, Q x y -> S x (h y)) -> Forall2 Q l m -> Forall2 S l (map h m).
Proof. intros A B C Q S h l m H F. induction F as [|x y l m X F IH]; [constructor|]. cbn [map]. constructor; auto. Qed.
Lemma Forall2_source : forall A B C (Q : C -> B -> Prop) (h : A -> C) l m, Forall2 Q (map h l) m -> Forall2 (fun x y => Q (h x) y) l m.
Proof. intros A B C Q h l. induction l as [|x l IH]; intros m F; inversion F; subst; constructor; auto. Qed.
Lemma Forall2_at : forall A B (Q : A -> B -> Prop) l m, Forall2 Q l m -> forall i x y, nth_error l i = Some x -> nth_error m i = Some y -> Q x y.
Proof. intros A B Q l m F. induction F as [|a b l m X F IH]; intros [|i] x y E1 E2; try discriminate; cbn [nth_error] in *; [congruence|eauto]. Qed.
Section Faces.
Context (p : platform) (tx : texture_info) (e : entity f32) (planes : list (brush_plane f32)) (g : brush_geo f32) (b : R).
Local Notation O := (f32_num p).
Local Notation K := (map plane_of planes).
Context (Eb : build_brush O tx e planes = Ok g) (Gr : forall q, In q planes -> grid_plane q) (Ln : (Z.of_nat (length planes) <= 4000)%Z)
  (Good : forall pl, In pl planes -> good_side p planes pl b).
Lemma drawn_near : forall rings, rings_of (allowance b) planes (bg_faces g) rings -> Forall2 (nigh3 (allowance b)) (drawn32 (bg_faces g)) (flat_map cut rings).
Proof.
  intros rings (L & Lf & T). pose proof (built p tx e planes g Eb) as B.
  assert (F : Forall2 (fun f ys => f_indices f = fan (length (f_vertices f)) /\ Forall2 (by_corner (allowance b)) (f_vertices f) ys) (bg_faces g) rings).
  { apply pointwise; [congruence|]. intros i f ys Ef Ey. assert (Li : (i < length rings)%nat) by (apply nth_error_Some; congruence).
    destruct (nth_error planes i) as [pl|] eqn:Ep; [|apply nth_error_None in Ep; lia]. split; [|apply (T i pl f ys Ep Ef Ey)].
    apply nth_error_In in Ef. destruct (Forall2_in_r _ _ _ _ _ _ B Ef) as (q & _ & Eq). destruct (face_inv _ _ _ _ _ _ Eq) as (_ & _ & _ & _ & _ & _ & Ei & _). exact Ei. }
  unfold drawn32. revert F. apply flat_Forall2. intros f ys (Ei & N). unfold drawn_triangles. rewrite Ei.
  rewrite <- (map_length (fun v => point_of (vt_pos v)) (f_vertices f)), rotate_points. apply cut_nigh. clear -N. induction N as [|v x l m X N IH]; [constructor|]. constructor; [exact X|exact IH].
Qed.
Lemma cut_true : forall rings, Forall2 (trail planes) planes rings -> forall x y z, In (x, y, z) (flat_map cut rings) ->
  exists pl, In pl planes /\ true_corner planes pl x /\ true_corner planes pl y /\ true_corner planes pl z.
Proof.
  intros rings F x y z I. apply in_flat_map in I. destruct I as (ys & Iy & I). destruct (Forall2_in_r _ _ _ _ _ _ F Iy) as (pl & Ip & (T & _)). exists pl. split; [exact Ip|].
  destruct (cut_points ys x y z I) as (A & C & D). rewrite <- !T. auto.
Qed.
Theorem volume : forall o, deep K o -> no_repeats K -> planes <> [] -> exists v, 0 < v /\ true_volume planes v
  /\ forall c m, farthest planes c m -> Rabs (sum_numbers (six_volumes c) (drawn32 (bg_faces g)) - 6 * v) <= INR (length (drawn32 (bg_faces g))) * ((m + allowance b) ^ 3 - m ^ 3).
Proof.
  intros o Dp Nr Ne. destruct (rings_exist p tx e planes g b Eb Gr Ln Good) as (rings & Rg & Tn). destruct (choose planes rings (proj1 Rg)) as (pts & Ch).
  pose proof (rings_meet p planes g b Gr Good rings Rg Tn pts Ch) as Me. pose proof (rings_once p planes g b Gr Good rings Rg Tn pts Ch o Dp Nr) as On.
  pose proof (trails p planes g b Gr Good rings Rg Tn) as Tr. pose proof (closed p planes g b Gr Good rings Rg Tn Me On) as Cl.
  assert (Out : Forall2 (outline planes) planes (map (nodup v3_dec) rings)).
  { apply (Forall2_image _ _ _ (trail planes)); [intros pl ys; apply trail_outline|exact Tr]. }
  assert (OT : forall rs, Forall2 (outline planes) planes rs -> Forall2 (trail planes) planes rs) by (intros rs F; rewrite <- (map_id rs); apply (Forall2_image _ _ _ (outline planes)); [apply outline_trail|exact F]).
  assert (Same : forall c, sum_numbers (six_volumes c) (flat_map cut rings) = sum_numbers (six_volumes o) (flat_map cut rings)).
  { intros c. rewrite (volume_moves o c), Cl. vectors. ring. }
  exists (sum_numbers (six_volumes o) (flat_map cut rings) / 6). split; [|split].
  - assert (0 < sum_numbers (six_volumes o) (flat_map cut rings)); [|lra].
    rewrite (volumes_same p planes b Gr Good planes rings _ o (fun _ I => I) Tr (OT _ Out)). now apply (outlines_positive p planes b Gr Good o planes _ Dp (fun _ I => I) Out).
  - split; [eauto|]. intros rs Ors c. rewrite (volumes_same p planes b Gr Good planes rs rings c (fun _ I => I) (OT _ Ors) Tr), Same. field.
  - intros c m Rc. replace (6 * (sum_numbers (six_volumes o) (flat_map cut rings) / 6)) with (sum_numbers (six_volumes c) (flat_map cut rings)) by (rewrite Same; field).
    apply (numbers_near _ _ (nigh3 (allowance b))); [|now apply drawn_near]. intros s [[x y] z] I N. apply volume_near; [exact N|].
    destruct (cut_true rings Tr x y z I) as (pl & Ip & Tx & Ty & Tz). repeat split; now apply (Rc pl).
Qed.
Theorem areas : forall o d, deep K o -> no_repeats K -> across planes d ->
  norm (sum_vectors area_vector (drawn32 (bg_faces g))) <= INR (length (drawn32 (bg_faces g))) * ((d + 2 * allowance b) ^ 2 - d ^ 2).
Proof.
  intros o d Dp Nr Ac. destruct (rings_exist p tx e planes g b Eb Gr Ln Good) as (rings & Rg & Tn). destruct (choose planes rings (proj1 Rg)) as (pts & Ch).
  pose proof (rings_meet p planes g b Gr Good rings Rg Tn pts Ch) as Me. pose proof (rings_once p planes g b Gr Good rings Rg Tn pts Ch o Dp Nr) as On.
  pose proof (trails p planes g b Gr Good rings Rg Tn) as Tr. pose proof (closed p planes g b Gr Good rings Rg Tn Me On) as Cl.
  assert (N0 : forall s, s = minus s (V3 0 0 0)) by (intros [s1 s2 s3]; unfold minus; cbn [vx vy vz]; f_equal; ring). rewrite (N0 (sum_vectors _ _)), <- Cl.
  apply (vectors_near _ _ (nigh3 (allowance b))); [|now apply drawn_near]. intros s [[x y] z] I N. apply area_near; [exact N|].
  destruct (cut_true rings Tr x y z I) as (pl & Ip & Tx & Ty & Tz). split; now apply (Ac pl).
Qed.
End Faces.

(** ** With real numbers *)
Lemma open_spans : forall p0 p1 p2, proper p0 -> proper p1 -> proper p2 -> (spans p0 p1 p2 <-> / 1000 <= openness p0 p1 p2).
Proof.
  intros p0 p1 p2 P0 P1 P2. unfold spans, openness, proper in *. pose proof (norm_pos (facing p0)). pose proof (norm_pos (facing p1)). pose proof (norm_pos (facing p2)).
  assert (D : 0 < norm (facing p0) * norm (facing p1) * norm (facing p2)) by (repeat apply Rmult_lt_0_compat; lra).
  generalize dependent (norm (facing p0) * norm (facing p1) * norm (facing p2)). intros n D. generalize (inner (outer (facing p0) (facing p1)) (facing p2)). intros m. split; intros X.
  - apply Rmult_le_reg_r with n; [exact D|]. unfold Rdiv. rewrite Rmult_assoc, Rinv_l by lra. lra.
  - apply Rmult_le_compat_r with (r := n) in X; [|lra]. unfold Rdiv in X. rewrite Rmult_assoc, Rinv_l in X by lra. lra.
Qed.
Lemma open_pos : forall p0 p1 p2, 0 < openness p0 p1 p2 -> proper p0 /\ proper p1 /\ proper p2.
Proof.
  intros p0 p1 p2. unfold openness, proper. intros D. repeat split; intros Z; rewrite Z in D; rewrite ?Rmult_0_l, ?Rmult_0_r, ?Rmult_0_l in D; unfold Rdiv in D; rewrite Rinv_0, Rmult_0_r in D; lra.
Qed.
Lemma within_more : forall d d' q x, d <= d' -> within d q x -> within d' q x.
Proof. intros d d' q x L W. unfold within in *. pose proof (norm_pos (facing q)). nra. Qed.
Section Exact.
Context (parse : str -> option R) (cosine radians : R -> R) (atan2 : R -> R -> R) (quat : vec3 R -> R -> vec3 R -> vec3 R) (mat2 : R -> vec2 R -> vec2 R).
Local Notation O := (real_num parse cosine radians atan2 quat mat2).
Context (tx : texture_info) (e : entity R) (planes : list (brush_plane f32)).
Local Notation K := (map plane_of planes).
Lemma exact_corners : forall pl f x, build_face O tx e K (plane_of pl) = Ok f -> clear planes pl -> (In x (points f) <-> true_corner planes pl x).
Proof.
  intros pl f x E Cl. unfold points. rewrite (proj2 (RealProofs.real_corners _ _ _ _ _ _ _ _ _ _ _ E) x). split.
  - intros (P1 & P2 & I1 & I2 & Pr & Pr1 & Pr2 & Sp & O0 & O1 & O2 & W). apply in_map_iff in I1, I2. destruct I1 as (p1 & <- & I1), I2 as (p2 & <- & I2).
    apply open_spans in Sp; auto. assert (X : crossing pl p1 p2 x) by (repeat split; auto; lra). split; [exists p1, p2; auto|].
    destruct (Cl p1 p2 x I1 I2 X) as [(S & _)|(q & Iq & _ & [Lo|Nw])]; [exact S|lra|]. exfalso. apply Nw. apply within_more with (/ 1000); [|apply W; now apply in_map].
    assert (0 <= blur pl p1 p2 x).
    { unfold blur. apply Rmult_le_pos; [left; apply Rinv_0_lt_compat; apply pow_lt; lra|]. unfold Rdiv. apply Rmult_le_pos; [|left; apply Rinv_0_lt_compat; lra].
      unfold distances. repeat apply Rplus_le_le_0_compat; apply norm_pos. }
    assert (0 <= CornerSpec.slack q) by (unfold CornerSpec.slack; apply Rmult_le_pos; [left; apply Rinv_0_lt_compat; apply pow_lt; lra|apply norm_pos]). lra.
  - intros ((p1 & p2 & I1 & I2 & X) & S). destruct (Cl p1 p2 x I1 I2 X) as [(_ & Op & _)|(q & Iq & Nw & _)]; [|exfalso; apply Nw; now apply S].
    destruct X as (O0 & O1 & O2 & P). destruct (open_pos _ _ _ P) as (P0 & P1 & P2). exists (plane_of p1), (plane_of p2). split; [now apply in_map|]. split; [now apply in_map|].
    split; [exact P0|]. split; [exact P1|]. split; [exact P2|]. split; [apply open_spans; auto; lra|]. split; [exact O0|]. split; [exact O1|]. split; [exact O2|].
    intros q Iq. apply in_map_iff in Iq. destruct Iq as (q' & <- & Iq). apply within_more with 0; [lra|now apply S].
Qed.
Lemma exact_outline : forall pl f, In pl planes -> build_face O tx e K (plane_of pl) = Ok f -> polar_angle atan2 -> clear planes pl -> outline planes pl (points f).
Proof.
  intros pl f I E An Cl. split; [apply (RealProofs.real_corners _ _ _ _ _ _ _ _ _ _ _ E)|]. split; [intros x; now apply exact_corners|].
  assert (Cr : crisp K f).
  { intros v q Iv Iq. apply in_map_iff in Iq. destruct Iq as (q' & <- & Iq). assert (T : true_corner planes pl (vt_pos v)) by (apply (exact_corners pl f _ E Cl); unfold points; now apply in_map). now apply T. }
  intros i j k x y z L1 L2 X Y Z. exact (any_clockwise _ _ _ _ _ _ _ _ _ _ _ E Cr An i j k x y z L1 L2 X Y Z).
Qed.
Theorem exact_volume : forall b', build_brush O tx e K = Ok b' -> polar_angle atan2 -> (forall pl, In pl planes -> clear planes pl) ->
  forall v, true_volume planes v -> forall c, sum_numbers (six_volumes c) (all_triangles (bg_faces b')) = 6 * v.
Proof.
  intros b' Eb An Cl v (_ & Tv) c. unfold build_brush in Eb. apply bind_ok in Eb. destruct Eb as (fs & M & Q). injection Q as <-. cbn [bg_faces]. apply mapM_ok in M.
  assert (F : Forall2 (fun pl f => build_face O tx e K (plane_of pl) = Ok f) planes fs).
  { exact (Forall2_source _ _ _ (fun P f => build_face O tx e K P = Ok f) plane_of planes fs M). }
  assert (Out : Forall2 (outline planes) planes (map points fs)).
  { apply pointwise; [rewrite map_length; now apply Forall2_length in F|]. intros i pl ys Ep Ey. rewrite nth_error_map in Ey. destruct (nth_error fs i) as [f|] eqn:Ef; [|discriminate Ey]. injection Ey as <-.
    pose proof (Forall2_at _ _ _ _ _ F i pl f Ep Ef) as X. cbv beta in X.
    assert (I : In pl planes) by (now apply nth_error_In in Ep). apply exact_outline; auto. }
  assert (A : forall f, In f fs -> face_triangles f = cut (points f)).
  { intros f I. destruct (Forall2_in_r _ _ _ _ _ _ F I) as (pl & _ & X). rewrite (triangles_fan _ _ _ _ _ _ _ _ _ _ _ X). destruct (points f) as [|a [|c' [|d l']]]; reflexivity. }
  rewrite <- (Tv _ Out c). f_equal. change (all_triangles fs) with (flat_map face_triangles fs). clear -A. induction fs as [|f l IH]; [reflexivity|]. cbn [flat_map map].
  rewrite (A f (or_introl eq_refl)), IH; [reflexivity|]. intros f' I. apply A. now right.
Qed.
End Exact.
