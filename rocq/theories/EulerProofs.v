(** Corners, edges and faces of a solid: proofs of C128. *)
From Coq Require Import Reals Lra Psatz Lia Permutation.
From Verif Require Import Prelude F32 Text MapModel GeoModel GeoSpec RealSpec WindSpec SolidSpec EdgeSpec
  BaseProofs GeoProofs RealProofs WindProofs SolidProofs TouchProofs EdgeProofs NeighbourProofs.
Local Open Scope R_scope.

(** ** Vectors *)
Lemma inner_minus : forall g x y, inner g (minus x y) = inner g x - inner g y.
Proof. intros. vectors. ring. Qed.
Lemma inner_scaled : forall g k x, inner g (scaled k x) = k * inner g x.
Proof. intros. vectors. ring. Qed.
Lemma inner_between : forall g a b l, inner g (between a b l) = (1 - l) * inner g a + l * inner g b.
Proof. intros. unfold between. vectors. ring. Qed.
Lemma inner_moved : forall g x w t, inner g (moved x w t) = inner g x + t * inner g w.
Proof. intros. unfold moved. vectors. ring. Qed.
Lemma inner_plus : forall g x y, inner g (plus x y) = inner g x + inner g y.
Proof. intros. vectors. ring. Qed.
Lemma inner_zero : forall g, inner g (V3 0 0 0) = 0.
Proof. intros. vectors. ring. Qed.
Lemma along_scaled : forall w X, w <> V3 0 0 0 -> outer X w = V3 0 0 0 -> exists k, X = scaled k w.
Proof.
  intros w X N Z. pose proof (inner_pos w N) as P. exists (inner w X / inner w w). pose proof (triple_outer w X w) as T. rewrite Z, outer_null in T.
  pose proof (f_equal vx T) as E1. pose proof (f_equal vy T) as E2. pose proof (f_equal vz T) as E3. unfold scaled, minus in *. cbn [vx vy vz] in *.
  apply v3_ext; cbn [vx vy vz]; apply (Rmult_eq_reg_l (inner w w)); try lra; field_simplify; lra.
Qed.
Lemma little : forall g d l, (forall x, In x l -> inner g x <> 0) -> exists m, 0 < m /\ forall t, 0 < t < m -> forall x, In x l -> inner g x + t * inner d x <> 0.
Proof.
  intros g d l. induction l as [|x l IH]; intros N; [exists 1; split; [lra|intros t _ x []]|].
  destruct IH as (m & M & A); [intros y I; apply N; now right|]. pose proof (N x (or_introl eq_refl)) as Nx.
  set (a := Rabs (inner g x)). set (c := Rabs (inner d x) + 1). assert (Pa : 0 < a) by (now apply Rabs_pos_lt). assert (Pc : 0 < c) by (pose proof (Rabs_pos (inner d x)); unfold c; lra).
  exists (Rmin m (a / c)). split; [apply Rmin_pos; [exact M|now apply Rdiv_lt_0_compat]|]. intros t (T1 & T2) y [<-|I].
  - pose proof (Rlt_le_trans _ _ _ T2 (Rmin_r _ _)) as T. intros Z. assert (E : a = t * Rabs (inner d x)).
    { unfold a. replace (inner g x) with (- (t * inner d x)) by lra. rewrite Rabs_Ropp, Rabs_mult, (Rabs_right t) by lra. reflexivity. }
    assert (t * c < a) by (apply (Rmult_lt_compat_r c) in T; [|exact Pc]; unfold Rdiv in T; rewrite Rmult_assoc, Rinv_l, Rmult_1_r in T by lra; exact T). unfold c in *. pose proof (Rabs_pos (inner d x)). nra.
  - apply A; [|exact I]. split; [exact T1|]. apply (Rlt_le_trans _ _ _ T2), Rmin_l.
Qed.
Lemma heights : forall l, (forall d, In d l -> d <> V3 0 0 0) -> exists g, forall d, In d l -> inner g d <> 0.
Proof.
  induction l as [|d l IH]; intros N; [exists (V3 0 0 0); intros d []|]. destruct IH as (g & G); [intros x I; apply N; now right|].
  destruct (Req_dec (inner g d) 0) as [Z|Z]; [|exists g; intros x [<-|I]; auto]. destruct (little g d l G) as (m & M & A).
  exists (plus g (scaled (m / 2) d)). assert (E : forall x, inner (plus g (scaled (m / 2) d)) x = inner g x + m / 2 * inner d x) by (intros; vectors; ring).
  intros x [<-|I]; rewrite E; [|apply A; [lra|exact I]]. pose proof (inner_pos d (N d (or_introl eq_refl))). nra.
Qed.
Lemma apart : forall V : list (vec3 R), exists g, forall x y, In x V -> In y V -> inner g x = inner g y -> x = y.
Proof.
  intros V. set (l := filter (fun d => if v3_dec d (V3 0 0 0) then false else true) (flat_map (fun x => map (fun y => minus x y) V) V)).
  destruct (heights l) as (g & G).
  - intros d I. unfold l in I. apply filter_In in I. destruct I as (_ & I). destruct (v3_dec d (V3 0 0 0)); [discriminate|assumption].
  - exists g. intros x y Ix Iy E. apply minus_null. destruct (v3_dec (minus x y) (V3 0 0 0)) as [Z|Z]; [exact Z|exfalso]. apply (G (minus x y)).
    + unfold l. apply filter_In. split; [|now destruct (v3_dec (minus x y) (V3 0 0 0))]. apply in_flat_map. exists x. split; [exact Ix|]. apply in_map_iff. now exists y.
    + rewrite inner_minus. lra.
Qed.
Lemma weighted_only : forall f p l w y, weighted l w y -> (forall x, In x l -> x = p \/ inner f (minus x p) < 0) ->
  0 <= w /\ inner f y <= w * inner f p /\ (inner f y = w * inner f p -> y = scaled w p).
Proof.
  intros f p l w y H. induction H as [|x l w s y W H IH]; intros A.
  { split; [lra|]. split; [rewrite inner_zero; lra|]. intros _. unfold scaled. f_equal; ring. }
  destruct (IH (fun z I => A z (or_intror I))) as (S & L & Eq).
  replace (inner f (V3 (w * vx x + vx y) (w * vy x + vy y) (w * vz x + vz y))) with (w * inner f x + inner f y) by (vectors; ring).
  destruct (A x (or_introl eq_refl)) as [->|Lx].
  - split; [lra|]. split; [lra|]. intros E. rewrite (Eq ltac:(lra)). unfold scaled. cbn [vx vy vz]. f_equal; ring.
  - rewrite inner_minus in Lx. split; [lra|]. split; [nra|]. intros E. assert (w = 0) as -> by (destruct W as [W|W]; [nra|lra]). rewrite (Eq ltac:(lra)). unfold scaled. cbn [vx vy vz]. f_equal; ring.
Qed.
Lemma nearer : forall a c v, v < a -> exists s, 0 < s <= 1 /\ v < (1 - s) * a + s * c.
Proof.
  intros a c v L. destruct (Rlt_le_dec v c) as [C|C]; [exists 1; split; [lra|]; lra|]. exists ((a - v) / (2 * (a - c))).
  assert (P : 0 < 2 * (a - c)) by lra. split; [split; [apply Rdiv_lt_0_compat; lra|]|].
  - apply (Rmult_le_reg_r (2 * (a - c))); [exact P|]. unfold Rdiv. rewrite Rmult_assoc, Rinv_l by lra. lra.
  - replace ((1 - (a - v) / (2 * (a - c))) * a + (a - v) / (2 * (a - c)) * c) with (a - (a - v) / 2) by (field; lra). lra.
Qed.

(** ** Counting *)
Lemma count_split : forall A (f : A -> bool) l, (length (filter f l) + length (filter (fun x => negb (f x)) l) = length l)%nat.
Proof. intros A f l. induction l as [|a l IH]; [reflexivity|]. cbn [filter length]. destruct (f a); cbn [negb length]; lia. Qed.
Definition total {A} (f : A -> nat) (l : list A) : nat := fold_right (fun x s => (f x + s)%nat) 0%nat l.
Lemma total_const : forall A (l : list A) (f : A -> nat) k, (forall x, In x l -> f x = k) -> total f l = (k * length l)%nat.
Proof. intros A l f k H. induction l as [|a l IH]; [cbn; lia|]. cbn [total fold_right length]. fold (total f l). rewrite IH, (H a (or_introl eq_refl)) by (intros x I; apply H; now right). lia. Qed.
Lemma total_plus : forall A (l : list A) (f g : A -> nat), total (fun x => (f x + g x)%nat) l = (total f l + total g l)%nat.
Proof. intros A l f g. induction l as [|a l IH]; [reflexivity|]. cbn [total fold_right]. fold (total f l) (total g l) (total (fun x => (f x + g x)%nat) l). lia. Qed.
Lemma total_ext : forall A (l : list A) (f g : A -> nat), (forall x, In x l -> f x = g x) -> total f l = total g l.
Proof. intros A l f g H. induction l as [|a l IH]; [reflexivity|]. cbn [total fold_right]. fold (total f l) (total g l). rewrite IH, (H a (or_introl eq_refl)) by (intros x I; apply H; now right). reflexivity. Qed.
Lemma total_le : forall A (l : list A) (f g : A -> nat), (forall x, In x l -> (f x <= g x)%nat) -> (total f l <= total g l)%nat.
Proof. intros A l f g H. induction l as [|a l IH]; [reflexivity|]. cbn [total fold_right]. fold (total f l) (total g l). pose proof (H a (or_introl eq_refl)). specialize (IH (fun x I => H x (or_intror I))). lia. Qed.
Lemma count_total : forall A (f : A -> bool) l, length (filter f l) = total (fun x => if f x then 1%nat else 0%nat) l.
Proof. intros A f l. induction l as [|a l IH]; [reflexivity|]. cbn [filter total fold_right]. fold (total (fun x => if f x then 1%nat else 0%nat) l). destruct (f a); cbn [length]; lia. Qed.
Lemma count_twice : forall A B (m : A -> B -> bool) (k : list A) (l : list B),
  total (fun a => length (filter (m a) l)) k = total (fun c => length (filter (fun a => m a c) k)) l.
Proof.
  intros A B m k l. induction k as [|a k IH].
  - symmetry. rewrite (total_const _ _ _ 0%nat); [reflexivity|]. reflexivity.
  - cbn [total fold_right]. fold (total (fun a => length (filter (m a) l)) k). rewrite IH, (count_total _ (m a) l), <- total_plus. apply total_ext. intros c _. cbn [filter]. destruct (m a c); reflexivity.
Qed.
Lemma same_length : forall A (l l' : list A), NoDup l -> NoDup l' -> (forall x, In x l <-> In x l') -> length l = length l'.
Proof. intros A l l' N N' E. apply Permutation_length. now apply NoDup_Permutation. Qed.
Lemma count_two : forall A (f : A -> bool) l x y, NoDup l -> In x l -> In y l -> x <> y -> (forall z, In z l -> (f z = true <-> z = x \/ z = y)) -> length (filter f l) = 2%nat.
Proof.
  intros A f l x y N Ix Iy D H. apply (same_length _ (filter f l) [x; y]).
  - now apply NoDup_filter.
  - constructor; [intros [E|[]]; congruence|]. constructor; [intros []|constructor].
  - intros z. rewrite filter_In. cbn [In]. split.
    + intros (I & F). apply (H z I) in F. destruct F; auto.
    + intros [<-|[<-|[]]]; (split; [assumption|apply H; auto]).
Qed.
Lemma greatest : forall A (h : A -> R) l, l <> [] -> exists x, In x l /\ forall y, In y l -> h y <= h x.
Proof.
  intros A h l. induction l as [|a [|c l] IH]; intros N; [congruence|exists a; split; [now left|intros y [<-|[]]; lra]|].
  destruct IH as (x & I & M); [discriminate|]. destruct (Rle_lt_dec (h a) (h x)) as [L|L].
  - exists x. split; [now right|]. intros y [<-|Iy]; [exact L|now apply M].
  - exists a. split; [now left|]. intros y [<-|Iy]; [lra|]. pose proof (M y Iy). lra.
Qed.
(** Neither first nor last. *)
Definition inside (h : vec3 R -> R) (l : list (vec3 R)) (v : vec3 R) : bool :=
  existsb (fun x => if Rlt_dec (h v) (h x) then true else false) l && existsb (fun x => if Rlt_dec (h x) (h v) then true else false) l.
Lemma inside_iff : forall h l v, inside h l v = true <-> (exists x, In x l /\ h v < h x) /\ (exists x, In x l /\ h x < h v).
Proof.
  intros h l v. unfold inside. rewrite andb_true_iff, !existsb_exists. split; intros ((x & I & X) & (y & J & Y)).
  - destruct (Rlt_dec (h v) (h x)); [|discriminate]. destruct (Rlt_dec (h y) (h v)); [|discriminate]. eauto 10.
  - split; [exists x|exists y]; (split; [assumption|]). + now destruct (Rlt_dec (h v) (h x)). + now destruct (Rlt_dec (h y) (h v)).
Qed.
Lemma all_but_two : forall h l, NoDup l -> (2 <= length l)%nat -> (forall x y, In x l -> In y l -> h x = h y -> x = y) -> (length (filter (inside h l) l) + 2 = length l)%nat.
Proof.
  intros h l N L Inj. assert (Ne : l <> []) by (intros ->; cbn in L; lia).
  destruct (greatest _ h l Ne) as (x & Ix & Mx). destruct (greatest _ (fun z => - h z) l Ne) as (y & Iy & My).
  assert (D : x <> y).
  { intros <-. destruct l as [|a [|c l]]; [cbn in L; lia..|]. assert (a = c).
    { apply Inj; [now left|right; now left|]. pose proof (Mx a (or_introl eq_refl)). pose proof (Mx c (or_intror (or_introl eq_refl))). pose proof (My a (or_introl eq_refl)). pose proof (My c (or_intror (or_introl eq_refl))). cbn beta in *. lra. }
    subst c. inversion N as [|? ? X _]. apply X. now left. }
  rewrite <- (count_split _ (inside h l) l). f_equal. symmetry. apply (count_two _ _ l x y N Ix Iy D). intros z Iz. rewrite negb_true_iff. split.
  - intros E. destruct (Req_dec (h z) (h x)) as [Zx|Zx]; [left; now apply Inj|]. destruct (Req_dec (h z) (h y)) as [Zy|Zy]; [right; now apply Inj|]. exfalso.
    assert (inside h l z = true); [|congruence]. apply inside_iff. pose proof (Mx z Iz). pose proof (My z Iz). cbn beta in *. split; [exists x|exists y]; (split; [assumption|lra]).
  - intros E. apply not_true_iff_false. intros T. apply inside_iff in T. destruct T as ((a & Ia & A) & (c & Ic & C)). pose proof (Mx a Ia). pose proof (My c Ic). cbn beta in *. destruct E as [->| ->]; lra.
Qed.

(** ** Solids *)
Section Solid.
Context (K : list (brush_plane R)) (pts : brush_plane R -> list (vec3 R)) (o : vec3 R).
Context (Pr : forall P, In P K -> proper P) (Hull : forall P, In P K -> forall x, in_hull (pts P) x <-> side K P x)
  (Tip : forall P p, In P K -> In p (pts P) -> tip K p) (Dp : deep K o) (Once : forall P Q, In P K -> In Q K -> same_half P Q -> P = Q).
Lemma active : forall P v, In P K -> on_plane P v -> forall x, solid K x -> inner (facing P) (minus x v) <= 0.
Proof.
  intros P v I Ov x S. rewrite solid_slack in S. pose proof (S P I) as X. unfold slack in X. unfold on_plane in Ov. rewrite inner_minus in *. lra.
Qed.
Lemma room : forall v w, solid K v -> (forall P, In P K -> on_plane P v -> inner (facing P) w <= 0) -> exists t, 0 < t /\ solid K (moved v w t).
Proof.
  intros v w S A. destruct (travel K v w S) as [B|(t & Q & T & IQ & Rq & Eq & Al)].
  - exists 1. split; [lra|]. rewrite solid_slack in *. intros r Ir. rewrite slack_moved. pose proof (B r Ir). pose proof (S r Ir). lra.
  - exists t. split.
    + destruct T as [T|<-]; [exact T|exfalso]. rewrite Rmult_0_l in Eq. apply slack_on in Eq. pose proof (A Q IQ Eq). unfold rate in Rq. lra.
    + apply solid_slack. intros r Ir. rewrite slack_moved. pose proof (Al r Ir). lra.
Qed.
Context (g : vec3 R) (Inj : forall P Q x y, In P K -> In Q K -> In x (pts P) -> In y (pts Q) -> inner g x = inner g y -> x = y).
Lemma pts_solid : forall P x, In P K -> In x (pts P) -> solid K x /\ on_plane P x.
Proof. intros P x I Ix. destruct (pts_side K pts Hull P x I Ix). auto. Qed.

Section Corner.
Context (v : vec3 R) (Sv : solid K v) (Tv : tip K v) (Pv : brush_plane R) (IPv : In Pv K) (Iv : In v (pts Pv)).
Definition across (Q : brush_plane R) : Prop := In v (pts Q) /\ (exists x, In x (pts Q) /\ inner g v < inner g x) /\ (exists x, In x (pts Q) /\ inner g x < inner g v).
Lemma across_iff : forall Q, In Q K -> (across Q <-> on_plane Q v /\ exists z, z <> v /\ side K Q z /\ inner g z = inner g v).
Proof.
  intros Q IQ. split.
  - intros (IvQ & (a & Ia & A) & (c & Ic & C)). destruct (pts_solid Q v IQ IvQ) as (_ & Ov). split; [exact Ov|].
    destruct (pts_solid Q a IQ Ia) as (Sa & Oa). destruct (pts_solid Q c IQ Ic) as (Sc & Oc).
    set (t := (inner g v - inner g c) / (inner g a - inner g c)). assert (T : 0 < t < 1).
    { unfold t. split; [apply Rdiv_lt_0_compat; lra|]. apply (Rmult_lt_reg_r (inner g a - inner g c)); [lra|]. unfold Rdiv. rewrite Rmult_assoc, Rinv_l by lra. lra. }
    exists (between c a t). split; [|split; [split|]].
    + intros E. destruct Tv as (f & F). assert (Fa := F a Sa ltac:(intros ->; lra)). assert (Fc := F c Sc ltac:(intros ->; lra)). rewrite inner_minus in Fa, Fc.
      pose proof (f_equal (inner f) E) as X. rewrite inner_between in X. nra.
    + apply slack_on. rewrite slack_between. apply slack_on in Oa, Oc. rewrite Oa, Oc. ring.
    + apply solid_slack. intros r Ir. rewrite slack_between. rewrite solid_slack in Sa, Sc. pose proof (Sa r Ir). pose proof (Sc r Ir). nra.
    + rewrite inner_between. unfold t. field. lra.
  - intros (Ov & z & Nz & Sz & Ez). assert (IvQ : In v (pts Q)) by (apply (tip_corner K pts Hull); [exact IQ|exact Tv|now split]). apply (Hull Q IQ) in Sz.
    assert (Side : forall f, (forall x, In x (pts Q) -> inner f x = inner f v -> x = v) -> inner f z = inner f v -> exists x, In x (pts Q) /\ inner f v < inner f x).
    { intros f J E. destruct (existsb (fun x => if Rlt_dec (inner f v) (inner f x) then true else false) (pts Q)) eqn:X.
      - apply existsb_exists in X. destruct X as (x & Ix & X). exists x. split; [exact Ix|]. now destruct (Rlt_dec (inner f v) (inner f x)).
      - exfalso. destruct (weighted_only f v _ _ _ Sz) as (_ & _ & Only).
        + intros x Ix. assert (Lx : inner f x <= inner f v).
          { apply Rnot_lt_le. intros Lx. assert (existsb (fun x => if Rlt_dec (inner f v) (inner f x) then true else false) (pts Q) = true); [|congruence].
            apply existsb_exists. exists x. split; [exact Ix|]. now destruct (Rlt_dec (inner f v) (inner f x)). }
          destruct Lx as [Lx|Lx]; [right; rewrite inner_minus; lra|left; now apply J].
        + apply Nz. rewrite Only by lra. apply v3_ext; unfold scaled; cbn [vx vy vz]; ring. }
    split; [exact IvQ|]. split.
    + apply Side; [|exact Ez]. intros x Ix E. now apply (Inj Q Q).
    + destruct (Side (scaled (-1) g)) as (x & Ix & X).
      * intros x Ix E. apply (Inj Q Q); auto. rewrite (inner_comm (scaled (-1) g) x), (inner_comm (scaled (-1) g) v), !inner_scaled, (inner_comm x), (inner_comm v) in E. lra.
      * rewrite (inner_comm (scaled (-1) g) z), (inner_comm (scaled (-1) g) v), !inner_scaled, (inner_comm z), (inner_comm v). lra.
      * exists x. split; [exact Ix|]. rewrite (inner_comm (scaled (-1) g) x), (inner_comm (scaled (-1) g) v), !inner_scaled, (inner_comm x), (inner_comm v) in X. lra.
Qed.
Lemma same_crossing : forall P Q z, In P K -> In Q K -> on_plane P v -> on_plane Q v -> on_plane P z -> on_plane Q z -> solid K z -> z <> v -> inner g z = inner g v -> P = Q.
Proof.
  intros P Q z IP IQ OPv OQv OPz OQz Sz Nz Ez. set (F := facing P). set (G := facing Q).
  destruct (v3_dec (outer F G) (V3 0 0 0)) as [Z|Z].
  - apply Once; auto. apply (parallel_same K o P Q v); auto.
  - exfalso. assert (Hz : in_hull (pts P) z) by (apply (Hull P IP); now split). assert (Nzv : minus z v <> V3 0 0 0) by (intros X; apply minus_null in X; congruence).
    assert (Line : forall x, on_plane P x -> inner G (minus x v) = 0 -> outer (minus x v) (outer F G) = V3 0 0 0).
    { intros x Ox Gx. apply normal_along; [rewrite inner_comm; now apply on_both|now rewrite inner_comm]. }
    destruct (weighted_only G v _ _ _ Hz) as (_ & _ & Only).
    + intros x Ix. destruct (pts_solid P x IP Ix) as (Sx & Ox). destruct (active Q v IQ OQv x Sx) as [X|X]; [now right|left].
      assert (Pl : outer (minus x v) (minus z v) = V3 0 0 0) by (apply (along_each (outer F G)); [exact Z|now apply Line|apply Line; [exact OPz|now apply on_both]]).
      destruct (along_scaled _ _ Nzv Pl) as (k & Ek). apply (Inj P Pv); auto. pose proof (f_equal (inner g) Ek) as Y. rewrite inner_scaled, !inner_minus, Ez in Y. lra.
    + apply Nz. rewrite Only; [apply v3_ext; unfold scaled; cbn [vx vy vz]; ring|]. pose proof (on_both Q v z OQv OQz) as X. fold G in X. rewrite inner_minus in X. lra.
Qed.

Context (d f : vec3 R) (Ng : g <> V3 0 0 0) (Gd : inner g d = 0) (Fd : inner f d < 0) (Ff : forall y, solid K y -> y <> v -> inner f (minus y v) < 0)
  (In_d : forall P, In P K -> on_plane P v -> inner (facing P) d < 0).
Lemma ray : forall e, e <> V3 0 0 0 -> inner f e = 0 -> exists P t, In P K /\ on_plane P v /\ 0 < inner (facing P) e /\ 0 <= t /\ inner (facing P) d + t * inner (facing P) e = 0
  /\ forall Q, In Q K -> on_plane Q v -> inner (facing Q) d + t * inner (facing Q) e <= 0.
Proof.
  intros e Ne Fe. set (A := filter (fun P => if Req_EM_T (slack P v) 0 then true else false) K).
  assert (IA : forall P, In P A <-> In P K /\ on_plane P v).
  { intros P. unfold A. rewrite filter_In, slack_on. destruct (Req_EM_T (slack P v) 0); intuition congruence. }
  assert (Sl : forall P, In P A -> slack P (moved v d 1) = - inner (facing P) d).
  { intros P I. apply IA in I. destruct I as (_ & I). rewrite slack_moved. apply slack_on in I. unfold rate. rewrite I. ring. }
  destruct (travel A (moved v d 1) e) as [B|(t & Q & T & IQ & Rq & Eq & Al)].
  - apply solid_slack. intros P I. rewrite (Sl P I). apply IA in I. pose proof (In_d P (proj1 I) (proj2 I)). lra.
  - exfalso. destruct (room v e Sv) as (t & T & S).
    { intros P I Ov. apply B. now apply IA. }
    assert (N : moved v e t <> v).
    { intros X. apply Ne. pose proof (f_equal vx X) as E1. pose proof (f_equal vy X) as E2. pose proof (f_equal vz X) as E3. unfold moved in E1, E2, E3. cbn [vx vy vz] in E1, E2, E3.
      apply v3_ext; cbn [vx vy vz]; apply (Rmult_eq_reg_l t); lra. }
    pose proof (Ff _ S N) as X. rewrite inner_minus, inner_moved, Fe in X. lra.
  - pose proof (Sl Q IQ) as SQ. apply IA in IQ as IQ'. destruct IQ' as (IK & Ov). exists Q, t. unfold rate in *. split; [exact IK|]. split; [exact Ov|]. split; [exact Rq|]. split; [exact T|]. split; [lra|].
    intros P IP OP. assert (I : In P A) by now apply IA. pose proof (Al P I) as X. rewrite (Sl P I) in X. lra.
Qed.
Lemma ray_across : forall e P t, inner g e = 0 -> inner f e = 0 -> In P K -> on_plane P v -> inner (facing P) d + t * inner (facing P) e = 0 ->
  (forall Q, In Q K -> on_plane Q v -> inner (facing Q) d + t * inner (facing Q) e <= 0) -> across P.
Proof.
  intros e P t Ge Fe IP OP Z A. apply (across_iff P IP). split; [exact OP|]. set (r := plus d (scaled t e)).
  assert (Er : forall h, inner h r = inner h d + t * inner h e) by (intros h; unfold r; rewrite inner_plus, inner_scaled; reflexivity).
  destruct (room v r Sv) as (s & S & So); [intros Q IQ OQ; rewrite Er; now apply A|]. exists (moved v r s). split; [|split; [split|]].
  - intros X. pose proof (f_equal (inner f) X) as Y. rewrite inner_moved, Er, Fe in Y. nra.
  - apply slack_on. rewrite slack_moved. unfold rate. rewrite Er, Z. apply slack_on in OP. rewrite OP. ring.
  - exact So.
  - rewrite inner_moved, Er, Gd, Ge. ring.
Qed.
Lemma ray_only : forall e P t Q z a c, In P K -> on_plane P v -> 0 < inner (facing P) e -> inner (facing P) d + t * inner (facing P) e = 0 ->
  (forall Q, In Q K -> on_plane Q v -> inner (facing Q) d + t * inner (facing Q) e <= 0) ->
  In Q K -> on_plane Q v -> z <> v -> side K Q z -> inner g z = inner g v -> 0 < a -> 0 < c -> minus z v = plus (scaled a d) (scaled c e) -> Q = P.
Proof.
  intros e P t Q z a c IP OP Pe Zp A IQ OQ Nz (OQz & Sz) Ez Pa Pc Ew.
  assert (Er : forall h, inner h (minus z v) = a * inner h d + c * inner h e) by (intros h; rewrite Ew, inner_plus, !inner_scaled; reflexivity).
  pose proof (on_both Q v z OQ OQz) as ZQ. rewrite Er in ZQ. pose proof (active P v IP OP z Sz) as LP. rewrite Er in LP. pose proof (A Q IQ OQ) as LQ. pose proof (In_d Q IQ OQ) as DQ.
  assert (Qe : 0 < inner (facing Q) e) by nra.
  assert (c <= a * t) by nra. assert (a * t <= c) by nra. assert (c = a * t) by lra. subst c.
  apply (same_crossing Q P z); auto. apply slack_on. unfold slack. apply slack_on in OP. unfold slack in OP. rewrite inner_minus in *. pose proof (Er (facing P)) as X. rewrite inner_minus in X.
  assert (a * (inner (facing P) d + t * inner (facing P) e) = 0) by (rewrite Zp; ring). lra.
Qed.
Lemma two_across_from : exists P1 P2, In P1 K /\ In P2 K /\ P1 <> P2 /\ forall Q, In Q K -> (across Q <-> Q = P1 \/ Q = P2).
Proof.
  set (e := outer g f). assert (Ge : inner g e = 0) by (unfold e; vectors; ring). assert (Fe : inner f e = 0) by (unfold e; vectors; ring).
  assert (Ne : e <> V3 0 0 0).
  { intros Z. apply Ng. pose proof (triple_outer d g f) as T. fold e in T. rewrite Z, outer_null, (inner_comm d g), (inner_comm d f), Gd in T.
    pose proof (f_equal vx T) as E1. pose proof (f_equal vy T) as E2. pose proof (f_equal vz T) as E3. unfold scaled, minus in E1, E2, E3. cbn [vx vy vz] in E1, E2, E3.
    apply v3_ext; cbn [vx vy vz]; apply (Rmult_eq_reg_l (inner f d)); lra. }
  set (e' := scaled (-1) e). assert (Ee' : forall h, inner h e' = - inner h e) by (intros h; unfold e'; rewrite inner_scaled; ring).
  assert (Ne' : e' <> V3 0 0 0).
  { intros Z. apply Ne. pose proof (f_equal vx Z) as E1. pose proof (f_equal vy Z) as E2. pose proof (f_equal vz Z) as E3. unfold e', scaled in E1, E2, E3. cbn [vx vy vz] in E1, E2, E3.
    apply v3_ext; cbn [vx vy vz]; lra. }
  assert (Ge' : inner g e' = 0) by (rewrite Ee'; lra). assert (Fe' : inner f e' = 0) by (rewrite Ee'; lra).
  destruct (ray e Ne Fe) as (P1 & t1 & I1 & O1 & R1 & T1 & Z1 & A1). destruct (ray e' Ne' Fe') as (P2 & t2 & I2 & O2 & R2 & T2 & Z2 & A2).
  exists P1, P2. split; [exact I1|]. split; [exact I2|]. split; [intros <-; rewrite Ee' in R2; lra|]. intros Q IQ. split.
  - intros X. apply (across_iff Q IQ) in X. destruct X as (OQ & z & Nz & Sz & Ez). destruct Sz as (OQz & Sz). pose proof (Ff z Sz Nz) as Fz.
    set (w := minus z v) in *. set (a := inner f w / inner f d). assert (Pa : 0 < a).
    { unfold a. replace (inner f w / inner f d) with ((- inner f w) / (- inner f d)) by (field; lra). apply Rdiv_lt_0_compat; lra. }
    set (u := minus w (scaled a d)). assert (Gu : inner g u = 0) by (unfold u; rewrite inner_minus, inner_scaled, Gd; unfold w; rewrite inner_minus, Ez; ring).
    assert (Fu : inner f u = 0) by (unfold u; rewrite inner_minus, inner_scaled; unfold a; field; lra).
    assert (Pu : outer u e = V3 0 0 0) by (unfold e; apply normal_along; rewrite inner_comm; assumption).
    destruct (along_scaled e u Ne Pu) as (c & Ec).
    assert (Ew : w = plus (scaled a d) (scaled c e)).
    { transitivity (plus (scaled a d) u); [unfold u; generalize a; intros; vectors; apply v3_ext; cbn [vx vy vz]; ring|now rewrite Ec]. }
    pose proof (on_both Q v z OQ OQz) as ZQ. fold w in ZQ. rewrite Ew, inner_plus, !inner_scaled in ZQ. pose proof (In_d Q IQ OQ) as DQ.
    destruct (Rtotal_order c 0) as [C|[C|C]].
    + right. apply (ray_only e' P2 t2 Q z a (- c)); auto; [now split|lra|]. fold w. rewrite Ew. unfold e'. generalize a. intros; vectors; apply v3_ext; cbn [vx vy vz]; ring.
    + exfalso. subst c. nra.
    + left. apply (ray_only e P1 t1 Q z a c); auto. now split.
  - intros [->| ->]; [now apply (ray_across e P1 t1)|now apply (ray_across e' P2 t2)].
Qed.
End Corner.

Lemma two_across : forall v Pv x y Px Py, In Pv K -> In v (pts Pv) -> In Px K -> In x (pts Px) -> In Py K -> In y (pts Py) -> inner g v < inner g x -> inner g y < inner g v ->
  exists P1 P2, In P1 K /\ In P2 K /\ P1 <> P2 /\ forall Q, In Q K -> (across v Q <-> Q = P1 \/ Q = P2).
Proof.
  intros v Pv x y Px Py IPv Iv IPx Ix IPy Iy Lx Ly. destruct (pts_solid Pv v IPv Iv) as (Sv & Ov). destruct (pts_solid Px x IPx Ix) as (Sx & _). destruct (pts_solid Py y IPy Iy) as (Sy & _).
  assert (Do : forall r, In r K -> 0 < slack r o) by (intros r Ir; pose proof (Dp r Ir); unfold slack; lra).
  destruct (nearer (inner g x) (inner g o) (inner g v) Lx) as (s & Ss & Sg). destruct (nearer (- inner g y) (- inner g o) (- inner g v) ltac:(lra)) as (t & Tt & Tg).
  set (x' := between x o s). set (y' := between y o t). assert (Hx : inner g v < inner g x') by (unfold x'; rewrite inner_between; lra). assert (Hy : inner g y' < inner g v) by (unfold y'; rewrite inner_between; lra).
  rewrite solid_slack in Sx, Sy.
  assert (Dx : forall r, In r K -> 0 < slack r x') by (intros r Ir; unfold x'; rewrite slack_between; pose proof (Sx r Ir); pose proof (Do r Ir); nra).
  assert (Dy : forall r, In r K -> 0 < slack r y') by (intros r Ir; unfold y'; rewrite slack_between; pose proof (Sy r Ir); pose proof (Do r Ir); nra).
  set (l := (inner g v - inner g y') / (inner g x' - inner g y')). assert (L : 0 < l < 1).
  { unfold l. split; [apply Rdiv_lt_0_compat; lra|]. apply (Rmult_lt_reg_r (inner g x' - inner g y')); [lra|]. unfold Rdiv. rewrite Rmult_assoc, Rinv_l by lra. lra. }
  set (c := between y' x' l). assert (Dc : forall r, In r K -> 0 < slack r c) by (intros r Ir; unfold c; rewrite slack_between; pose proof (Dx r Ir); pose proof (Dy r Ir); nra).
  assert (Gc : inner g c = inner g v) by (unfold c; rewrite inner_between; unfold l; field; lra). clearbody c. clear l L.
  destruct (Tip Pv v IPv Iv) as (f & F). apply (two_across_from v Sv (Tip Pv v IPv Iv) Pv IPv Iv (minus c v) f).
  - intros Z. rewrite Z in Lx. revert Lx. vectors. lra.
  - rewrite inner_minus. lra.
  - apply F; [apply solid_slack; intros r Ir; left; now apply Dc|]. intros ->. pose proof (Dc Pv IPv) as X. apply slack_on in Ov. lra.
  - exact F.
  - intros P IP OP. pose proof (Dc P IP) as X. apply slack_on in OP. unfold slack in X, OP. rewrite inner_minus in *. lra.
Qed.
End Solid.

Theorem euler : forall K pts o V, (forall P, In P K -> proper P) -> (forall P, In P K -> forall x, in_hull (pts P) x <-> side K P x) ->
  (forall P p, In P K -> In p (pts P) -> tip K p) -> deep K o -> (forall P Q, In P K -> In Q K -> same_half P Q -> P = Q) ->
  NoDup K -> (forall P, In P K -> NoDup (pts P) /\ (2 <= length (pts P))%nat) -> K <> [] -> NoDup V -> (forall x, In x V <-> exists P, In P K /\ In x (pts P)) ->
  (total (fun P => length (pts P)) K + 4 = 2 * length K + 2 * length V)%nat.
Proof.
  intros K pts o V Pr Hull Tip Dp Once NK Np NeK NV HV. destruct (apart V) as (g & G).
  assert (Inj : forall P Q x y, In P K -> In Q K -> In x (pts P) -> In y (pts Q) -> inner g x = inner g y -> x = y) by (intros P Q x y IP IQ Ix Iy; apply G; apply HV; eauto).
  set (m := fun P v => (if in_dec v3_dec v (pts P) then true else false) && inside (inner g) (pts P) v).
  assert (M : forall P v, m P v = true <-> across pts g v P).
  { intros P v. unfold m, across. rewrite andb_true_iff, inside_iff. destruct (in_dec v3_dec v (pts P)); intuition congruence. }
  assert (Face : forall P, In P K -> (length (filter (m P) V) + 2 = length (pts P))%nat).
  { intros P IP. destruct (Np P IP) as (N & L). rewrite <- (all_but_two (inner g) (pts P) N L) by (intros x y Ix Iy; now apply (Inj P P)). f_equal. apply same_length; [now apply NoDup_filter|now apply NoDup_filter|].
    intros x. rewrite !filter_In. unfold m. split.
    - intros (_ & X). apply andb_true_iff in X. destruct X as (X & Y). destruct (in_dec v3_dec x (pts P)); [auto|discriminate].
    - intros (Ix & X). split; [apply HV; eauto|]. rewrite X. destruct (in_dec v3_dec x (pts P)); [reflexivity|contradiction]. }
  assert (LV : (2 <= length V)%nat).
  { destruct K as [|P K0]; [congruence|]. destruct (Np P (or_introl eq_refl)) as (N & L). apply (Nat.le_trans _ _ _ L). apply NoDup_incl_length; [exact N|]. intros x Ix. apply HV. exists P. split; [now left|exact Ix]. }
  pose proof (all_but_two (inner g) V NV LV G) as All.
  assert (Corner : forall v, In v V -> length (filter (fun P => m P v) K) = if inside (inner g) V v then 2%nat else 0%nat).
  { intros v Iv. pose proof Iv as Iv'. apply HV in Iv'. destruct Iv' as (Pv & IPv & IvP). destruct (inside (inner g) V v) eqn:E.
    - apply inside_iff in E. destruct E as ((x & Ix & Lx) & (y & Iy & Ly)). apply HV in Ix, Iy. destruct Ix as (Px & IPx & Ix), Iy as (Py & IPy & Iy).
      destruct (two_across K pts o Pr Hull Tip Dp Once g Inj v Pv x y Px Py IPv IvP IPx Ix IPy Iy Lx Ly) as (P1 & P2 & I1 & I2 & D & A).
      apply (count_two _ _ K P1 P2 NK I1 I2 D). intros Q IQ. rewrite M. now apply A.
    - destruct (filter (fun P => m P v) K) as [|Q l] eqn:Fl; [reflexivity|exfalso]. assert (I : In Q (filter (fun P => m P v) K)) by (rewrite Fl; now left). apply filter_In in I. destruct I as (IQ & X).
      apply M in X. destruct X as (_ & (x & Ix & Lx) & (y & Iy & Ly)). assert (inside (inner g) V v = true); [|congruence]. apply inside_iff. split; [exists x|exists y]; (split; [apply HV; eauto|assumption]). }
  pose proof (count_twice _ _ m K V) as Tw. rewrite (total_ext _ V _ _ Corner) in Tw.
  assert (E1 : total (fun P => length (pts P)) K = (total (fun P => length (filter (m P) V)) K + 2 * length K)%nat).
  { rewrite <- (total_const _ K (fun _ => 2%nat) 2%nat) by reflexivity. rewrite <- total_plus. apply total_ext. intros P IP. now rewrite <- Face. }
  assert (E2 : total (fun v => if inside (inner g) V v then 2%nat else 0%nat) V = (2 * length (filter (inside (inner g) V) V))%nat).
  { rewrite count_total. clear. generalize (inside (inner g) V). intros p. induction V as [|a l IH]; [reflexivity|]. cbn [total fold_right]. fold (total (fun v => if p v then 2%nat else 0%nat) l) (total (fun v => if p v then 1%nat else 0%nat) l). destruct (p a); lia. }
  lia.
Qed.
