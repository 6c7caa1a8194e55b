(** Edges of brushes in single precision: proofs of C131. *)
From Coq Require Import Reals Lra Lia ZArith Permutation Psatz Classical.
From Verif Require Import Prelude F32 Text MapModel GeoModel GeoSpec RealSpec WindSpec ErrorSpec CornerSpec SolidSpec WoundSpec SharedSpec CoverSpec EdgeSpec SeamSpec
  BaseProofs GeoProofs ErrorProofs ErrorFinal WindProofs SolidProofs CornerProofs CoverProofs.
From Verif Require EdgeProofs EulerProofs GeoFinal NeighbourProofs.
Import EdgeProofs.
Local Open Scope R_scope.

(** ** Rings with repetitions *)
Lemma nodup_within : forall A (dec : forall a b : A, {a = b} + {a <> b}) l, exists h : nat -> nat, (forall i j, (i < j)%nat -> (h i < h j)%nat)
  /\ forall i x, nth_error (nodup dec l) i = Some x -> nth_error l (h i) = Some x.
Proof.
  intros A dec l. induction l as [|a l (h & Up & At)]; [exists (fun i => i); split; auto|]. cbn [nodup]. destruct (in_dec dec a l) as [I|I].
  - exists (fun i => S (h i)). split; [intros i j L; specialize (Up i j L); lia|exact At].
  - exists (fun i => match i with O => O | S i => S (h i) end). split.
    + intros [|i] [|j] L; try lia. specialize (Up i j ltac:(lia)). lia.
    + intros [|i] x E; [exact E|now apply At].
Qed.
Section Ring.
Context (F : vec3 R) (ys : list (vec3 R)).
Context (Ord : forall i j k a b d, (i < j)%nat -> (j < k)%nat -> nth_error ys i = Some a -> nth_error ys j = Some b -> nth_error ys k = Some d ->
  a <> b -> b <> d -> a <> d -> clockwise F a b d).
Lemma follows_in : forall x y, follows ys x y -> In x ys /\ In y ys.
Proof. intros x y (i & X & Y). apply nth_error_In in X, Y. auto. Qed.
Lemma follows_side : forall p q c, follows ys p q -> p <> q -> In c ys -> c <> p -> c <> q -> clockwise F p q c.
Proof.
  intros p q c (i & Hp & Hq) N Ic Np Nq. apply In_nth_error in Ic. destruct Ic as (k & Hk).
  assert (k <> i) by (intros ->; congruence).
  destruct (Si_mod _ _ _ _ Hp) as [(L & E)|(L & E)]; rewrite E in Hq.
  - assert (k <> S i) by (intros ->; congruence). destruct (lt_dec k i).
    + apply cw_turn. apply (Ord k i (S i)); auto.
    + apply (Ord i (S i) k); auto. lia.
  - assert (k <> 0%nat) by (intros ->; congruence). assert (k < length ys)%nat by (apply nth_error_Some; congruence).
    do 2 apply cw_turn. apply (Ord 0%nat k i); auto; lia.
Qed.
Lemma leaves : forall p q, In p ys -> In q ys -> p <> q -> exists r, follows ys p r /\ r <> p.
Proof.
  intros p q Ip Iq N. apply NNPP. intros No. apply In_nth_error in Ip, Iq. destruct Ip as (i & Hi), Iq as (j & Hj).
  assert (Li : (i < length ys)%nat) by (apply nth_error_Some; congruence). assert (Lj : (j < length ys)%nat) by (apply nth_error_Some; congruence).
  assert (A : forall k, nth_error ys ((i + k) mod length ys) = Some p).
  { induction k as [|k IH]; [rewrite Nat.add_0_r, Nat.mod_small by exact Li; exact Hi|].
    assert (St : nth_error ys (S ((i + k) mod length ys) mod length ys) = nth_error ys ((i + S k) mod length ys)).
    { f_equal. replace (S ((i + k) mod length ys)) with (1 + (i + k) mod length ys)%nat by lia. rewrite Nat.add_mod_idemp_r by lia. f_equal. lia. }
    destruct (nth_error ys ((i + S k) mod length ys)) as [r|] eqn:E.
    - destruct (v3_dec r p) as [->|Nr]; [reflexivity|]. exfalso. apply No. exists r. split; [|exact Nr]. exists ((i + k) mod length ys)%nat. split; [exact IH|exact St].
    - apply nth_error_None in E. pose proof (Nat.mod_upper_bound (i + S k) (length ys)). lia. }
  specialize (A (length ys - i + j)%nat). replace (i + (length ys - i + j))%nat with (j + 1 * length ys)%nat in A by lia.
  rewrite Nat.mod_add, Nat.mod_small in A by lia. congruence.
Qed.
Lemma side_follows : forall p q, In p ys -> In q ys -> p <> q -> (forall c, In c ys -> c <> p -> c <> q -> clockwise F p q c) -> follows ys p q.
Proof.
  intros p q Ip Iq N H. destruct (leaves p q Ip Iq N) as (r & Fr & Nr). destruct (v3_dec r q) as [->|Nq]; [exact Fr|exfalso].
  apply (cw_flip F p q r); [apply H; auto; now apply follows_in in Fr|]. apply follows_side; auto.
Qed.
Lemma nodup_turns : forall i j k a b d, (i < j)%nat -> (j < k)%nat ->
  nth_error (nodup v3_dec ys) i = Some a -> nth_error (nodup v3_dec ys) j = Some b -> nth_error (nodup v3_dec ys) k = Some d -> clockwise F a b d.
Proof.
  intros i j k a b d Lj Lk Ha Hb Hd. destruct (nodup_within _ v3_dec ys) as (h & Up & At).
  assert (X : forall m n u, nth_error (nodup v3_dec ys) m = Some u -> nth_error (nodup v3_dec ys) n = Some u -> m = n).
  { intros m n u Hm Hn. apply (proj1 (NoDup_nth_error (nodup v3_dec ys)) (NoDup_nodup v3_dec ys)); [apply nth_error_Some; congruence|congruence]. }
  apply (Ord (h i) (h j) (h k)); auto; intros <-.
  - pose proof (X i j a Ha Hb). lia.
  - pose proof (X j k b Hb Hd). lia.
  - pose proof (X i k a Ha Hd). lia.
Qed.
End Ring.

(** ** Planes through the same points *)
Definition alike (P Q : brush_plane R) : Prop := bp_v0 P = bp_v0 Q /\ bp_v1 P = bp_v1 Q /\ bp_v2 P = bp_v2 Q.
Lemma alike_dec : forall P Q, {alike P Q} + {~ alike P Q}.
Proof.
  intros P Q. unfold alike. destruct (v3_dec (bp_v0 P) (bp_v0 Q)), (v3_dec (bp_v1 P) (bp_v1 Q)), (v3_dec (bp_v2 P) (bp_v2 Q)); tauto.
Qed.
Lemma alike_facing : forall P Q, alike P Q -> facing P = facing Q.
Proof. intros P Q (A & B & C). unfold facing. now rewrite A, B, C. Qed.
Lemma alike_on : forall P Q x, alike P Q -> on_plane P x -> on_plane Q x.
Proof. intros P Q x A. unfold on_plane. rewrite (alike_facing P Q A). destruct A as (-> & _). auto. Qed.
Lemma alike_sym : forall P Q, alike P Q -> alike Q P.
Proof. intros P Q (A & B & C). repeat split; congruence. Qed.
Lemma alike_corner : forall planes q pl x, alike (plane_of q) (plane_of pl) -> true_corner planes q x -> true_corner planes pl x.
Proof.
  intros planes q pl x A ((p1 & p2 & I1 & I2 & O0 & O1 & O2 & Op) & S). split; [|exact S]. exists p1, p2. split; [exact I1|]. split; [exact I2|]. split; [now apply (alike_on _ _ _ A)|].
  split; [exact O1|]. split; [exact O2|]. unfold openness in *. now rewrite <- (alike_facing _ _ A).
Qed.
Lemma choose : forall (planes : list (brush_plane f32)) (rings : list (list (vec3 R))), length rings = length planes ->
  exists pts : brush_plane R -> list (vec3 R), forall pl, In pl planes -> exists j q ys, nth_error planes j = Some q /\ nth_error rings j = Some ys /\ alike (plane_of q) (plane_of pl)
    /\ pts (plane_of pl) = nodup v3_dec ys.
Proof.
  intros planes. induction planes as [|p0 planes IH]; intros rings L; [exists (fun _ => []); intros pl []|].
  destruct rings as [|r0 rings]; [discriminate L|]. destruct (IH rings ltac:(now injection L)) as (pts & H).
  exists (fun P => if alike_dec (plane_of p0) P then nodup v3_dec r0 else pts P). intros pl I. destruct (alike_dec (plane_of p0) (plane_of pl)) as [A|A].
  - exists 0%nat, p0, r0. auto.
  - destruct I as [->|I]; [exfalso; apply A; repeat split|]. destruct (H pl I) as (j & q & ys & X). exists (S j), q, ys. exact X.
Qed.

(** ** Corners *)
Lemma three_below : forall a b c w, inner (outer a b) c <> 0 -> inner a w <= 0 -> inner b w <= 0 -> inner c w <= 0 -> w <> V3 0 0 0 -> inner (plus (plus a b) c) w < 0.
Proof.
  intros a b c w Det A B C N. replace (inner (plus (plus a b) c) w) with (inner a w + inner b w + inner c w) by (vectors; ring).
  destruct (Req_dec (inner a w) 0) as [Z0|Z0]; [|lra]. destruct (Req_dec (inner b w) 0) as [Z1|Z1]; [|lra].
  destruct (Req_dec (inner c w) 0) as [Z2|Z2]; [|lra]. exfalso. apply N. now apply (null_of_inner a b c).
Qed.
Lemma true_tip : forall planes pl x, In pl planes -> true_corner planes pl x -> tip (map plane_of planes) x.
Proof.
  intros planes pl x Ip ((p1 & p2 & I1 & I2 & A0 & A1 & A2 & D) & _).
  exists (plus (plus (facing (plane_of pl)) (facing (plane_of p1))) (facing (plane_of p2))). intros y S N. rewrite solid_slack in S.
  assert (B : forall r, In r planes -> on_plane (plane_of r) x -> inner (facing (plane_of r)) (minus y x) <= 0).
  { intros r Ir Or. pose proof (S _ (in_map plane_of _ _ Ir)) as X. unfold SolidProofs.slack in X. unfold on_plane in Or.
    replace (inner (facing (plane_of r)) (minus y x)) with (inner (facing (plane_of r)) (minus y (bp_v0 (plane_of r))) - inner (facing (plane_of r)) (minus x (bp_v0 (plane_of r)))) by (generalize (facing (plane_of r)); intros; vectors; ring). lra. }
  pose proof (B pl Ip A0) as B0. pose proof (B p1 I1 A1) as B1. pose proof (B p2 I2 A2) as B2.
  assert (Det : inner (outer (facing (plane_of pl)) (facing (plane_of p1))) (facing (plane_of p2)) <> 0) by (intros Z; unfold openness in D; rewrite Z in D; unfold Rdiv in D; lra).
  apply three_below; auto. intros Z. apply N. now apply minus_null.
Qed.

(** ** A brush *)
Section Brush.
Context (p : platform) (tx : texture_info) (e : entity f32) (planes : list (brush_plane f32)) (g : brush_geo f32) (b : R).
Local Notation O := (f32_num p).
Local Notation K := (map plane_of planes).
Context (Eb : build_brush O tx e planes = Ok g) (Gr : forall q, In q planes -> grid_plane q) (Ln : (Z.of_nat (length planes) <= 4000)%Z)
  (Good : forall pl, In pl planes -> good_side p planes pl b).
Lemma built : Forall2 (fun pl f => build_face O tx e planes pl = Ok f) planes (bg_faces g).
Proof. unfold build_brush in Eb. apply bind_ok in Eb. destruct Eb as (fs & M & Q). injection Q as <-. cbn [bg_faces]. now apply mapM_ok in M. Qed.
Lemma Gr1 : forall pl q, In pl planes -> In q (pl :: planes) -> grid_plane q.
Proof. intros pl q I [<-|J]; auto. Qed.
Definition turning (pl : brush_plane f32) (ys : list (vec3 R)) : Prop :=
  forall i j k x y z, (i < j)%nat -> (j < k)%nat -> nth_error ys i = Some x -> nth_error ys j = Some y -> nth_error ys k = Some z ->
    x <> y -> y <> z -> x <> z -> clockwise (facing (plane_of pl)) x y z.
Lemma rings_exist : exists rings, rings_of (allowance b) planes (bg_faces g) rings /\ Forall2 turning planes rings.
Proof.
  assert (A : forall l fs, (forall pl, In pl l -> In pl planes) -> Forall2 (fun pl f => build_face O tx e planes pl = Ok f) l fs ->
    exists rings, length rings = length l /\ length fs = length l
      /\ (forall i pl f ys, nth_error l i = Some pl -> nth_error fs i = Some f -> nth_error rings i = Some ys -> traces (allowance b) planes pl f ys) /\ Forall2 turning l rings).
  { intros l fs Inc F. induction F as [|pl f l fs Ef F IH]; [exists []; split; [reflexivity|]; split; [reflexivity|]; split; [intros [|i] ? ? ? X; discriminate X|constructor]|].
    destruct IH as (rings & L & Lf & T & W); [intros q I; apply Inc; now right|]. assert (Ipl : In pl planes) by (apply Inc; now left).
    destruct (good_corners p tx e planes pl f b Ef (fun q => Gr1 pl q Ipl) Ln (Good pl Ipl)) as (ys & TC & Nr & CW).
    exists (ys :: rings). cbn [length]. split; [congruence|]. split; [congruence|]. split; [|constructor; [exact CW|exact W]].
    intros [|i] pl' f' ys'; cbn [nth_error]; [|apply T]. intros [= <-] [= <-] [= <-]. split; [exact TC|exact Nr]. }
  destruct (A planes (bg_faces g) (fun _ I => I) built) as (rings & L & Lf & T & W). exists rings. repeat split; auto; eapply T; eauto.
Qed.

Section Rings.
Context (rings : list (list (vec3 R))) (Rg : rings_of (allowance b) planes (bg_faces g) rings) (Tn : Forall2 turning planes rings).
Lemma ring_plane : forall i ys, nth_error rings i = Some ys -> exists pl, nth_error planes i = Some pl /\ (forall x, In x ys <-> true_corner planes pl x) /\ turning pl ys.
Proof.
  intros i ys H. destruct Rg as (L & Lf & T). assert (Li : (i < length rings)%nat) by (apply nth_error_Some; congruence).
  destruct (nth_error planes i) as [pl|] eqn:E; [|apply nth_error_None in E; lia]. destruct (nth_error (bg_faces g) i) as [f|] eqn:Ef; [|apply nth_error_None in Ef; lia].
  exists pl. split; [reflexivity|]. split; [apply (T i pl f ys E Ef H)|].
  assert (A : forall (l : list (brush_plane f32)) rs, Forall2 turning l rs -> forall i pl ys, nth_error l i = Some pl -> nth_error rs i = Some ys -> turning pl ys).
  { intros l rs F. induction F as [|? ? ? ? X F IH]; intros [|k] pl' ys' E1 E2; try discriminate; cbn [nth_error] in *; [injection E1 as <-; injection E2 as <-; exact X|eauto]. }
  now apply (A _ _ Tn i).
Qed.
Section Chosen.
Context (pts : brush_plane R -> list (vec3 R)) (Ch : forall pl, In pl planes -> exists j q ys, nth_error planes j = Some q /\ nth_error rings j = Some ys /\ alike (plane_of q) (plane_of pl)
    /\ pts (plane_of pl) = nodup v3_dec ys).
Lemma pts_corner : forall pl x, In pl planes -> (In x (pts (plane_of pl)) <-> true_corner planes pl x).
Proof.
  intros pl x I. destruct (Ch pl I) as (j & q & ys & Eq & Ey & A & ->). destruct (ring_plane j ys Ey) as (q' & Eq' & T & _). assert (q' = q) as -> by congruence.
  rewrite nodup_In, T. split; apply alike_corner; [exact A|now apply alike_sym].
Qed.
Lemma pts_three : forall pl, In pl planes -> NoDup (pts (plane_of pl)) /\ (3 <= length (pts (plane_of pl)))%nat.
Proof.
  intros pl I. assert (N : NoDup (pts (plane_of pl))) by (destruct (Ch pl I) as (j & q & ys & _ & _ & _ & ->); apply NoDup_nodup). split; [exact N|].
  destruct (Good pl I) as (_ & _ & (x & y & z & Tx & Ty & Tz & N1 & N2 & N3) & _). apply (pts_corner pl _ I) in Tx, Ty, Tz.
  change 3%nat with (length [x; y; z]). apply NoDup_incl_length; [|intros w [<-|[<-|[<-|[]]]]; assumption]. repeat constructor; cbn [In]; intuition congruence.
Qed.
Lemma in_K : forall P, In P K -> exists pl, In pl planes /\ plane_of pl = P.
Proof. intros P I. apply in_map_iff in I. destruct I as (pl & E & I). eauto. Qed.
Lemma K_proper : forall P, In P K -> proper P.
Proof. intros P I. destruct (in_K P I) as (pl & J & <-). apply (Gr pl J). Qed.
Lemma K_hull : forall P, In P K -> forall x, in_hull (pts P) x <-> side K P x.
Proof.
  intros P I x. destruct (in_K P I) as (pl & J & <-). symmetry. apply (side_corners planes pl); [intros q; now apply Gr1|apply (Good pl J)|]. intros y. now apply pts_corner.
Qed.
Lemma K_tip : forall P x, In P K -> In x (pts P) -> tip K x.
Proof. intros P x I Ix. destruct (in_K P I) as (pl & J & <-). apply (pts_corner pl x J) in Ix. now apply (true_tip planes pl). Qed.
Lemma K_turn : forall P, In P K -> forall i j k a c d, (i < j)%nat -> (j < k)%nat ->
    nth_error (pts P) i = Some a -> nth_error (pts P) j = Some c -> nth_error (pts P) k = Some d -> clockwise (facing P) a c d.
Proof.
  intros P I i j k a c d Lj Lk. destruct (in_K P I) as (pl & J & <-). destruct (Ch pl J) as (m & q & ys & Eq & Ey & A & ->).
  destruct (ring_plane m ys Ey) as (q' & Eq' & _ & T). assert (q' = q) as -> by congruence. rewrite <- (alike_facing _ _ A). now apply nodup_turns with (ys := ys).
Qed.
Lemma ring_next : forall i pl ys x y, nth_error planes i = Some pl -> nth_error rings i = Some ys -> x <> y -> (follows ys x y <-> next (pts (plane_of pl)) x y).
Proof.
  intros i pl ys x y Ep Ey N. destruct (ring_plane i ys Ey) as (q & Eq & T & W). assert (q = pl) as -> by congruence.
  assert (I : In pl planes) by (now apply nth_error_In in Ep). assert (IK : In (plane_of pl) K) by now apply in_map.
  assert (Same : forall c, In c ys <-> In c (pts (plane_of pl))) by (intros c; rewrite T, (pts_corner pl c I); reflexivity). split.
  - intros Fo. destruct (follows_in _ _ _ Fo) as (Ix & Iy). apply (side_next (facing (plane_of pl))); [now apply K_turn|now apply Same|now apply Same|exact N|].
    intros c Ic Nx Ny. apply (follows_side _ ys W); auto. now apply Same.
  - intros Ne. assert (Ix : In x ys /\ In y ys) by (destruct Ne as (k & H1 & H2); apply nth_error_In in H1, H2; split; now apply Same). destruct Ix as (Ix & Iy).
    apply (side_follows (facing (plane_of pl)) ys W); auto. intros c Ic Nx Ny. apply (next_side _ _ (K_turn _ IK)); auto. now apply Same.
Qed.
Lemma rings_meet : meet rings.
Proof.
  intros i ys x y Ey Fo N. destruct (ring_plane i ys Ey) as (pl & Ep & T & W). assert (I : In pl planes) by (now apply nth_error_In in Ep).
  pose proof (proj1 (ring_next i pl ys x y Ep Ey N) Fo) as Ne. destruct (pts_three pl I) as (Nd & L3).
  destruct (edge_shared K pts K_proper K_hull K_tip K_turn (plane_of pl) x y (in_map _ _ _ I) L3 Ne) as (Q & IQ & NQ).
  destruct (in_K Q IQ) as (q & Iq & <-). destruct (Ch q Iq) as (j & q' & zs & Eq' & Ez & A & Pz). exists j, zs.
  assert (Fz : follows zs y x).
  { destruct (ring_plane j zs Ez) as (q'' & Eq'' & Tz & Wz). assert (q'' = q') as -> by congruence. rewrite Pz in NQ.
    assert (In y zs /\ In x zs) as (I1 & I2) by (destruct NQ as (k & H1 & H2); apply nth_error_In in H1, H2; rewrite nodup_In in *; auto).
    apply (side_follows (facing (plane_of q')) zs Wz); auto. intros c Ic Nx Ny. apply (next_side _ (nodup v3_dec zs)); auto; [intros ? ? ? ? ? ?; now apply nodup_turns|now apply nodup_In]. }
  split; [|split; [exact Ez|exact Fz]]. intros ->. assert (zs = ys) as -> by congruence.
  destruct (NeighbourProofs.third _ _ Nd L3 v3_dec x y) as (c & Ic & Nx & Ny). apply (pts_corner pl c I) in Ic. apply T in Ic.
  apply (cw_flip (facing (plane_of pl)) x y c); [now apply (follows_side _ ys W)|]. apply cw_turn. apply (follows_side _ ys W); auto.
Qed.
Lemma rings_once : forall o, deep K o -> no_repeats K -> meet_once rings.
Proof.
  intros o Dp Nr i j ys zs x y Ey Ez Fy Fz N. destruct (ring_plane i ys Ey) as (pl & Ep & _ & _). destruct (ring_plane j zs Ez) as (q & Eq & _ & _).
  assert (I : In pl planes) by (now apply nth_error_In in Ep). assert (J : In q planes) by (now apply nth_error_In in Eq).
  apply (Nr i j (plane_of pl) (plane_of q)); [now rewrite nth_error_map, Ep|now rewrite nth_error_map, Eq|].
  apply (edge_once K pts K_proper K_hull K_tip K_turn o _ _ x y Dp (in_map _ _ _ I) (in_map _ _ _ J)); [now apply pts_three|now apply pts_three| |].
  - now apply (ring_next i pl ys).
  - now apply (ring_next j q zs).
Qed.

(** *** Counting *)
Lemma K_once : no_repeats K -> NoDup K /\ forall P Q, In P K -> In Q K -> same_half P Q -> P = Q.
Proof.
  intros Nr. split.
  - apply NoDup_nth_error. intros i j Li E. destruct (nth_error K i) as [P|] eqn:Ei; [|apply nth_error_None in Ei; lia]. apply (Nr i j P P Ei (eq_sym E)). split.
    + exists 1. split; [lra|]. destruct (facing P) as [f1 f2 f3]; cbn [vx vy vz]; f_equal; ring.
    + unfold on_plane. generalize (facing P). intros F. vectors. ring.
  - intros P Q IP IQ S. apply In_nth_error in IP, IQ. destruct IP as (i & Ei), IQ as (j & Ej). assert (i = j) as <- by (now apply (Nr i j P Q)). congruence.
Qed.
Lemma rings_euler : forall o V, deep K o -> no_repeats K -> planes <> [] -> solid_corners planes V -> (forall ys, In ys rings -> NoDup ys) ->
  (EulerProofs.total (@length _) rings + 4 = 2 * length rings + 2 * length V)%nat.
Proof.
  intros o V Dp Nr Ne (NV & HV) ND. destruct (K_once Nr) as (NK & Un). destruct Rg as (L & _ & _).
  assert (E : (EulerProofs.total (fun P => length (pts P)) K + 4 = 2 * length K + 2 * length V)%nat).
  { apply (EulerProofs.euler K pts o V K_proper K_hull K_tip Dp Un NK); auto.
    - intros P IP. destruct (in_K P IP) as (pl & I & <-). destruct (pts_three pl I). split; [assumption|lia].
    - intros Z. apply map_eq_nil in Z. contradiction.
    - intros x. rewrite HV. split.
      + intros (pl & I & T). exists (plane_of pl). split; [now apply in_map|now apply pts_corner].
      + intros (P & IP & Ix). destruct (in_K P IP) as (pl & I & <-). exists pl. split; [exact I|now apply pts_corner]. }
  rewrite map_length in E. rewrite L, <- E. f_equal.
  assert (A : forall i pl ys, nth_error planes i = Some pl -> nth_error rings i = Some ys -> length ys = length (pts (plane_of pl))).
  { intros i pl ys Ep Ey. destruct (ring_plane i ys Ey) as (q & Eq & T & _). assert (q = pl) as -> by congruence. assert (I : In pl planes) by (now apply nth_error_In in Ep).
    apply Permutation_length. apply NoDup_Permutation; [apply ND; now apply nth_error_In in Ey|now apply pts_three|]. intros x. rewrite T. symmetry. now apply pts_corner. }
  clear -A L. revert rings L A. induction planes as [|pl l IH]; intros [|ys rings] L A; try discriminate L; [reflexivity|]. cbn [EulerProofs.total fold_right map].
  fold (EulerProofs.total (@length (vec3 R)) rings). fold (EulerProofs.total (fun P => length (pts P)) (map plane_of l)).
  rewrite (A 0%nat pl ys eq_refl eq_refl). f_equal. apply IH; [now injection L|]. intros i q zs E1 E2. now apply (A (S i)).
Qed.
End Chosen.
Lemma simple_nodup : (forall pl, In pl planes -> simple planes pl) -> forall ys, In ys rings -> NoDup ys.
Proof.
  intros Si ys Iy. apply In_nth_error in Iy. destruct Iy as (i & Ey). destruct (ring_plane i ys Ey) as (pl & Ep & T & _). assert (I : In pl planes) by (now apply nth_error_In in Ep).
  destruct Rg as (L & Lf & Tr). assert (Li : (i < length rings)%nat) by (apply nth_error_Some; congruence).
  destruct (nth_error (bg_faces g) i) as [f|] eqn:Ef; [|apply nth_error_None in Ef; lia]. destruct (Tr i pl f ys Ep Ef Ey) as (_ & F).
  assert (Eb' : build_face O tx e planes pl = Ok f).
  { assert (B := built). clear -B Ep Ef. revert i Ep Ef. generalize dependent (bg_faces g). generalize planes at 2 3. intros l fs B. induction B as [|? ? ? ? X F IH]; intros [|k] Ep Ef; try discriminate; cbn [nth_error] in *; [injection Ep as <-; injection Ef as <-; exact X|eauto]. }
  destruct (GeoFinal.corners_c15 p tx e planes pl f Eb') as (raw & centred & sorted & CS & _ & F1 & P & F2).
  destruct (corner_list p planes pl raw CS (fun q => Gr1 pl q I) (proj1 (Good pl I)) (Si pl I)) as (zs & Fz & Nz & Tz).
  apply (NoDup_incl_NoDup Nz); [|intros x Ix; apply T; now apply Tz].
  apply Forall2_length in F, Fz, F1, F2. apply Permutation_length in P. lia.
Qed.
Lemma indices_rings : (index_total g + 6 * length rings = 3 * EulerProofs.total (@length _) rings)%nat.
Proof.
  assert (A : forall i f ys, nth_error (bg_faces g) i = Some f -> nth_error rings i = Some ys -> (length (f_indices f) + 6 = 3 * length ys)%nat).
  { intros i f ys Ef Ey. destruct (ring_plane i ys Ey) as (pl & Ep & T & _). assert (I : In pl planes) by (now apply nth_error_In in Ep).
    destruct Rg as (_ & _ & Tr). destruct (Tr i pl f ys Ep Ef Ey) as (_ & F). apply Forall2_length in F.
    assert (Eb' : exists q, build_face O tx e planes q = Ok f) by (apply nth_error_In in Ef; destruct (Forall2_in_r _ _ _ _ _ _ built Ef) as (q & _ & Eq); eauto). destruct Eb' as (q & Eq).
    destruct (face_fan _ _ _ _ _ _ Eq) as (Li & _). 
    assert (3 <= length ys)%nat; [|lia]. destruct (Good pl I) as (_ & _ & (x & y & z & Tx & Ty & Tz & N1 & N2 & N3) & _). apply T in Tx, Ty, Tz.
    change 3%nat with (length [x; y; z]). apply NoDup_incl_length; [|intros w [<-|[<-|[<-|[]]]]; assumption]. repeat constructor; cbn [In]; intuition congruence. }
  destruct Rg as (L & Lf & _). assert (Le : length (bg_faces g) = length rings) by congruence. unfold index_total. clear -A Le. revert rings Le A. generalize (bg_faces g).
  intros l. induction l as [|f l IH]; intros [|ys rings] Le A; try discriminate Le; [reflexivity|]. cbn [EulerProofs.total fold_right length].
  fold (EulerProofs.total (@length (vec3 R)) rings). pose proof (A 0%nat f ys eq_refl eq_refl). pose proof (IH rings ltac:(now injection Le) (fun i f zs E1 E2 => A (S i) f zs E1 E2)). lia.
Qed.
End Rings.

Theorem seams : exists rings, rings_of (allowance b) planes (bg_faces g) rings /\ meet rings /\ forall o, deep K o -> no_repeats K -> meet_once rings.
Proof.
  destruct rings_exist as (rings & Rg & Tn). destruct (choose planes rings (proj1 Rg)) as (pts & Ch). exists rings. split; [exact Rg|].
  split; [now apply (rings_meet rings Rg Tn pts)|]. intros o. now apply (rings_once rings Rg Tn pts).
Qed.
Lemma follows_along : forall A B (Q : A -> B -> Prop) l m, Forall2 Q l m -> forall v w, follows l v w -> exists x y, follows m x y /\ Q v x /\ Q w y.
Proof.
  intros A B Q l m F v w (i & Hv & Hw). assert (Le : length l = length m) by (now apply Forall2_length in F).
  assert (At : forall k u, nth_error l k = Some u -> exists z, nth_error m k = Some z /\ Q u z).
  { clear -F. induction F as [|a c l m X F IH]; intros [|k] u E; try discriminate E; cbn [nth_error] in *; [injection E as <-; eauto|auto]. }
  destruct (At _ _ Hv) as (x & Hx & Qx). destruct (At _ _ Hw) as (y & Hy & Qy). exists x, y. split; [|auto]. exists i. split; [exact Hx|now rewrite <- Le].
Qed.
Lemma Forall2_sym : forall A B (Q : A -> B -> Prop) l m, Forall2 Q l m -> Forall2 (fun x y => Q y x) m l.
Proof. intros A B Q l m F. induction F; constructor; auto. Qed.
Lemma near_close : forall v w x, by_corner (allowance b) v x -> by_corner (allowance b) w x -> together (2 * allowance b) v w.
Proof.
  intros v w x. unfold by_corner, together. set (A := point_of (vt_pos v)). set (B := point_of (vt_pos w)). intros H1 H2.
  pose proof (minus_triangle A x B). assert (N : norm (minus x B) = norm (minus B x)) by (unfold norm; f_equal; vectors; ring). lra.
Qed.
Theorem edges_match : forall i f v w, nth_error (bg_faces g) i = Some f -> follows (f_vertices f) v w ->
  together (2 * allowance b) v w \/ exists j f' v' w', j <> i /\ nth_error (bg_faces g) j = Some f' /\ follows (f_vertices f') w' v'
    /\ together (2 * allowance b) v v' /\ together (2 * allowance b) w w'.
Proof.
  intros i f v w Ef Fo. destruct seams as (rings & (L & Lf & T) & M & _).
  assert (Lt : (i < length (bg_faces g))%nat) by (apply nth_error_Some; congruence).
  destruct (nth_error planes i) as [pl|] eqn:Ep; [|apply nth_error_None in Ep; lia]. destruct (nth_error rings i) as [ys|] eqn:Ey; [|apply nth_error_None in Ey; lia].
  destruct (T i pl f ys Ep Ef Ey) as (_ & F). destruct (follows_along _ _ _ _ _ F v w Fo) as (x & y & Fy & Nx & Ny).
  destruct (v3_dec x y) as [->|N]; [left; now apply (near_close v w y)|right]. destruct (M i ys x y Ey Fy N) as (j & zs & Nj & Ez & Fz).
  assert (Lj : (j < length rings)%nat) by (apply nth_error_Some; congruence).
  destruct (nth_error planes j) as [q|] eqn:Eq; [|apply nth_error_None in Eq; lia]. destruct (nth_error (bg_faces g) j) as [f'|] eqn:Ef'; [|apply nth_error_None in Ef'; lia].
  destruct (T j q f' zs Eq Ef' Ez) as (_ & F'). apply Forall2_sym in F'. destruct (follows_along _ _ _ _ _ F' y x Fz) as (w' & v' & Ff & Nw & Nv).
  exists j, f', v', w'. split; [exact Nj|]. split; [exact Ef'|]. split; [exact Ff|]. split; [now apply (near_close v v' x)|now apply (near_close w w' y)].
Qed.
Theorem triangles_counted : forall o V, deep K o -> no_repeats K -> planes <> [] -> (forall pl, In pl planes -> simple planes pl) -> solid_corners planes V ->
  (index_total g + 12 = 6 * length V)%nat.
Proof.
  intros o V Dp Nr Ne Si SV. destruct rings_exist as (rings & Rg & Tn). destruct (choose planes rings (proj1 Rg)) as (pts & Ch).
  pose proof (rings_euler rings Rg Tn pts Ch o V Dp Nr Ne SV (simple_nodup rings Rg Tn Si)). pose proof (indices_rings rings Rg Tn). lia.
Qed.
End Brush.
