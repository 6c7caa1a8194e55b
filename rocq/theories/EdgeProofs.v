(** Edges of brushes: proofs of C123. *)
From Coq Require Import Reals Lra Psatz Lia Nsatz.
From Verif Require Import Prelude F32 Text MapModel GeoModel GeoSpec RealSpec WindSpec SolidSpec EdgeSpec
  BaseProofs GeoProofs RealProofs WindProofs SolidProofs TouchProofs.
Local Open Scope R_scope.

(** ** Vectors *)
Lemma triple_outer : forall a b c, outer a (outer b c) = minus (scaled (inner a c) b) (scaled (inner a b) c).
Proof. intros [a1 a2 a3] [b1 b2 b3] [c1 c2 c3]. vectors. f_equal; ring. Qed.
Lemma along_both : forall d F G, inner d F = 0 -> inner d G = 0 -> scaled (inner d d) (outer G F) = scaled (inner d (outer G F)) d.
Proof.
  intros d F G A B. pose proof (triple_outer d d (outer G F)) as E. rewrite (triple_outer d G F), A, B in E.
  assert (Z : outer d (minus (scaled 0 G) (scaled 0 F)) = V3 0 0 0) by (vectors; f_equal; ring). rewrite Z in E.
  pose proof (f_equal vx E) as Ex. pose proof (f_equal vy E) as Ey. pose proof (f_equal vz E) as Ez. clear E Z. generalize dependent (outer G F). intros w Ex Ey Ez.
  unfold scaled, minus in *. cbn [vx vy vz] in *. f_equal; lra.
Qed.
Lemma inner_pos : forall d, d <> V3 0 0 0 -> 0 < inner d d.
Proof.
  intros [x y z] N. unfold inner. cbn [vx vy vz]. destruct (Req_dec x 0) as [X|X]; [destruct (Req_dec y 0) as [Y|Y]; [destruct (Req_dec z 0) as [Z|Z]|]|].
  - subst. contradiction.
  - nra.
  - nra.
  - nra.
Qed.
(** [d] along the line where two planes meet, [e] in the second and behind the first. *)
Lemma turn_back : forall F G d e, inner F d = 0 -> inner G d = 0 -> 0 < inner G (outer F d) -> inner G e = 0 -> inner F e < 0 -> G <> V3 0 0 0 ->
  inner G (outer (scaled (-1) d) e) < 0.
Proof.
  intros F G d e A B P C D N. assert (Nd : d <> V3 0 0 0) by (intros ->; revert P; vectors; lra). pose proof (inner_pos d Nd) as Pd. pose proof (inner_pos G N) as Pg.
  assert (Al : scaled (inner d d) (outer G F) = scaled (inner d (outer G F)) d) by (apply along_both; rewrite inner_comm; assumption).
  assert (Sg : 0 < inner d (outer G F)) by (replace (inner d (outer G F)) with (inner G (outer F d)); [exact P|vectors; ring]).
  assert (Id : inner d (outer G F) * inner G (outer d e) = inner d d * (inner G F * inner G e - inner G G * inner F e)).
  { transitivity (inner (outer G (scaled (inner d (outer G F)) d)) e); [vectors; ring|]. rewrite <- Al. vectors. ring. }
  rewrite C in Id. replace (inner G (outer (scaled (-1) d) e)) with (- inner G (outer d e)) by (vectors; ring).
  assert (0 < inner d (outer G F) * inner G (outer d e)); [|nra]. rewrite Id.
  replace (inner d d * (inner G F * 0 - inner G G * inner F e)) with (inner d d * (inner G G * - inner F e)) by ring.
  repeat apply Rmult_lt_0_compat; lra.
Qed.
(** Two planes through a line, each with a point of its own on the same hand and behind the other, are parallel. *)
Lemma same_hand : forall F G d e h, d <> V3 0 0 0 -> inner F d = 0 -> inner G d = 0 -> inner F e = 0 -> inner G h = 0 ->
  inner F (outer d e) < 0 -> inner G (outer d h) < 0 -> inner G e <= 0 -> inner F h <= 0 -> outer F G = V3 0 0 0.
Proof.
  intros F G d e h Nd A B C D P Q Ge Fh. pose proof (inner_pos d Nd) as Pd.
  assert (NF : F <> V3 0 0 0) by (intros ->; revert P; vectors; lra). assert (NG : G <> V3 0 0 0) by (intros ->; revert Q; vectors; lra).
  pose proof (inner_pos F NF) as PF. pose proof (inner_pos G NG) as PG.
  assert (Sp : forall F G d e, inner F d = 0 -> inner G d = 0 -> inner F e = 0 -> inner F F * (inner d d * inner G e) = inner F (outer d e) * inner G (outer F d)).
  { clear. intros F G d e A B C.
    assert (E : outer (outer F d) (outer F e) = scaled (inner F (outer d e)) F).
    { replace (outer (outer F d) (outer F e)) with (minus (scaled (inner F (outer d e)) F) (V3 0 0 0)); [vectors; f_equal; ring|]. vectors. f_equal; ring. }
    (* e = ((e.d) d + (e.Fd) Fd) / (d.d) *)
    assert (E2 : scaled (inner F F * inner d d) e = plus (scaled (inner F F * inner e d) d) (scaled (inner e (outer F d)) (outer F d))).
    { clear E B. pose proof (triple_outer F F e) as T1. rewrite C in T1.
      pose proof (triple_outer (outer F d) F e) as T. unfold plus.
      destruct F as [f1 f2 f3], d as [d1 d2 d3], e as [e1 e2 e3]. unfold inner, outer, scaled in *. cbn [vx vy vz] in *. clear T T1.
      f_equal; nsatz. }
    apply (f_equal (inner G)) in E2. rewrite (inner_comm F (outer d e)).
    assert (L1 : inner G (scaled (inner F F * inner d d) e) = inner F F * (inner d d * inner G e)) by (vectors; ring).
    assert (L2 : inner G (plus (scaled (inner F F * inner e d) d) (scaled (inner e (outer F d)) (outer F d))) = inner F F * inner e d * inner G d + inner e (outer F d) * inner G (outer F d)).
    { generalize (outer F d) (inner F F * inner e d) . intros w r. vectors. ring. }
    rewrite L1, L2, B in E2. rewrite E2. replace (inner (outer d e) F) with (inner e (outer F d)) by (vectors; ring). ring. }
  pose proof (Sp F G d e A B C) as S1. pose proof (Sp G F d h B A D) as S2.
  assert (An : inner F (outer G d) = - inner G (outer F d)) by (vectors; ring). rewrite An in S2.
  assert (Neg : forall a b c, 0 < a -> 0 < b -> c <= 0 -> a * (b * c) <= 0) by (intros a b c Ha Hb Hc; assert (0 < a * b) by (now apply Rmult_lt_0_compat); nra).
  assert (X : 0 <= inner G (outer F d)) by (pose proof (Neg _ _ _ PF Pd Ge); nra).
  assert (Y : inner G (outer F d) <= 0) by (pose proof (Neg _ _ _ PG Pd Fh); nra).
  assert (Z : inner d (outer F G) = 0) by (replace (inner d (outer F G)) with (- inner G (outer F d)) by (vectors; ring); lra).
  assert (Al : scaled (inner d d) (outer F G) = scaled (inner d (outer F G)) d) by (apply along_both; rewrite inner_comm; assumption).
  rewrite Z in Al. generalize dependent (outer F G). intros w _ Al. pose proof (f_equal vx Al) as Ex. pose proof (f_equal vy Al) as Ey. pose proof (f_equal vz Al) as Ez.
  unfold scaled in *. cbn [vx vy vz] in *. rewrite Rmult_0_l in *. destruct w as [w1 w2 w3]. cbn [vx vy vz] in *.
  assert (Q0 : forall a, inner d d * a = 0 -> a = 0) by (intros a Ha; apply Rmult_integral in Ha; destruct Ha; [lra|assumption]). f_equal; auto.
Qed.

(** ** Polygons *)
Definition next {A} (l : list A) (p q : A) : Prop := exists i, nth_error l i = Some p /\ nth_error l (S i mod length l) = Some q.
Lemma cw_turn : forall F a b c, clockwise F a b c -> clockwise F b c a.
Proof. intros F a b c. unfold clockwise. intros H. replace (inner F (outer (minus c b) (minus a b))) with (inner F (outer (minus b a) (minus c a))); [exact H|]. vectors. ring. Qed.
Lemma cw_flip : forall F a b c, clockwise F a b c -> clockwise F a c b -> False.
Proof. intros F a b c. unfold clockwise. replace (inner F (outer (minus c a) (minus b a))) with (- inner F (outer (minus b a) (minus c a))); [lra|]. vectors. ring. Qed.
Lemma cw_apart : forall F a b c, clockwise F a b c -> a <> b /\ b <> c /\ a <> c.
Proof. intros F a b c. unfold clockwise. intros H. repeat split; intros ->; revert H; vectors; lra. Qed.
Lemma Si_mod : forall A (l : list A) i p, nth_error l i = Some p -> (S i < length l /\ S i mod length l = S i \/ S i = length l /\ S i mod length l = 0)%nat.
Proof.
  intros A l i p H. assert (L : (i < length l)%nat) by (apply nth_error_Some; congruence). destruct (Nat.eq_dec (S i) (length l)) as [E|E].
  - right. split; [exact E|]. rewrite E. apply Nat.mod_same. lia.
  - left. split; [lia|]. apply Nat.mod_small. lia.
Qed.
Section Polygon.
Context (F : vec3 R) (pts : list (vec3 R)) (Ord : forall i j k a b d, (i < j)%nat -> (j < k)%nat ->
  nth_error pts i = Some a -> nth_error pts j = Some b -> nth_error pts k = Some d -> clockwise F a b d).
Lemma next_side : forall p q c, next pts p q -> In c pts -> c <> p -> c <> q -> clockwise F p q c.
Proof.
  intros p q c (i & Hp & Hq) Ic Np Nq. apply In_nth_error in Ic. destruct Ic as (k & Hk).
  assert (k <> i) by (intros ->; congruence).
  destruct (Si_mod _ _ _ _ Hp) as [(L & E)|(L & E)]; rewrite E in Hq.
  - assert (k <> S i) by (intros ->; congruence). destruct (lt_dec k i).
    + apply cw_turn. apply (Ord k i (S i)); auto.
    + apply (Ord i (S i) k); auto. lia.
  - assert (k <> 0%nat) by (intros ->; congruence). assert (k < length pts)%nat by (apply nth_error_Some; congruence).
    do 2 apply cw_turn. apply (Ord 0%nat k i); auto; lia.
Qed.
Lemma side_next : forall p q, In p pts -> In q pts -> p <> q -> (forall c, In c pts -> c <> p -> c <> q -> clockwise F p q c) -> next pts p q.
Proof.
  intros p q Ip Iq N H. apply In_nth_error in Ip, Iq. destruct Ip as (i & Hp), Iq as (j & Hq). exists i. split; [exact Hp|].
  assert (i <> j) by (intros ->; congruence).
  assert (Li : (i < length pts)%nat) by (apply nth_error_Some; congruence). assert (Lj : (j < length pts)%nat) by (apply nth_error_Some; congruence).
  assert (At : forall k, (k < length pts)%nat -> exists c, nth_error pts k = Some c).
  { intros k Lk. destruct (nth_error pts k) as [c|] eqn:E; [eauto|]. apply nth_error_None in E. lia. }
  destruct (lt_dec i j) as [L|L].
  - assert (j = S i).
    { destruct (Nat.eq_dec j (S i)) as [E|E]; [exact E|exfalso]. destruct (At (S i) ltac:(lia)) as (c & Hc).
      pose proof (Ord i (S i) j _ _ _ ltac:(lia) ltac:(lia) Hp Hc Hq) as C. destruct (cw_apart _ _ _ _ C) as (A1 & A2 & A3).
      apply (cw_flip _ _ _ _ C). apply H; auto. now apply nth_error_In in Hc. }
    subst j. rewrite Nat.mod_small by exact Lj. exact Hq.
  - assert (j = 0%nat).
    { destruct (Nat.eq_dec j 0) as [E|E]; [exact E|exfalso]. destruct (At 0%nat ltac:(lia)) as (c & Hc).
      pose proof (Ord 0%nat j i _ _ _ ltac:(lia) ltac:(lia) Hc Hq Hp) as C. destruct (cw_apart _ _ _ _ C) as (A1 & A2 & A3).
      apply (cw_flip F p c q); [apply cw_turn, cw_turn; exact C|]. apply H; auto. now apply nth_error_In in Hc. }
    assert (S i = length pts).
    { destruct (Nat.eq_dec (S i) (length pts)) as [E|E]; [exact E|exfalso]. destruct (At (S i) ltac:(lia)) as (c & Hc).
      pose proof (Ord j i (S i) _ _ _ ltac:(lia) ltac:(lia) Hq Hp Hc) as C. destruct (cw_apart _ _ _ _ C) as (A1 & A2 & A3).
      apply (cw_flip F p c q); [apply cw_turn; exact C|]. apply H; auto. now apply nth_error_In in Hc. }
    subst j. rewrite H2, Nat.mod_same by lia. exact Hq.
Qed.
End Polygon.

(** ** Solids *)
Lemma v3_dec : forall a b : vec3 R, {a = b} + {a <> b}.
Proof.
  intros [a1 a2 a3] [b1 b2 b3]. destruct (Req_EM_T a1 b1) as [->|N]; [|right; congruence]. destruct (Req_EM_T a2 b2) as [->|N]; [|right; congruence].
  destruct (Req_EM_T a3 b3) as [->|N]; [left; reflexivity|right; congruence].
Qed.
Lemma weighted_below : forall g p l w y, weighted l w y -> (forall x, In x l -> inner g (minus x p) < 0) ->
  0 <= w /\ inner g y <= w * inner g p /\ (0 < w -> inner g y < w * inner g p).
Proof.
  intros g p l w y H. induction H as [|x l w s y W H IH]; intros A; [split; [lra|split; [vectors; lra|lra]]|].
  destruct (IH (fun z I => A z (or_intror I))) as (S & L & Lt). pose proof (A x (or_introl eq_refl)) as Ax.
  replace (inner g (minus x p)) with (inner g x - inner g p) in Ax by (vectors; ring).
  replace (inner g (V3 (w * vx x + vx y) (w * vy x + vy y) (w * vz x + vz y))) with (w * inner g x + inner g y) by (vectors; ring).
  split; [lra|]. split; [nra|]. intros P. destruct (Rle_lt_dec w 0) as [Z|Z]; [assert (w = 0) as -> by lra; specialize (Lt ltac:(lra)); lra|nra].
Qed.
Definition tip (planes : list (brush_plane R)) (p : vec3 R) : Prop := exists g, forall y, solid planes y -> y <> p -> inner g (minus y p) < 0.

Section Solid.
Context (planes : list (brush_plane R)) (pts : brush_plane R -> list (vec3 R)).
Context (Pr : forall P, In P planes -> proper P) (Hull : forall P, In P planes -> forall x, in_hull (pts P) x <-> side planes P x)
  (Tip : forall P p, In P planes -> In p (pts P) -> tip planes p)
  (Ord : forall P, In P planes -> forall i j k a b d, (i < j)%nat -> (j < k)%nat ->
    nth_error (pts P) i = Some a -> nth_error (pts P) j = Some b -> nth_error (pts P) k = Some d -> clockwise (facing P) a b d).
Lemma pts_side : forall P p, In P planes -> In p (pts P) -> side planes P p.
Proof. intros P p I Ip. apply (Hull P I). now apply hull_corner. Qed.
Lemma tip_corner : forall P p, In P planes -> tip planes p -> side planes P p -> In p (pts P).
Proof.
  intros P p I (g & T) S. destruct (in_dec v3_dec p (pts P)) as [Y|N]; [exact Y|exfalso]. apply (Hull P I) in S.
  destruct (weighted_below g p _ _ _ S) as (_ & _ & L).
  - intros x Ix. apply T; [apply (pts_side P x I Ix)|congruence].
  - specialize (L ltac:(lra)). lra.
Qed.
Lemma next_third : forall P p q, In P planes -> (3 <= length (pts P))%nat -> next (pts P) p q -> exists c, In c (pts P) /\ clockwise (facing P) p q c.
Proof.
  intros P p q I L N. assert (At : forall k, (k < length (pts P))%nat -> exists c, nth_error (pts P) k = Some c).
  { intros k Lk. destruct (nth_error (pts P) k) as [c|] eqn:E; [eauto|]. apply nth_error_None in E. lia. }
  destruct N as (i & Hp & Hq). destruct (Si_mod _ _ _ _ Hp) as [(Ls & E)|(Ls & E)]; rewrite E in Hq.
  - destruct i as [|i].
    + destruct (At 2%nat ltac:(lia)) as (c & Hc). exists c. split; [now apply nth_error_In in Hc|]. apply (Ord P I 0%nat 1%nat 2%nat); auto.
    + destruct (At 0%nat ltac:(lia)) as (c & Hc). exists c. split; [now apply nth_error_In in Hc|]. apply cw_turn. apply (Ord P I 0%nat (S i) (S (S i))); auto. lia.
  - destruct (At 1%nat ltac:(lia)) as (c & Hc). exists c. split; [now apply nth_error_In in Hc|]. do 2 apply cw_turn. apply (Ord P I 0%nat 1%nat i); auto. lia.
Qed.
Lemma facing_some : forall P, proper P -> facing P <> V3 0 0 0.
Proof. intros P N Z. apply N. rewrite Z. unfold norm. replace (inner (V3 0 0 0) (V3 0 0 0)) with 0 by (vectors; ring). apply sqrt_0. Qed.
Lemma on_both : forall P p q, on_plane P p -> on_plane P q -> inner (facing P) (minus q p) = 0.
Proof. intros P p q A B. unfold on_plane in *. replace (inner (facing P) (minus q p)) with (inner (facing P) (minus q (bp_v0 P)) - inner (facing P) (minus p (bp_v0 P))); [lra|]. generalize (facing P). intros; vectors; ring. Qed.

Theorem edge_shared : forall P p q, In P planes -> (3 <= length (pts P))%nat -> next (pts P) p q -> exists Q, In Q planes /\ next (pts Q) q p.
Proof.
  intros P p q I L N. destruct (next_third P p q I L N) as (c0 & Ic0 & C0). destruct (cw_apart _ _ _ _ C0) as (Npq & _ & _).
  assert (Ip : In p (pts P)) by (destruct N as (i & Hp & _); now apply nth_error_In in Hp). assert (Iq : In q (pts P)) by (destruct N as (i & _ & Hq); now apply nth_error_In in Hq).
  destruct (pts_side P p I Ip) as (Op & Sp). destruct (pts_side P q I Iq) as (Oq & Sq).
  set (F := facing P) in *. set (d := minus q p). assert (NF : F <> V3 0 0 0) by (apply facing_some, Pr, I).
  assert (Nd : d <> V3 0 0 0) by (intros Z; apply minus_null in Z; congruence). pose proof (inner_pos d Nd) as Pd. pose proof (inner_pos F NF) as PF.
  assert (Fd : inner F d = 0) by (now apply on_both).
  set (m := between p q (/ 2)). set (w := outer F d).
  assert (Fw : rate P w = 0) by (unfold rate, w; fold F; vectors; ring).
  assert (Sm : forall r, slack r m = / 2 * slack r p + / 2 * slack r q) by (intros r; unfold m; rewrite slack_between; lra).
  assert (Om : slack P m = 0) by (rewrite Sm; apply slack_on in Op, Oq; rewrite Op, Oq; ring).
  assert (So : solid planes m).
  { apply solid_slack. intros r Ir. rewrite Sm. rewrite solid_slack in Sp, Sq. pose proof (Sp r Ir). pose proof (Sq r Ir). lra. }
  assert (Out : forall t, 0 < t -> solid planes (moved m w t) -> False).
  { intros t T S. assert (H : in_hull (pts P) (moved m w t)).
    { apply (Hull P I). split; [|exact S]. apply slack_on. rewrite slack_moved, Om, Fw. ring. }
    assert (A : area P p q (moved m w t) <= 0).
    { apply (hull_area P p q (pts P)); [exact H|]. intros x Ix. destruct (v3_dec x p) as [->|Xp]; [right; apply area_same|]. destruct (v3_dec x q) as [->|Xq]; [right; apply area_same|].
      left. apply (next_side F (pts P) (Ord P I) p q x); auto. }
    assert (E : area P p q (moved m w t) = t * (inner F F * inner d d - inner F d * inner F d)).
    { unfold area, moved, m, w, between. fold F. unfold d. generalize F. clear. intros F. destruct p, q, F. vectors. field. }
    rewrite E, Fd in A. assert (0 < inner F F * inner d d) by now apply Rmult_lt_0_compat. nra. }
  destruct (travel planes m w So) as [A|(t & Q & T & IQ & Rq & Eq & Al)].
  { exfalso. apply (Out 1); [lra|]. apply solid_slack. intros r Ir. rewrite slack_moved. pose proof (A r Ir). rewrite solid_slack in So. pose proof (So r Ir). lra. }
  assert (t = 0).
  { destruct (Req_dec t 0) as [Z|Z]; [exact Z|exfalso]. apply (Out t); [lra|]. apply solid_slack. intros r Ir. rewrite slack_moved. pose proof (Al r Ir). lra. }
  subst t. rewrite Rmult_0_l in Eq. clear Al Out.
  assert (Opq : on_plane Q p /\ on_plane Q q).
  { rewrite Sm in Eq. rewrite solid_slack in Sp, Sq. pose proof (Sp Q IQ). pose proof (Sq Q IQ). split; apply slack_on; lra. }
  destruct Opq as (OQp & OQq). set (G := facing Q) in *. assert (NG : G <> V3 0 0 0) by (apply facing_some, Pr, IQ).
  assert (Gd : inner G d = 0) by (now apply on_both). unfold rate in Rq. fold G in Rq. unfold w in Rq.
  exists Q. split; [exact IQ|]. apply (side_next G (pts Q) (Ord Q IQ)); [| |congruence|].
  - apply tip_corner; [exact IQ|exact (Tip P q I Iq)|split; assumption].
  - apply tip_corner; [exact IQ|exact (Tip P p I Ip)|split; assumption].
  - intros c Ic Nq Np. destruct (pts_side Q c IQ Ic) as (Oc & Sc).
    assert (Ge : inner G (minus c q) = 0) by (now apply on_both).
    assert (Fe : inner F (minus c q) <= 0).
    { rewrite solid_slack in Sc. pose proof (Sc P I) as X. unfold slack in X. fold F in X. unfold on_plane in Oq. fold F in Oq.
      replace (inner F (minus c q)) with (inner F (minus c (bp_v0 P)) - inner F (minus q (bp_v0 P))) by (generalize F; intros; vectors; ring). lra. }
    assert (Fn : inner F (minus c q) < 0).
    { destruct Fe as [Fe|Fe]; [exact Fe|exfalso].
      (* three corners on a line *)
      assert (Tq : In q (pts Q)) by (apply tip_corner; [exact IQ|exact (Tip P q I Iq)|split; assumption]).
      assert (Tp : In p (pts Q)) by (apply tip_corner; [exact IQ|exact (Tip P p I Ip)|split; assumption]).
      assert (Ln : forall x y z, In x [p; q; c] -> In y [p; q; c] -> In z [p; q; c] -> ~ clockwise G x y z).
      { assert (Pl : forall a, In a [p; q; c] -> exists k, minus a q = scaled k (outer G F)).
        { assert (Gen : forall a, inner F (minus a q) = 0 -> inner G (minus a q) = 0 -> exists k, minus a q = scaled k (outer G F)).
          { intros a A B. generalize dependent (minus a q). intros e A B. clear - A B Rq Fd Gd.
            assert (NW : outer G F <> V3 0 0 0). { intros Z. replace (inner G (outer F d)) with (inner d (outer G F)) in Rq by (vectors; ring). rewrite Z in Rq. revert Rq. vectors. lra. }
            pose proof (inner_pos _ NW) as PW. exists (inner e (outer G F) / inner (outer G F) (outer G F)).
            pose proof (triple_outer (outer G F) (outer G F) e) as T.
            assert (Z : outer (outer G F) e = V3 0 0 0).
            { pose proof (triple_outer e G F) as T2. rewrite (inner_comm e F), (inner_comm e G), A, B in T2.
              pose proof (f_equal vx T2) as E1. pose proof (f_equal vy T2) as E2. pose proof (f_equal vz T2) as E3. clear T T2. generalize dependent (outer G F). intros W _ _ E1 E2 E3.
              unfold outer, scaled, minus in *. cbn [vx vy vz] in *. f_equal; lra. }
            rewrite Z, outer_null in T. generalize dependent (outer G F). intros W _ PW T _. pose proof (f_equal vx T) as E1. pose proof (f_equal vy T) as E2. pose proof (f_equal vz T) as E3.
            rewrite (inner_comm e W). unfold scaled, minus in *. cbn [vx vy vz] in *. apply v3_ext; cbn [vx vy vz]; apply (Rmult_eq_reg_l (inner W W)); try lra; field_simplify; lra. }
          intros a [<-|[<-|[<-|[]]]]; apply Gen; auto.
          - replace (minus p q) with (scaled (-1) d) by (unfold d; vectors; f_equal; ring). replace (inner F (scaled (-1) d)) with (- inner F d) by (vectors; ring). lra.
          - replace (minus p q) with (scaled (-1) d) by (unfold d; vectors; f_equal; ring). replace (inner G (scaled (-1) d)) with (- inner G d) by (vectors; ring). lra.
          - vectors; ring.
          - vectors; ring. }
        intros x y z Ix Iy Iz. destruct (Pl x Ix) as (kx & Ex), (Pl y Iy) as (ky & Ey), (Pl z Iz) as (kz & Ez). unfold clockwise.
        assert (Dy : minus y x = scaled (ky - kx) (outer G F)).
        { transitivity (minus (minus y q) (minus x q)); [vectors; f_equal; ring|]. rewrite Ex, Ey. generalize (outer G F). intros; vectors; f_equal; ring. }
        assert (Dz : minus z x = scaled (kz - kx) (outer G F)).
        { transitivity (minus (minus z q) (minus x q)); [vectors; f_equal; ring|]. rewrite Ex, Ez. generalize (outer G F). intros; vectors; f_equal; ring. }
        rewrite Dy, Dz. generalize (outer G F). intros W. replace (inner G (outer (scaled (ky - kx) W) (scaled (kz - kx) W))) with 0 by (vectors; ring). lra. }
      apply In_nth_error in Tq, Tp, Ic. destruct Tq as (i & Hi), Tp as (j & Hj), Ic as (k & Hk).
      assert (i <> j) by (intros ->; congruence). assert (i <> k) by (intros ->; congruence). assert (j <> k) by (intros ->; congruence).
      destruct (lt_dec i j), (lt_dec j k), (lt_dec i k); try lia.
      - apply (Ln q p c); cbn; auto. apply (Ord Q IQ i j k); auto.
      - apply (Ln q c p); cbn; auto. apply (Ord Q IQ i k j); auto; lia.
      - apply (Ln c q p); cbn; auto. apply (Ord Q IQ k i j); auto; lia.
      - apply (Ln p q c); cbn; auto. apply (Ord Q IQ j i k); auto; lia.
      - apply (Ln p c q); cbn; auto. apply (Ord Q IQ j k i); auto; lia.
      - apply (Ln c p q); cbn; auto. apply (Ord Q IQ k j i); auto; lia. }
    unfold clockwise. replace (minus p q) with (scaled (-1) d) by (unfold d; vectors; f_equal; ring).
    apply (turn_back F G d (minus c q)); auto.
Qed.

(** Planes whose faces have an edge in the same direction bound the same half. *)
Theorem edge_once : forall o P Q p q, deep planes o -> In P planes -> In Q planes -> (3 <= length (pts P))%nat -> (3 <= length (pts Q))%nat ->
  next (pts P) p q -> next (pts Q) p q -> same_half P Q.
Proof.
  intros o P Q p q Dp IP IQ LP LQ NP NQ. destruct (next_third P p q IP LP NP) as (c & Ic & C). destruct (next_third Q p q IQ LQ NQ) as (h & Ih & H).
  destruct (cw_apart _ _ _ _ C) as (Npq & _ & _).
  assert (Ip : In p (pts P)) by (destruct NP as (i & Hp & _); now apply nth_error_In in Hp). assert (Iq : In q (pts P)) by (destruct NP as (i & _ & Hq); now apply nth_error_In in Hq).
  assert (Ip' : In p (pts Q)) by (destruct NQ as (i & Hp & _); now apply nth_error_In in Hp). assert (Iq' : In q (pts Q)) by (destruct NQ as (i & _ & Hq); now apply nth_error_In in Hq).
  destruct (pts_side P p IP Ip) as (Op & Sp). destruct (pts_side P q IP Iq) as (Oq & _). destruct (pts_side Q p IQ Ip') as (Op' & _). destruct (pts_side Q q IQ Iq') as (Oq' & _).
  destruct (pts_side P c IP Ic) as (Oc & Sc). destruct (pts_side Q h IQ Ih) as (Oh & Sh).
  set (F := facing P) in *. set (G := facing Q) in *.
  assert (Behind : forall R x, In R planes -> on_plane R p -> solid planes x -> inner (facing R) (minus x p) <= 0).
  { intros r x Ir Or Sx. rewrite solid_slack in Sx. pose proof (Sx r Ir) as X. unfold slack in X. unfold on_plane in Or.
    replace (inner (facing r) (minus x p)) with (inner (facing r) (minus x (bp_v0 r)) - inner (facing r) (minus p (bp_v0 r))) by (generalize (facing r); intros; vectors; ring). lra. }
  assert (Par : outer F G = V3 0 0 0).
  { apply (same_hand F G (minus q p) (minus c p) (minus h p)).
    - intros Z. apply minus_null in Z. congruence.
    - now apply on_both.
    - now apply on_both.
    - now apply on_both.
    - now apply on_both.
    - exact C.
    - exact H.
    - now apply Behind.
    - now apply Behind. }
  assert (NF : F <> V3 0 0 0) by (apply facing_some, Pr, IP). pose proof (inner_pos F NF) as PF.
  pose proof (triple_outer F F G) as T. rewrite Par, outer_null in T.
  set (k := inner F G / inner F F). assert (Ek : G = V3 (k * vx F) (k * vy F) (k * vz F)).
  { pose proof (f_equal vx T) as E1. pose proof (f_equal vy T) as E2. pose proof (f_equal vz T) as E3. unfold scaled, minus in E1, E2, E3. cbn [vx vy vz] in E1, E2, E3.
    apply v3_ext; cbn [vx vy vz]; apply (Rmult_eq_reg_l (inner F F)); try lra; unfold k; field_simplify; lra. }
  assert (Do : forall r, In r planes -> on_plane r p -> inner (facing r) (minus o p) < 0).
  { intros r Ir Or. pose proof (Dp r Ir) as X. unfold on_plane in Or.
    replace (inner (facing r) (minus o p)) with (inner (facing r) (minus o (bp_v0 r)) - inner (facing r) (minus p (bp_v0 r))) by (generalize (facing r); intros; vectors; ring). lra. }
  pose proof (Do P IP Op) as D1. pose proof (Do Q IQ Op') as D2. fold F in D1. fold G in D2.
  split.
  - exists k. split; [|exact Ek]. rewrite Ek in D2. replace (inner (V3 (k * vx F) (k * vy F) (k * vz F)) (minus o p)) with (k * inner F (minus o p)) in D2 by (vectors; ring). nra.
  - assert (Kn : k <> 0) by (intros Z; rewrite Ek, Z in D2; revert D2; vectors; lra).
    unfold on_plane in *. fold F in Op |- *. fold G in Op'. rewrite Ek in Op'.
    replace (inner (V3 (k * vx F) (k * vy F) (k * vz F)) (minus p (bp_v0 Q))) with (k * inner F (minus p (bp_v0 Q))) in Op' by (vectors; ring).
    apply Rmult_integral in Op'. destruct Op' as [Z|Z]; [contradiction|].
    replace (inner F (minus (bp_v0 Q) (bp_v0 P))) with (inner F (minus p (bp_v0 P)) - inner F (minus p (bp_v0 Q))) by (generalize F; intros; vectors; ring). lra.
Qed.
End Solid.

(** ** Brushes *)
Section Brush.
Context (parse : str -> option R) (cosine radians : R -> R) (atan2 : R -> R -> R)
  (quat : vec3 R -> R -> vec3 R -> vec3 R) (mat2 : R -> vec2 R -> vec2 R).
Local Notation O := (real_num parse cosine radians atan2 quat mat2).
Lemma edge_next : forall f p q, edge f p q <-> next (map vt_pos (f_vertices f)) p q.
Proof.
  intros f p q. unfold edge, next. rewrite map_length. split.
  - intros (i & u & v & U & V & -> & ->). exists i. now rewrite !nth_error_map, U, V.
  - intros (i & U & V). rewrite !nth_error_map in *. destruct (nth_error (f_vertices f) i) as [u|] eqn:Eu; [|discriminate].
    destruct (nth_error (f_vertices f) (S i mod length (f_vertices f))) as [v|] eqn:Ev; [|discriminate]. injection U as <-. injection V as <-. eauto 10.
Qed.
Lemma corner_tip : forall tx e planes plane f p, build_face O tx e planes plane = Ok f -> In plane planes -> In p (map vt_pos (f_vertices f)) -> tip planes p.
Proof.
  intros tx e planes plane f p E Ip I. destruct (corner_of _ _ _ _ _ _ _ _ _ _ _ E p I) as (p1 & p2 & I1 & I2 & _ & _ & A0 & A1 & A2 & D).
  exists (plus (plus (facing plane) (facing p1)) (facing p2)). intros y S N. rewrite solid_slack in S.
  assert (B : forall r, In r planes -> on_plane r p -> inner (facing r) (minus y p) <= 0).
  { intros r Ir Or. pose proof (S r Ir) as X. unfold slack in X. unfold on_plane in Or.
    replace (inner (facing r) (minus y p)) with (inner (facing r) (minus y (bp_v0 r)) - inner (facing r) (minus p (bp_v0 r))) by (generalize (facing r); intros; vectors; ring). lra. }
  pose proof (B plane Ip A0) as B0. pose proof (B p1 I1 A1) as B1. pose proof (B p2 I2 A2) as B2.
  replace (inner (plus (plus (facing plane) (facing p1)) (facing p2)) (minus y p)) with (inner (facing plane) (minus y p) + inner (facing p1) (minus y p) + inner (facing p2) (minus y p))
    by (generalize (facing plane) (facing p1) (facing p2); intros; vectors; ring).
  destruct (Req_dec (inner (facing plane) (minus y p)) 0) as [Z0|Z0]; [|lra]. destruct (Req_dec (inner (facing p1) (minus y p)) 0) as [Z1|Z1]; [|lra].
  destruct (Req_dec (inner (facing p2) (minus y p)) 0) as [Z2|Z2]; [|lra]. exfalso. apply N. apply minus_null. apply (null_of_inner (facing plane) (facing p1) (facing p2)); auto. lra.
Qed.

Context (tx : texture_info) (e : entity R) (planes : list (brush_plane R)) (b : brush_geo R) (o : vec3 R).
Context (Eb : build_brush O tx e planes = Ok b) (An : polar_angle atan2)
  (H : forall plane f, In plane planes -> In f (bg_faces b) -> build_face O tx e planes plane = Ok f -> proper plane /\ crisp planes f /\ sharp planes plane)
  (Bd : bounded (solid planes)) (Dp : deep planes o).
Let pts (P : brush_plane R) : list (vec3 R) := match build_face O tx e planes P with Ok f => map vt_pos (f_vertices f) | _ => [] end.
Let big (P : brush_plane R) : bool := (3 <=? length (pts P))%nat.
Let keep := filter big planes.
Lemma faces_of : Forall2 (fun P f => build_face O tx e planes P = Ok f) planes (bg_faces b).
Proof. unfold build_brush in Eb. apply bind_ok in Eb. destruct Eb as (fs & Ef & E). injection E as <-. cbn [bg_faces]. now apply mapM_ok in Ef. Qed.
Lemma face_at : forall P, In P planes -> exists f, In f (bg_faces b) /\ build_face O tx e planes P = Ok f /\ pts P = map vt_pos (f_vertices f).
Proof. intros P I. destruct (Forall2_in_l _ _ _ _ _ _ faces_of I) as (f & If & E). exists f. split; [exact If|]. split; [exact E|]. unfold pts. now rewrite E. Qed.
Lemma in_keep : forall P, In P keep <-> In P planes /\ (3 <= length (pts P))%nat.
Proof. intros P. unfold keep, big. rewrite filter_In, Nat.leb_le. reflexivity. Qed.
Lemma hull_all : forall P, In P planes -> forall x, in_hull (pts P) x <-> side planes P x.
Proof.
  intros P I x. destruct (face_at P I) as (f & If & E & ->). destruct (H P f I If E) as (Pr & K & Sh). apply (face_side _ _ _ _ _ _ _ _ _ _ _ E Pr K Sh).
  destruct Bd as (m & B). exists m. intros z (_ & Z). now apply B.
Qed.
Lemma solid_keep : forall x, solid keep x <-> solid planes x.
Proof.
  intros x. split; [|intros S q I; apply S; now apply in_keep in I].
  set (drop := filter (fun q => negb (big q)) planes).
  assert (Is : forall q, In q (drop ++ keep) <-> In q planes).
  { intros q. unfold drop, keep. rewrite in_app_iff, !filter_In. destruct (big q); cbn; tauto. }
  assert (So : forall y, solid (drop ++ keep) y <-> solid planes y) by (intros y; split; intros S q I; apply S, Is, I).
  intros S. apply So. apply (thins_idle drop keep o); [| | |exact S].
  - intros P I. assert (Ip : In P planes) by (apply Is, in_or_app; now left). destruct (face_at P Ip) as (f & If & E & _). apply (H P f Ip If E).
  - intros P I. apply Is, Dp in I. unfold slack. lra.
  - intros P I. assert (Ip : In P planes) by (apply Is, in_or_app; now left). unfold drop in I. apply filter_In in I. destruct I as (_ & I). unfold big in I. apply negb_true_iff, Nat.leb_gt in I.
    intros a c d (Oa & Sa) (Oc & Sc) (Od & Sd). apply (few_thin (pts P)); [exact I|..]; apply (hull_all P Ip); (split; [assumption|now apply So]).
Qed.
Lemma keep_ready :
  (forall P, In P keep -> proper P) /\ (forall P, In P keep -> forall x, in_hull (pts P) x <-> side keep P x) /\
  (forall P p, In P keep -> In p (pts P) -> tip keep p) /\
  (forall P, In P keep -> forall i j k a c d, (i < j)%nat -> (j < k)%nat ->
    nth_error (pts P) i = Some a -> nth_error (pts P) j = Some c -> nth_error (pts P) k = Some d -> clockwise (facing P) a c d).
Proof.
  repeat split.
  - intros P I. apply in_keep in I. destruct I as (I & _). destruct (face_at P I) as (f & If & E & _). apply (H P f I If E).
  - apply in_keep in H0. destruct H0 as (I & _). apply (hull_all P I). exact H1.
  - apply solid_keep. apply in_keep in H0. destruct H0 as (I & _). apply (hull_all P I). exact H1.
  - intros (Ox & Sx). apply in_keep in H0. destruct H0 as (I & _). apply (hull_all P I). split; [exact Ox|now apply solid_keep].
  - intros P p I Ip. apply in_keep in I. destruct I as (I & _). destruct (face_at P I) as (f & If & E & Ep). rewrite Ep in Ip.
    destruct (corner_tip _ _ _ _ _ _ E I Ip) as (g & G). exists g. intros y S. apply G. now apply solid_keep.
  - intros P I. apply in_keep in I. destruct I as (I & _). destruct (face_at P I) as (f & If & E & Ep). rewrite Ep.
    intros i j k a c d. destruct (H P f I If E) as (_ & K & _). apply (any_clockwise _ _ _ _ _ _ _ _ _ _ _ E K An).
Qed.
Theorem edges_shared : forall f p q, In f (bg_faces b) -> (3 <= length (f_vertices f))%nat -> edge f p q ->
  exists g, In g (bg_faces b) /\ (3 <= length (f_vertices g))%nat /\ edge g q p.
Proof.
  intros f p q If L Ed. destruct (Forall2_in_r _ _ _ _ _ _ faces_of If) as (P & IP & E). assert (Ep : pts P = map vt_pos (f_vertices f)) by (unfold pts; now rewrite E).
  destruct keep_ready as (K1 & K2 & K3 & K4). assert (L' : (3 <= length (pts P))%nat) by now rewrite Ep, map_length.
  destruct (edge_shared keep pts K1 K2 K3 K4 P p q) as (Q & IQ & NQ); [now apply in_keep|exact L'|rewrite Ep; now apply edge_next|].
  apply in_keep in IQ. destruct IQ as (IQ & LQ). destruct (face_at Q IQ) as (g & Ig & Eg & Eq). rewrite Eq in *. rewrite map_length in LQ.
  exists g. split; [exact Ig|]. split; [exact LQ|]. now apply edge_next.
Qed.
Theorem edges_once : no_repeats planes -> forall i j f g p q, nth_error (bg_faces b) i = Some f -> nth_error (bg_faces b) j = Some g ->
  (3 <= length (f_vertices f))%nat -> (3 <= length (f_vertices g))%nat -> edge f p q -> edge g p q -> i = j.
Proof.
  intros Nr i j f g p q Hi Hj Lf Lg Ef Eg.
  assert (At : forall k h, nth_error (bg_faces b) k = Some h -> exists P, nth_error planes k = Some P /\ build_face O tx e planes P = Ok h).
  { assert (G : forall A B (r : A -> B -> Prop) l l', Forall2 r l l' -> forall k y, nth_error l' k = Some y -> exists x, nth_error l k = Some x /\ r x y).
    { intros A B r l l' F. induction F as [|x y l l' X F IH]; intros k z Hk; [destruct k; discriminate|]. destruct k; [injection Hk as <-; now exists x|]. now apply IH. }
    exact (G _ _ _ _ _ faces_of). }
  destruct (At i f Hi) as (P & HP & EP). destruct (At j g Hj) as (Q & HQ & EQ). pose proof (nth_error_In _ _ HP) as IP. pose proof (nth_error_In _ _ HQ) as IQ.
  assert (Ep : pts P = map vt_pos (f_vertices f)) by (unfold pts; now rewrite EP). assert (Eq : pts Q = map vt_pos (f_vertices g)) by (unfold pts; now rewrite EQ).
  destruct keep_ready as (K1 & K2 & K3 & K4). apply (Nr i j P Q HP HQ).
  apply (edge_once keep pts K1 K2 K3 K4 o P Q p q).
  - intros r Ir. apply Dp. now apply in_keep in Ir.
  - apply in_keep. split; [exact IP|]. now rewrite Ep, map_length.
  - apply in_keep. split; [exact IQ|]. now rewrite Eq, map_length.
  - now rewrite Ep, map_length.
  - now rewrite Eq, map_length.
  - rewrite Ep. now apply edge_next.
  - rewrite Eq. now apply edge_next.
Qed.
End Brush.
