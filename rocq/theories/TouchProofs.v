(** Planes that only touch a brush: lemmas for C81. *)
From Coq Require Import Reals Lra Psatz Lia.
From Verif Require Import Prelude F32 Text MapModel GeoModel GeoSpec RealSpec WindSpec SolidSpec BaseProofs GeoProofs RealProofs WindProofs SolidProofs.
Local Open Scope R_scope.

Definition strictly (planes : list (brush_plane R)) (o : vec3 R) : Prop := forall q, In q planes -> 0 < slack q o.
(** All points on a line. *)
Definition thin (P : vec3 R -> Prop) : Prop := forall x y z, P x -> P y -> P z -> outer (minus y x) (minus z x) = V3 0 0 0.

Lemma small_step : forall planes o w, strictly planes o -> exists t, 0 < t /\ forall s, 0 <= s <= t -> strictly planes (moved o w s).
Proof.
  induction planes as [|q planes IH]; intros o w S; [exists 1; split; [lra|intros s _ q []]|].
  destruct (IH o w) as (t & T & H); [intros r I; apply S; now right|].
  pose proof (S q (or_introl eq_refl)) as Sq. set (u := slack q o / (1 + Rabs (rate q w))).
  assert (A : 0 < 1 + Rabs (rate q w)) by (pose proof (Rabs_pos (rate q w)); lra).
  assert (U : 0 < u) by (apply Rmult_lt_0_compat; [exact Sq|now apply Rinv_0_lt_compat]).
  assert (Eu : u * (1 + Rabs (rate q w)) = slack q o) by (unfold u; field; lra).
  exists (Rmin t u). split; [now apply Rmin_glb_lt|]. intros s (S0 & S1) r [<-|I].
  - rewrite slack_moved. pose proof (Rle_abs (rate q w)). pose proof (Rmin_r t u). assert (s * rate q w <= u * Rabs (rate q w)); [|nra].
    apply Rle_trans with (s * Rabs (rate q w)); [now apply Rmult_le_compat_l|apply Rmult_le_compat_r; [apply Rabs_pos|lra]].
  - apply H; [|exact I]. pose proof (Rmin_l t u). lra.
Qed.

Definition between (a b : vec3 R) (l : R) : vec3 R := V3 ((1 - l) * vx a + l * vx b) ((1 - l) * vy a + l * vy b) ((1 - l) * vz a + l * vz b).
Lemma slack_between : forall q a b l, slack q (between a b l) = (1 - l) * slack q a + l * slack q b.
Proof. intros. unfold slack, between. generalize (facing q). intros n. vectors. ring. Qed.

Lemma edges_across : forall P, rate P (minus (bp_v1 P) (bp_v0 P)) = 0 /\ rate P (minus (bp_v2 P) (bp_v0 P)) = 0
  /\ outer (minus (bp_v2 P) (bp_v0 P)) (minus (bp_v1 P) (bp_v0 P)) = facing P.
Proof. intros P. unfold rate, facing. repeat split; try reflexivity; vectors; ring. Qed.

(** A plane whose side is thin cuts nothing off. *)
Lemma thin_idle : forall planes P o, proper P -> strictly (P :: planes) o -> thin (side (P :: planes) P) -> forall y, solid planes y -> 0 <= slack P y.
Proof.
  intros planes P o Pr S Th y Sy. destruct (Rle_lt_dec 0 (slack P y)) as [K|K]; [exact K|exfalso].
  set (u := minus (bp_v1 P) (bp_v0 P)). set (v := minus (bp_v2 P) (bp_v0 P)). destruct (edges_across P) as (Ru & Rv & Ov).
  destruct (small_step _ _ u S) as (t1 & T1 & H1). destruct (small_step _ _ v S) as (t2 & T2 & H2).
  pose proof (S P (or_introl eq_refl)) as So. set (l := slack P o / (slack P o - slack P y)).
  assert (El : l * (slack P o - slack P y) = slack P o) by (unfold l; field; lra).
  assert (L : 0 < l < 1). { split; [apply Rmult_lt_0_compat; [exact So|apply Rinv_0_lt_compat; lra]|]. nra. }
  rewrite solid_slack in Sy.
  assert (A : forall w t, rate P w = 0 -> strictly (P :: planes) (moved o w t) -> side (P :: planes) P (between (moved o w t) y l)).
  { intros w t Rw St. assert (Z : slack P (between (moved o w t) y l) = 0) by (rewrite slack_between, slack_moved, Rw; nra).
    split; [now apply slack_on|]. apply solid_slack. intros q [<-|I]; [lra|]. rewrite slack_between. pose proof (St q (or_intror I)). pose proof (Sy q I). nra. }
  pose proof (Th _ _ _ (A u 0 Ru (H1 0 ltac:(lra))) (A v t2 Rv (H2 t2 ltac:(lra))) (A u t1 Ru (H1 t1 ltac:(lra)))) as Z.
  assert (X : outer (minus (between (moved o v t2) y l) (between (moved o u 0) y l)) (minus (between (moved o u t1) y l) (between (moved o u 0) y l))
    = V3 ((1 - l) * t2 * ((1 - l) * t1) * vx (facing P)) ((1 - l) * t2 * ((1 - l) * t1) * vy (facing P)) ((1 - l) * t2 * ((1 - l) * t1) * vz (facing P))).
  { rewrite <- Ov. fold u v. generalize u v. intros a b. unfold between, moved, outer, minus. cbn [vx vy vz]. f_equal; ring. }
  rewrite X in Z. clear X. pose proof (f_equal vx Z) as Zx. pose proof (f_equal vy Z) as Zy. pose proof (f_equal vz Z) as Zz. cbn [vx vy vz] in Zx, Zy, Zz. clear Z. set (k := (1 - l) * t2 * ((1 - l) * t1)) in *.
  assert (Kp : 0 < k) by (unfold k; repeat apply Rmult_lt_0_compat; lra).
  apply Pr. unfold norm. replace (inner (facing P) (facing P)) with 0; [apply sqrt_0|].
  assert (forall a, k * a = 0 -> a = 0) as Q by (intros a Ha; apply Rmult_integral in Ha; lra).
  assert (In0 : forall n, vx n = 0 -> vy n = 0 -> vz n = 0 -> 0 = inner n n) by (intros [a b c]; cbn; intros -> -> ->; unfold inner; cbn; ring).
  apply In0; apply Q; assumption.
Qed.

(** Nor do several. *)
Lemma thins_idle : forall drop keep o, (forall P, In P drop -> proper P) -> strictly (drop ++ keep) o -> (forall P, In P drop -> thin (side (drop ++ keep) P)) ->
  forall y, solid keep y -> solid (drop ++ keep) y.
Proof.
  induction drop as [|P drop IH]; intros keep o Pr S Th y Sy; [exact Sy|].
  assert (B : forall y, solid (drop ++ keep) y -> solid (P :: drop ++ keep) y).
  { intros z Sz q [<-|I]; [|now apply Sz]. apply slack_within, (thin_idle (drop ++ keep) P o); [apply Pr; now left|exact S|apply Th; now left|exact Sz]. }
  apply B, (IH keep o); [intros q I; apply Pr; now right|intros q I; apply S; now right| |exact Sy].
  intros Q I a b c (Oa & Sa) (Ob & Sb) (Oc & Sc). apply (Th Q (or_intror I)); (split; [assumption|apply B; assumption]).
Qed.

(** So every point of the surface is on a side that is not thin. *)
Lemma on_kept : forall drop keep o, (forall P, In P drop -> proper P) -> strictly (drop ++ keep) o -> (forall P, In P drop -> thin (side (drop ++ keep) P)) ->
  forall x, surface_of (drop ++ keep) x -> exists q, In q keep /\ on_plane q x.
Proof.
  intros drop keep o Pr S Th x (So & P & I & On). apply in_app_or in I. destruct I as [I|I]; [|eauto].
  assert (D : (exists q, In q keep /\ on_plane q x) \/ strictly keep x).
  { assert (Sk : forall q, In q keep -> 0 <= slack q x) by (intros q Iq; apply slack_within, So, in_or_app; now right).
    clear - Sk. induction keep as [|q keep IH]; [right; intros q []|]. destruct (Req_dec (slack q x) 0) as [Z|Z]; [left; exists q; split; [now left|now apply slack_on]|].
    destruct IH as [(r & Ir & Or)|IH]; [intros r Ir; apply Sk; now right|left; exists r; split; [now right|exact Or]|right].
    intros r [<-|Ir]; [pose proof (Sk q (or_introl eq_refl)); lra|now apply IH]. }
  destruct D as [D|D]; [exact D|exfalso]. destruct (small_step _ _ (facing P) D) as (t & T & H).
  assert (Z : solid (drop ++ keep) (moved x (facing P) t)).
  { apply (thins_idle drop keep o Pr S Th), solid_slack. intros q Iq. apply Rlt_le, (H t); [lra|exact Iq]. }
  rewrite solid_slack in Z. specialize (Z P (in_or_app _ _ _ (or_introl I))). rewrite slack_moved in Z. apply slack_on in On. rewrite On in Z.
  assert (F : 0 < rate P (facing P)). { unfold rate. pose proof (Pr P I) as N. unfold proper, norm in N. destruct (Rle_lt_dec (inner (facing P) (facing P)) 0) as [C|C]; [|exact C].
    exfalso. apply N. apply sqrt_neg_0. exact C. }
  nra.
Qed.

Lemma few_thin : forall l, (length l < 3)%nat -> thin (in_hull l).
Proof.
  intros l L x y z X Y Z. unfold in_hull in *.
  assert (A : exists a d, forall p, weighted l 1 p -> exists k, p = moved a d k).
  { destruct l as [|a [|b [|c l]]]; [| | |cbn in L; lia].
    - exists (V3 0 0 0), (V3 0 0 0). intros p H. inversion H. lra.
    - exists a, (V3 0 0 0). intros p H. inversion H; subst. inversion H5; subst. exists 0. unfold moved. destruct a; cbn. assert (w = 1) as -> by lra. f_equal; ring.
    - exists a, (minus b a). intros p H. inversion H; subst. inversion H5; subst. inversion H8; subst. exists w0. unfold moved, minus. cbn [vx vy vz]. assert (w = 1 - w0) as -> by lra. f_equal; ring. }
  destruct A as (a & d & A). destruct (A x X) as (i & ->), (A y Y) as (j & ->), (A z Z) as (k & ->). unfold moved. vectors. f_equal; ring.
Qed.

Section Faces.
Context (parse : str -> option R) (cosine radians : R -> R) (atan2 : R -> R -> R)
  (quat : vec3 R -> R -> vec3 R -> vec3 R) (mat2 : R -> vec2 R -> vec2 R).
Local Notation O := (real_num parse cosine radians atan2 quat mat2).

Theorem touching_surface : forall tx e planes b, build_brush O tx e planes = Ok b -> polar_angle atan2 ->
  (forall plane f, In plane planes -> In f (bg_faces b) -> build_face O tx e planes plane = Ok f -> proper plane /\ crisp planes f /\ sharp planes plane) ->
  bounded (solid planes) -> (exists o, forall q, In q planes -> inner (facing q) (minus o (bp_v0 q)) < 0) ->
  forall x, surface_of planes x <-> exists f i p q r, In f (bg_faces b) /\ triangle f i p q r /\ in_triangle p q r x.
Proof.
  intros tx e planes b E An H Bd (o & Ho) x. unfold build_brush in E. apply bind_ok in E. destruct E as (fs & Ef & E). injection E as <-. cbn [bg_faces] in *.
  apply mapM_ok in Ef.
  assert (Hs : forall plane f, In plane planes -> In f fs -> build_face O tx e planes plane = Ok f ->
     forall x, in_hull (map vt_pos (f_vertices f)) x <-> side planes plane x).
  { intros plane f Ip If Eb y. destruct (H plane f Ip If Eb) as (Pr & K & Sh). apply (face_side _ _ _ _ _ _ _ _ _ _ _ Eb Pr K Sh).
    destruct Bd as (m & Bd). exists m. intros z (_ & Z). now apply Bd. }
  set (big := fun q => match build_face O tx e planes q with Ok f => (3 <=? length (f_vertices f))%nat | _ => false end).
  set (keep := filter big planes). set (drop := filter (fun q => negb (big q)) planes).
  assert (Is : forall q, In q (drop ++ keep) <-> In q planes).
  { intros q. unfold drop, keep. rewrite in_app_iff, !filter_In. destruct (big q); cbn; tauto. }
  assert (So : forall y, solid (drop ++ keep) y <-> solid planes y) by (intros y; split; intros S q I; apply S, Is, I).
  split.
  - intros (Sx & q & Iq & On). destruct (on_kept drop keep o) with (x := x) as (r & Ir & Or).
    + intros P I. assert (Ip : In P planes) by (apply Is, in_or_app; now left). destruct (Forall2_in_l _ _ _ _ _ _ Ef Ip) as (f & If & Eb). apply (H P f Ip If Eb).
    + intros P I. apply Is, Ho in I. unfold slack. lra.
    + intros P I. assert (Ip : In P planes) by (apply Is, in_or_app; now left). destruct (Forall2_in_l _ _ _ _ _ _ Ef Ip) as (f & If & Eb).
      unfold drop in I. apply filter_In in I. destruct I as (_ & I). unfold big in I. rewrite Eb in I. apply negb_true_iff, Nat.leb_gt in I.
      intros a c d (Oa & Sa) (Oc & Sc) (Od & Sd). apply (few_thin (map vt_pos (f_vertices f))); [now rewrite map_length|..]; apply (Hs P f Ip If Eb); (split; [assumption|now apply So]).
    + split; [now apply So|]. exists q. split; [now apply Is|exact On].
    + assert (Ip : In r planes) by (apply Is, in_or_app; now right). destruct (Forall2_in_l _ _ _ _ _ _ Ef Ip) as (f & If & Eb).
      unfold keep in Ir. apply filter_In in Ir. destruct Ir as (_ & L). unfold big in L. rewrite Eb in L. apply Nat.leb_le in L. destruct (H r f Ip If Eb) as (_ & K & _).
      destruct (proj1 (triangles_cover _ _ _ _ _ _ _ _ _ _ _ Eb K An ltac:(now rewrite map_length) x)) as (i & p & u & v & T); [apply (Hs r f Ip If Eb); now split|].
      exists f, i, p, u, v. tauto.
  - intros (f & i & p & q & r & If & T & In'). destruct (Forall2_in_r _ _ _ _ _ _ Ef If) as (P & Ip & Eb). destruct (H P f Ip If Eb) as (_ & K & _).
    assert (L : (3 <= length (f_vertices f))%nat).
    { destruct (le_lt_dec 3 (length (f_vertices f))) as [L|L]; [exact L|exfalso]. destruct T as (_ & _ & _ & ia & _ & _ & Ti & _).
      destruct (face_inv _ _ _ _ _ _ Eb) as (_ & _ & _ & _ & _ & _ & Ei & _). unfold fan in Ei. rewrite (proj2 (Nat.ltb_lt _ _) L) in Ei. rewrite Ei in Ti. destruct (3 * i)%nat; discriminate Ti. }
    destruct (proj1 (Hs P f Ip If Eb x)) as (On & Sx); [|split; [exact Sx|eauto]].
    apply (triangles_cover _ _ _ _ _ _ _ _ _ _ _ Eb K An); [now rewrite map_length|eauto 10].
Qed.
End Faces.
