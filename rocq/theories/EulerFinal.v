(** Corners, edges and faces of a brush: proofs of C128. *)
From Coq Require Import Reals Lra Psatz Lia Permutation.
From Verif Require Import Prelude F32 Text MapModel GeoModel GeoSpec RealSpec WindSpec SolidSpec EdgeSpec NeighbourSpec EulerSpec
  BaseProofs GeoProofs RealProofs WindProofs SolidProofs TouchProofs EdgeProofs ClosedProofs NeighbourProofs EulerProofs.
Local Open Scope R_scope.

Lemma same_self : forall P, same_half P P.
Proof. intros P. split; [exists 1; split; [lra|]; apply v3_ext; cbn [vx vy vz]; ring|]. unfold on_plane. generalize (facing P). intros; vectors; ring. Qed.
Lemma filter_length_le : forall A (f : A -> bool) l, (length (filter f l) <= length l)%nat.
Proof. intros A f l. induction l as [|a l IH]; [constructor|]. cbn [filter length]. destruct (f a); cbn [length]; lia. Qed.
Lemma nodup_both : forall A (l l' : list A), NoDup l -> NoDup l' -> (forall x, In x l -> ~ In x l') -> NoDup (l ++ l').
Proof.
  induction l as [|x l IH]; intros l' N N' D; [exact N'|]. inversion N; subst. cbn [app]. constructor.
  - rewrite in_app_iff. intros [X|X]; [contradiction|]. apply (D x); [now left|exact X].
  - apply IH; auto. intros y Iy. apply D. now right.
Qed.

Section Brush.
Context (parse : str -> option R) (cosine radians : R -> R) (atan2 : R -> R -> R)
  (quat : vec3 R -> R -> vec3 R -> vec3 R) (mat2 : R -> vec2 R -> vec2 R).
Local Notation O := (real_num parse cosine radians atan2 quat mat2).
Context (tx : texture_info) (e : entity R) (planes : list (brush_plane R)) (b : brush_geo R) (o : vec3 R).
Context (Eb : build_brush O tx e planes = Ok b) (An : polar_angle atan2)
  (H : forall plane f, In plane planes -> In f (bg_faces b) -> build_face O tx e planes plane = Ok f -> proper plane /\ crisp planes f /\ sharp planes plane)
  (Bd : bounded (solid planes)) (Dp : deep planes o) (Nr : no_repeats planes).
Lemma built : Forall2 (fun P f => build_face O tx e planes P = Ok f) planes (bg_faces b).
Proof. exact (faces_of _ _ _ _ _ _ _ _ _ _ Eb H). Qed.
Let pts (P : brush_plane R) : list (vec3 R) := match build_face O tx e planes P with Ok f => map vt_pos (f_vertices f) | _ => [] end.
Let big (P : brush_plane R) : bool := (3 <=? length (pts P))%nat.
Let keep := filter big planes.
Lemma ready :
  (forall P, In P keep -> proper P) /\ (forall P, In P keep -> forall x, in_hull (pts P) x <-> side keep P x) /\
  (forall P p, In P keep -> In p (pts P) -> tip keep p) /\
  (forall P, In P keep -> forall i j k a c d, (i < j)%nat -> (j < k)%nat ->
    nth_error (pts P) i = Some a -> nth_error (pts P) j = Some c -> nth_error (pts P) k = Some d -> clockwise (facing P) a c d).
Proof. exact (keep_ready _ _ _ _ _ _ _ _ _ _ _ Eb An H Bd Dp). Qed.
Lemma keep_in : forall P, In P keep <-> In P planes /\ (3 <= length (pts P))%nat.
Proof. intros P. unfold keep, big. rewrite filter_In, Nat.leb_le. reflexivity. Qed.
Lemma solid_both : forall x, solid keep x <-> solid planes x.
Proof. exact (solid_keep _ _ _ _ _ _ _ _ _ _ _ Eb H Bd Dp). Qed.
Lemma deep_keep : deep keep o.
Proof. intros r Ir. apply Dp. now apply keep_in in Ir. Qed.
Lemma once_keep : forall P Q, In P keep -> In Q keep -> same_half P Q -> P = Q.
Proof.
  intros P Q IP IQ S. apply keep_in in IP, IQ. destruct IP as (IP & _), IQ as (IQ & _). apply In_nth_error in IP, IQ. destruct IP as (i & Hi), IQ as (j & Hj).
  pose proof (Nr i j P Q Hi Hj S). congruence.
Qed.
Lemma keep_nodup : NoDup keep.
Proof.
  apply NoDup_filter. apply NoDup_nth_error. intros i j Li E. destruct (nth_error planes i) as [P|] eqn:Ei; [|apply nth_error_None in Ei; lia].
  apply (Nr i j P P Ei); [congruence|apply same_self].
Qed.
Lemma pts_nodup : forall P, In P planes -> NoDup (pts P).
Proof. intros P I. destruct (Forall2_in_l _ _ _ _ _ _ built I) as (f & If & E). unfold pts. rewrite E. apply (real_corners _ _ _ _ _ _ _ _ _ _ _ E). Qed.
Lemma keep_some : keep <> [] /\ length keep = length (shown b).
Proof.
  assert (L : length keep = length (shown b)).
  { unfold keep, shown. pose proof built as F. clear - F. assert (G : forall l l', Forall2 (fun P f => build_face O tx e planes P = Ok f) l l' -> length (filter big l) = length (filter (fun f => (3 <=? length (f_vertices f))%nat) l')).
    { intros l l' F'. induction F' as [|P f l l' E F' IH]; [reflexivity|]. cbn [filter]. assert (X : big P = (3 <=? length (f_vertices f))%nat) by (unfold big, pts; rewrite E, map_length; reflexivity).
      rewrite X. destruct (3 <=? length (f_vertices f))%nat; cbn [length]; now rewrite IH. }
    exact (G _ _ F). }
  split; [|exact L]. intros Z. rewrite Z in L. cbn in L. pose proof (shown_four _ _ _ _ _ _ _ _ _ _ _ Eb An H Bd Dp Nr). lia.
Qed.
(** Every corner is on a face with three or more. *)
Lemma corner_keep : forall P x, In P planes -> In x (pts P) -> exists Q, In Q keep /\ In x (pts Q).
Proof.
  intros P x I Ix. destruct ready as (K1 & K2 & K3 & K4). destruct (Forall2_in_l _ _ _ _ _ _ built I) as (f & If & E). assert (Ep : pts P = map vt_pos (f_vertices f)) by (unfold pts; now rewrite E).
  rewrite Ep in Ix. assert (T : tip keep x) by (destruct (corner_tip _ _ _ _ _ _ _ _ _ _ _ _ E I Ix) as (g & G); exists g; intros y S; apply G; now apply solid_both).
  assert (Sx : solid keep x).
  { apply solid_both. intros q Iq. destruct (H P f I If E) as (_ & K & _). apply in_map_iff in Ix. destruct Ix as (v & <- & Iv). now apply K. }
  destruct (existsb (fun Q => if Req_EM_T (slack Q x) 0 then true else false) keep) eqn:X.
  - apply existsb_exists in X. destruct X as (Q & IQ & X). destruct (Req_EM_T (slack Q x) 0) as [Z|Z]; [|discriminate]. exists Q. split; [exact IQ|].
    apply (tip_corner keep pts K2); [exact IQ|exact T|]. split; [now apply slack_on|exact Sx].
  - exfalso. destruct T as (g & G). assert (Free : forall w, exists t, 0 < t /\ solid keep (moved x w t)).
    { intros w. apply (room keep x w Sx). intros Q IQ OQ. exfalso. assert (existsb (fun Q => if Req_EM_T (slack Q x) 0 then true else false) keep = true); [|congruence].
      apply existsb_exists. exists Q. split; [exact IQ|]. apply slack_on in OQ. now destruct (Req_EM_T (slack Q x) 0). }
    assert (Far : forall w t, w <> V3 0 0 0 -> 0 < t -> moved x w t <> x).
    { intros w t N T Z. apply N. pose proof (f_equal vx Z) as E1. pose proof (f_equal vy Z) as E2. pose proof (f_equal vz Z) as E3. unfold moved in E1, E2, E3. cbn [vx vy vz] in E1, E2, E3.
      apply v3_ext; cbn [vx vy vz]; apply (Rmult_eq_reg_l t); lra. }
    destruct (Free (V3 1 0 0)) as (t & T & S). assert (N : V3 1 0 0 <> V3 0 0 0) by (intros Z; injection Z; lra). pose proof (G _ S (Far _ _ N T)) as L1. rewrite inner_minus, inner_moved in L1.
    destruct (Free (V3 (-1) 0 0)) as (t' & T' & S'). assert (N' : V3 (-1) 0 0 <> V3 0 0 0) by (intros Z; injection Z; lra). pose proof (G _ S' (Far _ _ N' T')) as L2. rewrite inner_minus, inner_moved in L2.
    replace (inner g (V3 (-1) 0 0)) with (- inner g (V3 1 0 0)) in L2 by (vectors; ring). nra.
Qed.
Lemma corners_keep : forall V, all_corners b V -> NoDup V /\ forall x, In x V <-> exists P, In P keep /\ In x (pts P).
Proof.
  intros V (N & A). split; [exact N|]. intros x. rewrite A. split.
  - intros (f & v & If & Iv & <-). destruct (Forall2_in_r _ _ _ _ _ _ built If) as (P & IP & E). apply (corner_keep P); [exact IP|]. unfold pts. rewrite E. now apply in_map.
  - intros (P & IP & Ix). apply keep_in in IP. destruct IP as (IP & _). destruct (Forall2_in_l _ _ _ _ _ _ built IP) as (f & If & E). unfold pts in Ix. rewrite E in Ix. apply in_map_iff in Ix. destruct Ix as (v & X & Iv). eauto.
Qed.
Lemma keep_total : forall (h : nat -> nat), total (fun P => h (length (pts P))) keep = total (fun f => h (length (f_vertices f))) (shown b).
Proof.
  intros h. unfold keep, shown. pose proof built as F. clear - F. assert (G : forall l l', Forall2 (fun P f => build_face O tx e planes P = Ok f) l l' ->
    total (fun P => h (length (pts P))) (filter big l) = total (fun f => h (length (f_vertices f))) (filter (fun f => (3 <=? length (f_vertices f))%nat) l')).
  { intros l l' F'. induction F' as [|P f l l' E F' IH]; [reflexivity|]. cbn [filter]. assert (Y : length (pts P) = length (f_vertices f)) by (unfold pts; now rewrite E, map_length).
    assert (X : big P = (3 <=? length (f_vertices f))%nat) by (unfold big; now rewrite Y).
    rewrite X. destruct (3 <=? length (f_vertices f))%nat; [|exact IH]. cbn [total fold_right]. rewrite Y. f_equal. exact IH. }
  exact (G _ _ F).
Qed.
Lemma shown_total : forall V, all_corners b V -> (total (fun f => length (f_vertices f)) (shown b) + 4 = 2 * length (shown b) + 2 * length V)%nat.
Proof.
  intros V A. destruct (corners_keep V A) as (N & HV). destruct ready as (K1 & K2 & K3 & K4). destruct keep_some as (Ne & L).
  rewrite <- L, <- (keep_total (fun n => n)). apply (euler keep pts o V); auto.
  - exact deep_keep.
  - exact once_keep.
  - exact keep_nodup.
  - intros P IP. apply keep_in in IP. destruct IP as (IP & LP). split; [now apply pts_nodup|lia].
Qed.

(** *** Edges *)
Lemma round_iff : forall f p q, In (p, q) (round f) <-> (3 <= length (f_vertices f))%nat /\ edge f p q.
Proof. exact (ClosedProofs.round_edge _ _ _ _ _ _ _ _ _ _ H). Qed.
Lemma rounds_nodup : NoDup (flat_map round (bg_faces b)).
Proof.
  assert (Nf : forall f, In f (bg_faces b) -> NoDup (round f)).
  { intros f I. unfold round. destruct (length (points f) <? 3)%nat; [constructor|]. apply cycle_NoDup. apply (face_nodup _ _ _ _ _ _ _ _ _ _ Eb H f I). }
  pose proof (fun i j f g p q Hi Hj Lf Lg => edges_once _ _ _ _ _ _ _ _ _ _ _ Eb An H Bd Dp Nr i j f g p q Hi Hj Lf Lg) as Un.
  assert (G : forall l, (forall f, In f l -> NoDup (round f)) ->
     (forall i j f g p q, nth_error l i = Some f -> nth_error l j = Some g -> (3 <= length (f_vertices f))%nat -> (3 <= length (f_vertices g))%nat -> edge f p q -> edge g p q -> i = j) -> NoDup (flat_map round l)).
  { induction l as [|f l IH]; intros Nl U; [constructor|]. cbn [flat_map].
    apply nodup_both.
    - apply Nl. now left.
    - apply IH; [intros g I; apply Nl; now right|]. intros i j f' g' p q Hi Hj Lf Lg E1 E2. pose proof (U (S i) (S j) f' g' p q Hi Hj Lf Lg E1 E2). lia.
    - intros (p, q) I J. apply in_flat_map in J. destruct J as (g & Ig & J). apply round_iff in I, J. apply In_nth_error in Ig. destruct Ig as (j & Hj).
      pose proof (U 0%nat (S j) f g p q eq_refl Hj (proj1 I) (proj1 J) (proj2 I) (proj2 J)). discriminate. }
  apply G; [exact Nf|exact Un].
Qed.
Lemma rounds_in : forall p q, In (p, q) (flat_map round (bg_faces b)) <-> exists f, In f (shown b) /\ edge f p q.
Proof.
  intros p q. rewrite in_flat_map. split.
  - intros (f & If & I). apply round_iff in I. destruct I as (L & Ed). exists f. split; [|exact Ed]. unfold shown. apply filter_In. split; [exact If|now apply Nat.leb_le].
  - intros (f & If & Ed). unfold shown in If. apply filter_In in If. destruct If as (If & L). apply Nat.leb_le in L. exists f. split; [exact If|]. now apply round_iff.
Qed.
Lemma rounds_length : length (flat_map round (bg_faces b)) = total (fun f => length (f_vertices f)) (shown b).
Proof.
  unfold shown. generalize (bg_faces b). intros l. induction l as [|f l IH]; [reflexivity|]. cbn [flat_map filter]. rewrite app_length, IH. unfold round. unfold points at 1. rewrite map_length.
  rewrite Nat.leb_antisym. destruct (length (f_vertices f) <? 3)%nat eqn:X; cbn [negb]; [reflexivity|]. cbn [total fold_right]. f_equal.
  apply Nat.ltb_ge in X. unfold points. destruct (f_vertices f) as [|v vs]; [reflexivity|]. cbn [map]. rewrite <- (map_length fst). unfold cycle. cbn [length]. 
  rewrite walk_fst. cbn [length]. now rewrite map_length.
Qed.
Lemma edges_half : forall E, all_edges b E -> (total (fun f => length (f_vertices f)) (shown b) = 2 * length E)%nat.
Proof.
  intros E (N & A & B). rewrite <- rounds_length. assert (L : length (E ++ map swap E) = (2 * length E)%nat) by (rewrite app_length, map_length; lia). rewrite <- L.
  assert (Sw : forall p q, In (p, q) (map swap E) <-> In (q, p) E).
  { intros p q. rewrite in_map_iff. split; [intros ((x, y) & X & I); unfold swap in X; cbn [fst snd] in X; now injection X as <- <-|intros I; exists (q, p); auto]. }
  apply same_length; [exact rounds_nodup| |].
  - apply nodup_both; [exact N| |].
    + apply FinFun.Injective_map_NoDup; [|exact N]. intros [p q] [p' q'] X. unfold swap in X. cbn [fst snd] in X. congruence.
    + intros (p, q) I J. apply Sw in J. now apply (A p q).
  - intros (p, q). rewrite rounds_in, B, in_app_iff, Sw. reflexivity.
Qed.
Theorem euler_brush : forall V E, all_corners b V -> all_edges b E -> (length V + length (shown b) = length E + 2)%nat.
Proof. intros V E A B. pose proof (shown_total V A). pose proof (edges_half E B). lia. Qed.
Theorem lists_exist : exists V E, all_corners b V /\ all_edges b E.
Proof.
  set (V := nodup v3_dec (flat_map (fun f => map vt_pos (f_vertices f)) (bg_faces b))). exists V.
  assert (A : all_corners b V).
  { split; [apply NoDup_nodup|]. intros x. unfold V. rewrite nodup_In, in_flat_map. split.
    - intros (f & If & I). apply in_map_iff in I. destruct I as (v & X & Iv). eauto.
    - intros (f & v & If & Iv & <-). exists f. split; [exact If|now apply in_map]. }
  destruct (apart V) as (g & G). set (E := filter (fun pq => if Rlt_dec (inner g (fst pq)) (inner g (snd pq)) then true else false) (flat_map round (bg_faces b))).
  assert (IE : forall p q, In (p, q) E <-> inner g p < inner g q /\ exists f, In f (shown b) /\ edge f p q).
  { intros p q. unfold E. rewrite filter_In, rounds_in. cbn [fst snd]. destruct (Rlt_dec (inner g p) (inner g q)); intuition congruence. }
  exists E. split; [exact A|]. split; [apply NoDup_filter, rounds_nodup|]. split.
  - intros p q I J. apply IE in I, J. lra.
  - intros p q. rewrite !IE.
    assert (Rev : forall p q, (exists f, In f (shown b) /\ edge f p q) -> exists f, In f (shown b) /\ edge f q p).
    { intros x y (f & If & Ed). unfold shown in If. apply filter_In in If. destruct If as (If & L). apply Nat.leb_le in L.
      destruct (edges_shared _ _ _ _ _ _ _ _ _ _ _ Eb An H Bd Dp f x y If L Ed) as (h & Ih & Lh & Eh). exists h. split; [|exact Eh]. unfold shown. apply filter_In. split; [exact Ih|now apply Nat.leb_le]. }
    split; [|intros [(_ & X)|(_ & X)]; [exact X|now apply Rev]]. intros X.
    destruct (Rtotal_order (inner g p) (inner g q)) as [L|[Eq|L]]; [left; auto| |right; auto].
    exfalso. destruct X as (f & If & Ed). unfold shown in If. apply filter_In in If. destruct If as (If & L). apply Nat.leb_le in L.
    assert (Ed' := Ed). apply edge_next in Ed'. destruct (next_in _ _ _ _ Ed') as (Ip & Iq). apply in_map_iff in Ip, Iq. destruct Ip as (u & Eu & Iu), Iq as (w & Ew & Iw).
    assert (p = q) as <- by (apply G; [apply A; eauto|apply A; eauto|exact Eq]). exact (not_both _ _ _ _ _ _ _ _ _ _ Eb An H f p p If L Ed Ed).
Qed.

(** *** Triangles *)
Theorem indices_euler : forall V, all_corners b V -> (index_count b + 12 = 6 * length V)%nat.
Proof.
  intros V A. pose proof (shown_total V A) as T.
  assert (E : (index_count b + 6 * length (shown b) = 3 * total (fun f => length (f_vertices f)) (shown b))%nat).
  { unfold index_count, shown. assert (Fi : forall f, In f (bg_faces b) -> length (f_indices f) = (3 * (length (f_vertices f) - 2))%nat) by (intros f If; destruct (Forall2_in_r _ _ _ _ _ _ built If) as (P & _ & Ef); apply (face_fan _ _ _ _ _ _ Ef)).
    revert Fi. generalize (bg_faces b). intros l. induction l as [|f l IH]; intros Fi; [reflexivity|]. cbn [fold_right filter]. specialize (IH (fun g I => Fi g (or_intror I))).
    pose proof (Fi f (or_introl eq_refl)) as L.
    destruct (3 <=? length (f_vertices f))%nat eqn:X; [|apply Nat.leb_gt in X; lia]. apply Nat.leb_le in X. cbn [length total fold_right]. fold (total (fun f : face R => length (f_vertices f)) (filter (fun f : face R => (3 <=? length (f_vertices f))%nat) l)). lia. }
  lia.
Qed.

(** *** Bounds *)
Lemma keep_once : forall P p q, In P keep -> next (pts P) p q -> next (pts P) q p -> False.
Proof.
  intros P p q I A B. destruct ready as (K1 & K2 & K3 & K4). destruct (proj1 (keep_in P) I) as (IP & L).
  destruct (third _ (pts P) (pts_nodup P IP) L v3_dec p q) as (c & Ic & Np & Nq).
  apply (cw_flip (facing P) p c q).
  - apply cw_turn. apply (next_side (facing P) (pts P) (K4 P I) q p c); auto.
  - apply (next_side (facing P) (pts P) (K4 P I) p q c); auto.
Qed.
Lemma next_some : forall A (l : list A) p, In p l -> exists q, next l p q.
Proof.
  intros A l p I. apply In_nth_error in I. destruct I as (i & Hi). assert (L : (i < length l)%nat) by (apply nth_error_Some; congruence).
  destruct (nth_error l (S i mod length l)) as [q|] eqn:E; [exists q, i; auto|]. apply nth_error_None in E. pose proof (Nat.mod_upper_bound (S i) (length l)). lia.
Qed.
Lemma three_faces : forall P v, In P keep -> In v (pts P) -> exists Q S, In Q keep /\ In S keep /\ In v (pts Q) /\ In v (pts S) /\ P <> Q /\ P <> S /\ Q <> S.
Proof.
  intros P v IP Iv. destruct ready as (K1 & K2 & K3 & K4).
  destruct (next_some _ _ _ Iv) as (q & Nq). destruct (edge_shared keep pts K1 K2 K3 K4 P v q IP (proj2 (proj1 (keep_in P) IP)) Nq) as (Q & IQ & NQ).
  destruct (next_in _ _ _ _ NQ) as (IqQ & IvQ). destruct (next_some _ _ _ IvQ) as (r & Nr'). destruct (edge_shared keep pts K1 K2 K3 K4 Q v r IQ (proj2 (proj1 (keep_in Q) IQ)) Nr') as (S & IS & NS).
  destruct (next_in _ _ _ _ NS) as (IrS & IvS).
  assert (PQ : P <> Q) by (intros <-; exact (keep_once P v q IP Nq NQ)).
  exists Q, S. repeat (split; [assumption|]). split; [|intros <-; exact (keep_once Q v r IQ Nr' NS)]. intros <-.
  destruct (v3_dec r q) as [->|N]; [exact (keep_once P v q IP Nq NS)|]. destruct (next_in _ _ _ _ Nr') as (_ & IrQ). destruct (next_in _ _ _ _ Nq) as (_ & IqP).
  assert (rv : r <> v) by (intros ->; exact (keep_once P v v IP NS NS)).
  apply PQ. apply once_keep; auto. pose proof (fun x => pts_solid keep pts K2 P x IP) as SP. pose proof (fun x => pts_solid keep pts K2 Q x IQ) as SQ.
  apply (three_same keep o P Q v q r); auto using deep_keep; try (now apply SP); try (now apply SQ). apply (next_side (facing P) (pts P) (K4 P IP)); auto.
Qed.
Theorem euler_bounds : forall V E, all_corners b V -> all_edges b E ->
  (4 <= length V)%nat /\ (length V + 4 <= 2 * length (shown b))%nat /\ (length E + 6 <= 3 * length (shown b))%nat /\ (length (shown b) + 4 <= 2 * length V)%nat.
Proof.
  intros V E A B. pose proof (euler_brush V E A B) as X. pose proof (edges_half E B) as Y. pose proof (shown_four _ _ _ _ _ _ _ _ _ _ _ Eb An H Bd Dp Nr) as Z.
  assert (L1 : (3 * length (shown b) <= total (fun f => length (f_vertices f)) (shown b))%nat).
  { rewrite <- (total_const _ (shown b) (fun _ => 3%nat) 3%nat) by reflexivity. apply total_le. intros f If. unfold shown in If. apply filter_In in If. now apply Nat.leb_le. }
  destruct (corners_keep V A) as (N & HV).
  assert (L2 : (3 * length V <= total (fun f => length (f_vertices f)) (shown b))%nat).
  { rewrite <- (keep_total (fun n => n)). set (m := fun P v => if in_dec v3_dec v (pts P) then true else false).
    rewrite (total_ext _ keep (fun P => length (pts P)) (fun P => length (filter (m P) V))).
    - rewrite count_twice, <- (total_const _ V (fun _ => 3%nat) 3%nat) by reflexivity. apply total_le. intros v Iv. apply HV in Iv. destruct Iv as (P & IP & Iv).
      destruct (three_faces P v IP Iv) as (Q & S & IQ & IS & IvQ & IvS & D1 & D2 & D3). change 3%nat with (length [P; Q; S]). apply NoDup_incl_length.
      + constructor; [intros [X1|[X1|[]]]; congruence|]. constructor; [intros [X1|[]]; congruence|]. constructor; [intros []|constructor].
      + intros U [<-|[<-|[<-|[]]]]; apply filter_In; (split; [assumption|]); unfold m; match goal with |- (if ?d then _ else _) = _ => destruct d end; congruence.
    - intros P IP. pose proof (proj1 (keep_in P) IP) as (IP' & _). apply same_length; [now apply pts_nodup|now apply NoDup_filter|]. intros x. rewrite filter_In. unfold m. split.
      + intros Ix. split; [apply HV; eauto|]. destruct (in_dec v3_dec x (pts P)); [reflexivity|contradiction].
      + intros (_ & Ix). destruct (in_dec v3_dec x (pts P)); [assumption|discriminate]. }
  lia.
Qed.
End Brush.
