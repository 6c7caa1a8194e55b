(** Brushes are closed: proofs of C124. *)
From Coq Require Import Reals Lra Psatz Lia Permutation.
From Verif Require Import Prelude F32 Text MapModel GeoModel GeoSpec RealSpec WindSpec SolidSpec EdgeSpec
  BaseProofs GeoProofs RealProofs WindProofs SolidProofs TouchProofs EdgeProofs.
Local Open Scope R_scope.

Local Notation zero := (V3 0 0 0).
Lemma sum_app : forall A (g : A -> vec3 R) l l', sum_vectors g (l ++ l') = plus (sum_vectors g l) (sum_vectors g l').
Proof.
  intros A g l l'. induction l as [|a l IH].
  - cbn [app]. unfold plus. cbn [sum_vectors fold_right vx vy vz]. fold (sum_vectors g l'). destruct (sum_vectors g l') as [x y z]. cbn [vx vy vz]. f_equal; ring.
  - cbn [app sum_vectors fold_right]. fold (sum_vectors g (l ++ l')) (sum_vectors g l). rewrite IH. unfold plus. cbn [vx vy vz]. f_equal; ring.
Qed.
Lemma sum_perm : forall A (g : A -> vec3 R) l l', Permutation l l' -> sum_vectors g l = sum_vectors g l'.
Proof.
  intros A g l l' H. induction H as [|x l l' H IH|x y l|l l' l'' H IH H' IH']; [reflexivity| | |congruence].
  - cbn [sum_vectors fold_right]. fold (sum_vectors g l) (sum_vectors g l'). now rewrite IH.
  - cbn [sum_vectors fold_right vx vy vz]. f_equal; ring.
Qed.
Lemma sum_map : forall A B (g : B -> vec3 R) (h : A -> B) l, sum_vectors g (map h l) = sum_vectors (fun x => g (h x)) l.
Proof. intros A B g h l. induction l as [|a l IH]; [reflexivity|]. cbn [map sum_vectors fold_right]. fold (sum_vectors g (map h l)). now rewrite IH. Qed.

(** ** A cycle of points *)
Fixpoint walk (l : list (vec3 R)) : list (vec3 R * vec3 R) :=
  match l with a :: (b :: _) as r => (a, b) :: walk r | _ => [] end.
Definition cycle (l : list (vec3 R)) : list (vec3 R * vec3 R) := match l with [] => [] | a :: r => walk (l ++ [a]) end.
Lemma walk_nth : forall l p q, In (p, q) (walk l) <-> exists i, nth_error l i = Some p /\ nth_error l (S i) = Some q.
Proof.
  induction l as [|a [|b l] IH]; intros p q.
  - split; [intros []|intros ([|i] & H & _); discriminate].
  - split; [intros []|intros ([|[|i]] & _ & H); discriminate].
  - cbn [walk In]. change (match l with [] => [] | _ :: _ => _ end) with (walk (b :: l)). rewrite (IH p q). split.
    + intros [E|(i & H)]; [injection E as <- <-; now exists 0%nat|now exists (S i)].
    + intros ([|i] & H & H'); [left; cbn in H, H'; congruence|right; now exists i].
Qed.
Lemma cycle_next : forall l p q, In (p, q) (cycle l) <-> next l p q.
Proof.
  intros [|a l] p q.
  - split; [intros []|intros ([|i] & H & _); discriminate].
  - unfold cycle. rewrite walk_nth. unfold next. split; intros (i & H & H'); exists i.
    + assert (L : (S i < length ((a :: l) ++ [a]))%nat) by (apply nth_error_Some; congruence). rewrite app_length in L. cbn [length] in L.
      rewrite nth_error_app1 in H by (cbn [length]; lia). split; [exact H|]. destruct (Si_mod _ _ _ _ H) as [(L' & ->)|(L' & ->)].
      * rewrite nth_error_app1 in H' by exact L'. exact H'.
      * rewrite nth_error_app2 in H' by lia. rewrite L', Nat.sub_diag in H'. exact H'.
    + assert (L : (i < length (a :: l))%nat) by (apply nth_error_Some; congruence). rewrite nth_error_app1 by exact L. split; [exact H|].
      destruct (Si_mod _ _ _ _ H) as [(L' & E)|(L' & E)]; rewrite E in H'.
      * now rewrite nth_error_app1.
      * rewrite nth_error_app2 by lia. now rewrite L', Nat.sub_diag.
Qed.
Lemma walk_NoDup : forall l, NoDup (map fst (walk l)) -> NoDup (walk l).
Proof. intros l. generalize (walk l). intros w H. now apply NoDup_map_inv in H. Qed.
Lemma walk_fst : forall l a, map fst (walk (l ++ [a])) = l.
Proof. induction l as [|b [|c l] IH]; intros a; [reflexivity..|]. cbn [app walk map fst]. f_equal. apply IH. Qed.
Lemma cycle_NoDup : forall l, NoDup l -> NoDup (cycle l).
Proof. intros [|a l] H; [constructor|]. apply walk_NoDup. change (map fst (walk ((a :: l) ++ [a]))) with (map fst (walk ((a :: l) ++ [a]))). rewrite walk_fst. exact H. Qed.

(** A fan of triangles. *)
Fixpoint fans (o : vec3 R) (l : list (vec3 R)) : list (vec3 R * vec3 R * vec3 R) :=
  match l with a :: (b :: _) as r => (o, a, b) :: fans o r | _ => [] end.
Definition product (pq : vec3 R * vec3 R) : vec3 R := outer (fst pq) (snd pq).
Lemma fans_walk : forall o l a, sum_vectors area_vector (fans o (a :: l)) = plus (outer o a) (sum_vectors product (walk (a :: l ++ [o]))).
Proof.
  intros o l. induction l as [|b l IH]; intros a.
  - cbn [fans walk app sum_vectors fold_right]. unfold plus, product, outer. cbn [fst snd vx vy vz]. f_equal; ring.
  - change (fans o (a :: b :: l)) with ((o, a, b) :: fans o (b :: l)). cbn [sum_vectors fold_right]. fold (sum_vectors area_vector (fans o (b :: l))). rewrite IH.
    cbn [app]. change (walk (a :: b :: l ++ [o])) with ((a, b) :: walk (b :: l ++ [o])). cbn [sum_vectors fold_right]. fold (sum_vectors product (walk (b :: l ++ [o]))).
    generalize (sum_vectors product (walk (b :: l ++ [o]))). intros s. unfold area_vector, product, plus, outer, minus. cbn [fst snd vx vy vz]. f_equal; ring.
Qed.
Lemma fans_cycle : forall o l, sum_vectors area_vector (fans o l) = sum_vectors product (cycle (o :: l)).
Proof.
  intros o [|a l].
  - cbn [fans cycle walk app sum_vectors fold_right]. unfold product, outer. cbn [fst snd vx vy vz]. f_equal; ring.
  - rewrite fans_walk. unfold cycle. cbn [app]. change (walk (o :: a :: l ++ [o])) with ((o, a) :: walk (a :: l ++ [o])). reflexivity.
Qed.

Section Faces.
Context (parse : str -> option R) (cosine radians : R -> R) (atan2 : R -> R -> R)
  (quat : vec3 R -> R -> vec3 R -> vec3 R) (mat2 : R -> vec2 R -> vec2 R).
Local Notation O := (real_num parse cosine radians atan2 quat mat2).
Definition points (f : face R) : list (vec3 R) := map vt_pos (f_vertices f).
Definition face_triangles (f : face R) : list (vec3 R * vec3 R * vec3 R) := map (fun '(i, j, k) => (place f i, place f j, place f k)) (triples (f_indices f)).
Lemma triples_fan : forall s n, triples (flat_map (fun i => [0%nat; (i + 1)%nat; (i + 2)%nat]) (seq s n)) = map (fun i => (0%nat, (i + 1)%nat, (i + 2)%nat)) (seq s n).
Proof. intros s n. revert s. induction n as [|n IH]; intros s; [reflexivity|]. cbn [seq flat_map app triples map]. now rewrite IH. Qed.
Lemma place_points : forall f i p, nth_error (points f) i = Some p -> place f i = p.
Proof. intros f i p. unfold points, place. rewrite nth_error_map. destruct (nth_error (f_vertices f) i); [|discriminate]. intros E. now injection E. Qed.
Lemma triangles_fan : forall tx e planes plane f, build_face O tx e planes plane = Ok f ->
  face_triangles f = match points f with o :: l => if (length (points f) <? 3)%nat then [] else fans o l | [] => [] end.
Proof.
  intros tx e planes plane f E. destruct (face_inv _ _ _ _ _ _ E) as (_ & _ & _ & _ & _ & _ & Ei & _).
  assert (Ln : length (points f) = length (f_vertices f)) by apply map_length. unfold face_triangles. rewrite Ei, Ln. unfold fan.
  destruct (points f) as [|o l] eqn:Ep; [cbn [length] in Ln; now rewrite <- Ln|].
  destruct (length (f_vertices f) <? 3)%nat eqn:L; [reflexivity|]. apply Nat.ltb_ge in L. rewrite triples_fan, map_map.
  assert (P0 : place f 0 = o) by (apply place_points; now rewrite Ep).
  assert (G : forall l s n, n = (length l - 1)%nat -> (forall i p, nth_error l i = Some p -> place f (S (s + i)) = p) ->
    map (fun i => (place f 0, place f (i + 1), place f (i + 2))) (seq s n) = fans o l).
  { clear - P0. induction l as [|a [|b l] IH]; intros s n -> H; [reflexivity..|]. cbn [length Nat.sub seq map fans]. f_equal.
    - rewrite P0. f_equal; [f_equal|].
      + rewrite <- (H 0%nat a eq_refl). f_equal. lia.
      + rewrite <- (H 1%nat b eq_refl). f_equal. lia.
    - apply IH; [cbn [length]; lia|]. intros i p Hi. rewrite <- (H (S i) p Hi). f_equal. lia. }
  apply G.
  - rewrite <- Ln. cbn [length]. lia.
  - intros i p Hi. apply place_points. rewrite Ep. exact Hi.
Qed.
Lemma area_cycle : forall tx e planes plane f, build_face O tx e planes plane = Ok f ->
  sum_vectors area_vector (face_triangles f) = sum_vectors product (if (length (points f) <? 3)%nat then [] else cycle (points f)).
Proof.
  intros tx e planes plane f E. rewrite (triangles_fan _ _ _ _ _ E). destruct (points f) as [|o l]; [reflexivity|]. destruct (length (o :: l) <? 3)%nat; [reflexivity|]. apply fans_cycle.
Qed.

Context (tx : texture_info) (e : entity R) (planes : list (brush_plane R)) (b : brush_geo R) (o : vec3 R).
Context (Eb : build_brush O tx e planes = Ok b) (An : polar_angle atan2)
  (H : forall plane f, In plane planes -> In f (bg_faces b) -> build_face O tx e planes plane = Ok f -> proper plane /\ crisp planes f /\ sharp planes plane)
  (Bd : bounded (solid planes)) (Dp : deep planes o).
Definition round (f : face R) : list (vec3 R * vec3 R) := if (length (points f) <? 3)%nat then [] else cycle (points f).
Definition swap (pq : vec3 R * vec3 R) : vec3 R * vec3 R := (snd pq, fst pq).
Lemma round_edge : forall f p q, In (p, q) (round f) <-> (3 <= length (f_vertices f))%nat /\ edge f p q.
Proof.
  intros f p q. unfold round. unfold points at 1. rewrite map_length. destruct (length (f_vertices f) <? 3)%nat eqn:L.
  - apply Nat.ltb_lt in L. cbn [In]. split; [intros []|lia].
  - apply Nat.ltb_ge in L. rewrite cycle_next, edge_next. tauto.
Qed.
Lemma sum_flat : forall A B (g : B -> vec3 R) (h : A -> list B) l, sum_vectors g (flat_map h l) = sum_vectors (fun x => sum_vectors g (h x)) l.
Proof. intros A B g h l. induction l as [|a l IH]; [reflexivity|]. cbn [flat_map]. rewrite sum_app, IH. reflexivity. Qed.
Lemma rounds_swap : no_repeats planes -> Permutation (flat_map round (bg_faces b)) (map swap (flat_map round (bg_faces b))).
Proof.
  intros Nr.
  assert (Fb : forall f, In f (bg_faces b) -> exists P, In P planes /\ build_face O tx e planes P = Ok f).
  { intros f I. destruct (Forall2_in_r _ _ _ _ _ _ (faces_of _ _ _ _ _ _ _ _ _ _ Eb H) I) as (P & IP & E). eauto. }
  set (L := flat_map round (bg_faces b)).
  assert (In_L : forall p q, In (p, q) L <-> exists f, In f (bg_faces b) /\ (3 <= length (f_vertices f))%nat /\ edge f p q).
  { intros p q. unfold L. rewrite in_flat_map. split; intros (f & I & X); exists f; (split; [exact I|]); now apply round_edge. }
  assert (Sh : forall x, In x L -> In (swap x) L).
  { intros [p q] I. apply In_L in I. destruct I as (f & I & Lf & Ed). apply In_L. exact (edges_shared _ _ _ _ _ _ _ _ _ _ o Eb An H Bd Dp f p q I Lf Ed). }
  assert (ND : NoDup L).
  { assert (Un : forall i j f g p q, nth_error (bg_faces b) i = Some f -> nth_error (bg_faces b) j = Some g -> In (p, q) (round f) -> In (p, q) (round g) -> i = j).
    { intros i j f g p q Hi Hj X Y. apply round_edge in X, Y. destruct X as (X1 & X2), Y as (Y1 & Y2). exact (edges_once _ _ _ _ _ _ _ _ _ _ o Eb An H Bd Dp Nr i j f g p q Hi Hj X1 Y1 X2 Y2). }
    assert (Nf : forall f, In f (bg_faces b) -> NoDup (round f)).
    { intros f I. destruct (Fb f I) as (P & _ & E). unfold round. destruct (length (points f) <? 3)%nat; [constructor|]. apply cycle_NoDup. apply (real_corners _ _ _ _ _ _ _ _ _ _ _ E). }
    unfold L. clear - Un Nf. induction (bg_faces b) as [|f l IH]; [constructor|]. cbn [flat_map].
    assert (A : forall l l' : list (vec3 R * vec3 R), NoDup l -> NoDup l' -> (forall x, In x l -> ~ In x l') -> NoDup (l ++ l')).
    { clear. induction l as [|x l IH]; intros l' X Y Z; [exact Y|]. inversion_clear X. cbn [app]. constructor; [|apply IH; auto; intros y I; apply Z; now right].
      rewrite in_app_iff. intros [I|I]; [contradiction|]. apply (Z x (or_introl eq_refl) I). }
    apply A.
    - apply Nf. now left.
    - apply IH; [|intros g I; apply Nf; now right]. intros i j f' g p q Hi Hj X Y. specialize (Un (S i) (S j) f' g p q Hi Hj X Y). lia.
    - intros [p q] I I'. apply in_flat_map in I'. destruct I' as (g & Ig & I'). apply In_nth_error in Ig. destruct Ig as (j & Hj).
      specialize (Un 0%nat (S j) f g p q eq_refl Hj I I'). lia. }
  fold L.
  apply NoDup_Permutation; [exact ND| |].
    - apply FinFun.Injective_map_NoDup; [|exact ND]. intros [p q] [p' q'] X. unfold swap in X. cbn [fst snd] in X. congruence.
    - intros x. split; intros I.
      + apply in_map_iff. exists (swap x). split; [destruct x; reflexivity|now apply Sh].
      + apply in_map_iff in I. destruct I as (y & <- & I). now apply Sh.
Qed.
Theorem areas_cancel : no_repeats planes -> sum_vectors area_vector (all_triangles (bg_faces b)) = V3 0 0 0.
Proof.
  intros Nr. unfold all_triangles. rewrite sum_flat. fold face_triangles.
  assert (Fb : forall f, In f (bg_faces b) -> exists P, In P planes /\ build_face O tx e planes P = Ok f).
  { intros f I. destruct (Forall2_in_r _ _ _ _ _ _ (faces_of _ _ _ _ _ _ _ _ _ _ Eb H) I) as (P & IP & E). eauto. }
  assert (E1 : sum_vectors (fun f => sum_vectors area_vector (face_triangles f)) (bg_faces b) = sum_vectors product (flat_map round (bg_faces b))).
  { rewrite sum_flat. clear - Fb. induction (bg_faces b) as [|f l IH]; [reflexivity|]. cbn [sum_vectors fold_right].
    fold (sum_vectors (fun f => sum_vectors area_vector (face_triangles f)) l) (sum_vectors (fun f => sum_vectors product (round f)) l).
    rewrite IH by (intros g I; apply Fb; now right). destruct (Fb f (or_introl eq_refl)) as (P & _ & E). now rewrite (area_cycle _ _ _ _ _ E). }
  change (sum_vectors (fun f => sum_vectors area_vector (face_triangles f)) (bg_faces b) = V3 0 0 0). rewrite E1. clear E1.
  pose proof (rounds_swap Nr) as Pm. set (L := flat_map round (bg_faces b)) in *.
  pose proof (sum_perm _ product _ _ Pm) as E. rewrite sum_map in E.
  assert (Neg : sum_vectors (fun x => product (swap x)) L = scaled (-1) (sum_vectors product L)).
  { clear. induction L as [|[p q] L IH]; [unfold scaled; cbn; f_equal; ring|]. cbn [sum_vectors fold_right]. fold (sum_vectors (fun x => product (swap x)) L) (sum_vectors product L). rewrite IH.
    unfold product, swap, scaled, outer. cbn [fst snd vx vy vz]. f_equal; ring. }
  rewrite Neg in E. pose proof (f_equal vx E) as X. pose proof (f_equal vy E) as Y. pose proof (f_equal vz E) as Z. unfold scaled in X, Y, Z. cbn [vx vy vz] in X, Y, Z.
  destruct (sum_vectors product L) as [x y z]. cbn [vx vy vz] in *. f_equal; lra.
Qed.

Theorem volume_positive : no_repeats planes -> exists v, 0 < v /\ forall c, sum_numbers (six_volumes c) (all_triangles (bg_faces b)) = 6 * v.
Proof.
  intros Nr. pose proof (areas_cancel Nr) as Z. set (T := all_triangles (bg_faces b)) in *.
  assert (Same : forall c, sum_numbers (six_volumes c) T = sum_numbers (six_volumes o) T).
  { assert (G : forall c l, sum_numbers (six_volumes c) l = sum_numbers (six_volumes o) l + inner (minus c o) (sum_vectors area_vector l)).
    { clear. intros c l. induction l as [|[[p q] r] l IH]; [unfold inner, sum_numbers; cbn; ring|]. cbn [sum_numbers sum_vectors fold_right].
      fold (sum_numbers (six_volumes c) l) (sum_numbers (six_volumes o) l) (sum_vectors area_vector l). rewrite IH. generalize (sum_vectors area_vector l) (sum_numbers (six_volumes o) l).
      intros s n. unfold six_volumes, area_vector. vectors. ring. }
    intros c. rewrite G, Z. vectors. ring. }
  assert (Pos : forall t, In t T -> 0 < six_volumes o t).
  { intros [[p q] r] I. unfold T, all_triangles in I. apply in_flat_map in I. destruct I as (f & If & I).
    destruct (Forall2_in_r _ _ _ _ _ _ (faces_of _ _ _ _ _ _ _ _ _ _ Eb H) If) as (P & IP & E). destruct (H P f IP If E) as (Pr & K & _).
    assert (Tr : exists i, triangle f i p q r).
    { fold (face_triangles f) in I. rewrite (triangles_fan _ _ _ _ _ E) in I. destruct (points f) as [|a l] eqn:Ep; [destruct I|]. destruct (length (a :: l) <? 3)%nat; [destruct I|].
      assert (G : forall l, In (p, q, r) (fans a l) -> p = a /\ exists i, nth_error l i = Some q /\ nth_error l (S i) = Some r).
      { clear. induction l as [|x [|y l] IH]; intros I; [destruct I..|]. cbn [fans] in I. destruct I as [I|I]; [injection I as <- <- <-; split; [reflexivity|now exists 0%nat]|].
        destruct (IH I) as (-> & i & A). split; [reflexivity|now exists (S i)]. }
      destruct (G l I) as (-> & i & A & B). exists i. apply (triangle_iff _ _ _ _ _ _ _ _ _ _ _ E). fold (points f). rewrite Ep, !Nat.add_succ_r, Nat.add_0_r. auto. }
    destruct Tr as (i & Tr). pose proof (triangles_clockwise _ _ _ _ _ _ _ _ _ _ _ E K An _ _ _ _ Tr) as C.
    assert (On : on_plane P p /\ on_plane P q /\ on_plane P r).
    { apply (triangle_iff _ _ _ _ _ _ _ _ _ _ _ E) in Tr. destruct Tr as (A & B & D). apply nth_error_In in A, B, D.
      assert (Gp : forall x, In x (map vt_pos (f_vertices f)) -> on_plane P x) by (intros x Ix; destruct (corner_of _ _ _ _ _ _ _ _ _ _ _ E x Ix) as (_ & _ & _ & _ & _ & _ & Ox & _); exact Ox).
      auto. }
    destruct On as (Op & Oq & Or). pose proof (on_both P p q Op Oq) as D1. pose proof (on_both P p r Op Or) as D2.
    pose proof (Dp P IP) as Do. unfold on_plane in Op. unfold clockwise in C.
    assert (Dq : inner (facing P) (minus o p) < 0).
    { replace (inner (facing P) (minus o p)) with (inner (facing P) (minus o (bp_v0 P)) - inner (facing P) (minus p (bp_v0 P))) by (generalize (facing P); intros; vectors; ring). lra. }
    clear - C D1 D2 Dq. revert C D1 D2 Dq. generalize (facing P). intros F C D1 D2 Dq.
    (* the triangle's normal is along the plane's *)
    set (u := minus q p) in *. set (w := minus r p) in *. set (n := outer u w).
    assert (Al : scaled (inner F F) n = scaled (inner F n) F).
    { pose proof (triple_outer F F n) as T1. assert (Z1 : outer F n = V3 0 0 0). { unfold n. rewrite triple_outer, D2, D1. unfold scaled, minus. cbn [vx vy vz]. f_equal; ring. }
      rewrite Z1, outer_null in T1. pose proof (f_equal vx T1) as X. pose proof (f_equal vy T1) as Y. pose proof (f_equal vz T1) as W. unfold scaled, minus in *. cbn [vx vy vz] in *. f_equal; lra. }
    assert (NF : F <> V3 0 0 0) by (intros ->; revert Dq; vectors; lra). pose proof (inner_pos F NF) as PF.
    assert (V : inner F F * six_volumes o (p, q, r) = inner F n * inner F (minus o p)).
    { transitivity (inner (scaled (inner F F) n) (minus o p)); [|rewrite Al; vectors; ring]. unfold six_volumes, n, u, w. vectors. ring. }
    assert (0 < inner F n * inner F (minus o p)) by (unfold n; nra). nra. }
  assert (Some : exists t, In t T).
  { destruct T as [|t T'] eqn:ET; [exfalso|exists t; now left].
    assert (Kn : filter (fun P => (3 <=? length (match build_face O tx e planes P with Ok f => map vt_pos (f_vertices f) | _ => [] end))%nat) planes = []).
    { destruct (filter _ planes) as [|P l] eqn:Ef; [reflexivity|exfalso]. assert (I : In P (P :: l)) by now left. rewrite <- Ef in I. apply filter_In in I. destruct I as (IP & L).
      destruct (Forall2_in_l _ _ _ _ _ _ (faces_of _ _ _ _ _ _ _ _ _ _ Eb H) IP) as (f & If & E). rewrite E in L. apply Nat.leb_le in L.
      assert (N : face_triangles f <> []).
      { rewrite (triangles_fan _ _ _ _ _ E). fold (points f) in L. destruct (points f) as [|a [|c [|d l']]]; cbn [length] in *; try lia. discriminate. }
      apply N. unfold T, all_triangles in ET. fold face_triangles in ET. destruct (face_triangles f) as [|t l'] eqn:Et; [reflexivity|].
      assert (It : In t (flat_map face_triangles (bg_faces b))) by (apply in_flat_map; exists f; rewrite Et; split; [exact If|now left]).
      change (In t (flat_map face_triangles (bg_faces b))) in It. change (flat_map face_triangles (bg_faces b) = []) in ET. rewrite ET in It. destruct It. }
    apply (no_ray (solid planes) o (V3 1 0 0) Bd); [intros X; injection X; lra|].
    intros t _. apply (solid_keep _ _ _ _ _ _ tx e planes b o Eb H Bd Dp). rewrite Kn. intros q []. }
  exists (sum_numbers (six_volumes o) T / 6). split; [|intros c; rewrite Same; field].
  assert (0 < sum_numbers (six_volumes o) T); [|lra]. destruct Some as (t & It). clear - Pos It.
  assert (G : forall l, (forall t, In t l -> 0 < six_volumes o t) -> 0 <= sum_numbers (six_volumes o) l /\ (l <> [] -> 0 < sum_numbers (six_volumes o) l)).
  { induction l as [|x l IH]; intros P; [unfold sum_numbers; cbn; split; [lra|congruence]|]. destruct (IH (fun y I => P y (or_intror I))) as (A & _). pose proof (P x (or_introl eq_refl)).
    cbn [sum_numbers fold_right]. fold (sum_numbers (six_volumes o) l). split; [lra|intros _; lra]. }
  apply (G T Pos). destruct T; [destruct It|discriminate].
Qed.
End Faces.
