(** Where the centres of faces and brushes lie, over the real numbers (C94). *)
From Coq Require Import Reals Lra Lia Permutation.
From Verif Require Import Prelude F32 Text MapModel GeoModel GeoSpec RealSpec WindSpec SolidSpec BaseProofs GeoProofs RealProofs WindProofs.
Local Open Scope R_scope.

Section Centre.
Context (parse : str -> option R) (cosine radians : R -> R) (atan2 : R -> R -> R)
  (quat : vec3 R -> R -> vec3 R -> vec3 R) (mat2 : R -> vec2 R -> vec2 R).
Local Notation O := (real_num parse cosine radians atan2 quat mat2).

Lemma length_pos : forall {A} (l : list A), l <> [] -> 0 < INR (length l).
Proof. intros A l L. apply lt_0_INR. destruct l; [congruence|cbn; lia]. Qed.

Lemma mean_le : forall F k l c, l <> [] -> is_mean O l c -> (forall x, In x l -> inner F x <= k) -> inner F c <= k.
Proof.
  intros F k l c L M H. pose proof (mean_total _ _ _ _ _ _ F l c L M) as T. pose proof (total_bound _ _ _ H) as B. pose proof (length_pos l L).
  apply Rmult_le_reg_l with (INR (length l)); [assumption|lra].
Qed.
Lemma mean_lt : forall F k l c y, is_mean O l c -> (forall x, In x l -> inner F x <= k) -> In y l -> inner F y < k -> inner F c < k.
Proof.
  intros F k l c y M H I Y. assert (L : l <> []) by (intros ->; destruct I). pose proof (mean_total _ _ _ _ _ _ F l c L M) as T.
  pose proof (total_strict _ _ _ y H I Y) as B. pose proof (length_pos l L). apply Rmult_lt_reg_l with (INR (length l)); [assumption|lra].
Qed.
Lemma mean_eq : forall F k l c, l <> [] -> is_mean O l c -> (forall x, In x l -> inner F x = k) -> inner F c = k.
Proof.
  intros F k l c L M H. apply Rle_antisym; [apply (mean_le F k l); auto; intros x I; rewrite (H x I); lra|].
  apply Ropp_le_cancel. assert (K : forall x, inner (V3 (- vx F) (- vy F) (- vz F)) x = - inner F x) by (intros x; unfold inner; cbn; ring).
  rewrite <- K. apply (mean_le _ (- k) l); auto. intros x I. rewrite K, (H x I). lra.
Qed.

Lemma face_mean : forall tx e planes plane f, build_face O tx e planes plane = Ok f ->
  exists l, is_mean O l (f_center f) /\ Permutation l (map vt_pos (f_vertices f)).
Proof. intros tx e planes plane f E. destruct (positions _ _ _ _ _ _ _ _ _ _ _ E) as (raw & _ & P & M & _). eauto. Qed.

Theorem face_centre : forall tx e planes plane f, build_face O tx e planes plane = Ok f -> f_vertices f <> [] ->
  on_plane plane (f_center f) /\ forall q, In q planes -> within (/ 1000) q (f_center f).
Proof.
  intros tx e planes plane f E N. destruct (face_mean _ _ _ _ _ E) as (l & M & P).
  assert (L : l <> []) by (intros ->; apply Permutation_nil in P; destruct (f_vertices f); [congruence|discriminate]).
  destruct (real_corners _ _ _ _ _ _ _ _ _ _ _ E) as (_ & C).
  assert (K : forall x, In x l -> on_plane plane x /\ forall q, In q planes -> within (/ 1000) q x).
  { intros x I. apply (Permutation_in _ P), C in I. destruct I as (p1 & p2 & _ & _ & _ & _ & _ & _ & A & _ & _ & W). auto. }
  split.
  - unfold on_plane. rewrite inner_minus. rewrite (mean_eq (facing plane) (inner (facing plane) (bp_v0 plane)) l); auto; [ring|].
    intros x I. destruct (K x I) as (A & _). unfold on_plane in A. rewrite inner_minus in A. lra.
  - intros q I. unfold within. rewrite inner_minus.
    pose proof (mean_le (facing q) (inner (facing q) (bp_v0 q) + / 1000 * norm (facing q)) l (f_center f) L M) as H.
    assert (inner (facing q) (f_center f) <= inner (facing q) (bp_v0 q) + / 1000 * norm (facing q)); [apply H|lra].
    intros x Ix. destruct (K x Ix) as (_ & W). specialize (W q I). unfold within in W. rewrite inner_minus in W. lra.
Qed.

Theorem empty_centre : forall tx e planes plane f, build_face O tx e planes plane = Ok f -> f_vertices f = [] -> f_center f = V3 0 0 0.
Proof.
  intros tx e planes plane f E N. destruct (face_mean _ _ _ _ _ E) as (l & (s & S & ->) & P). rewrite N in P. apply Permutation_sym, Permutation_nil in P. subst l.
  inversion S. subst. unfold v3_divs. cbn. unfold Rdiv. apply v3_ext; cbn; ring.
Qed.

Lemma brush_mean : forall tx e planes b, build_brush O tx e planes = Ok b ->
  is_mean O (map f_center (bg_faces b)) (bg_center b) /\ Forall2 (fun pl f => build_face O tx e planes pl = Ok f) planes (bg_faces b).
Proof.
  intros tx e planes b E. unfold build_brush in E. apply bind_ok in E. destruct E as (fs & Ef & E). injection E as <-. cbn [bg_faces bg_center].
  apply mapM_ok in Ef. split; [apply mean_is|exact Ef].
Qed.
Lemma Forall2_right : forall {A B} (P : A -> B -> Prop) l m b, Forall2 P l m -> In b m -> exists a, In a l /\ P a b.
Proof.
  intros A B P l m b H. induction H as [|a b' l m H F IH]; intros I; [destruct I|]. destruct I as [<-|I]; [exists a; split; [now left|exact H]|].
  destruct (IH I) as (a' & Ia & Ha). exists a'. split; [now right|exact Ha].
Qed.

(** With a corner on every face, the centre is within the tolerance. *)
Theorem brush_centre : forall tx e planes b, build_brush O tx e planes = Ok b -> planes <> [] -> (forall f, In f (bg_faces b) -> f_vertices f <> []) ->
  forall q, In q planes -> within (/ 1000) q (bg_center b).
Proof.
  intros tx e planes b E N C q Q. destruct (brush_mean _ _ _ _ E) as (M & F).
  unfold within. rewrite inner_minus.
  assert (inner (facing q) (bg_center b) <= inner (facing q) (bp_v0 q) + / 1000 * norm (facing q)); [|lra].
  apply (mean_le _ _ (map f_center (bg_faces b))); [|exact M|].
  - inversion F; [congruence|discriminate].
  - intros x I. apply in_map_iff in I. destruct I as (f & <- & I). destruct (Forall2_right _ _ _ _ F I) as (pl & _ & B).
    destruct (face_centre _ _ _ _ _ B (C f I)) as (_ & W). specialize (W q Q). unfold within in W. rewrite inner_minus in W. lra.
Qed.

(** Without tolerance, and strictly behind each plane that misses a corner. *)
Theorem brush_centre_strict : forall tx e planes b q f v, build_brush O tx e planes = Ok b ->
  (forall f, In f (bg_faces b) -> f_vertices f <> [] /\ crisp planes f) ->
  In q planes -> In f (bg_faces b) -> In v (f_vertices f) -> ~ on_plane q (vt_pos v) ->
  inner (facing q) (minus (bg_center b) (bp_v0 q)) < 0.
Proof.
  intros tx e planes b q f v E C Q If Iv OFF. destruct (brush_mean _ _ _ _ E) as (M & F). rewrite inner_minus.
  assert (B : forall g, In g (bg_faces b) -> exists l, is_mean O l (f_center g) /\ Permutation l (map vt_pos (f_vertices g)) /\ l <> []
    /\ forall x, In x l -> inner (facing q) x <= inner (facing q) (bp_v0 q)).
  { intros g I. destruct (Forall2_right _ _ _ _ F I) as (pl & _ & B). destruct (face_mean _ _ _ _ _ B) as (l & ML & P). exists l. split; [exact ML|]. split; [exact P|].
    destruct (C g I) as (NE & CR). split; [intros ->; apply Permutation_nil in P; destruct (f_vertices g); [congruence|discriminate]|].
    intros x Ix. apply (Permutation_in _ P) in Ix. apply in_map_iff in Ix. destruct Ix as (w & <- & Iw). specialize (CR w q Iw Q). unfold within in CR. rewrite inner_minus in CR. lra. }
  assert (inner (facing q) (bg_center b) < inner (facing q) (bp_v0 q)); [|lra].
  apply (mean_lt _ _ (map f_center (bg_faces b)) _ (f_center f)); [exact M| |now apply in_map|].
  - intros x I. apply in_map_iff in I. destruct I as (g & <- & I). destruct (B g I) as (l & ML & _ & NE & L). apply (mean_le _ _ l); assumption.
  - destruct (B f If) as (l & ML & P & _ & L). apply (mean_lt _ _ l _ (vt_pos v)); try assumption.
    + apply (Permutation_in _ (Permutation_sym P)). now apply in_map.
    + assert (I : In (vt_pos v) l) by (apply (Permutation_in _ (Permutation_sym P)); now apply in_map). specialize (L _ I).
      unfold on_plane in OFF. rewrite inner_minus in OFF. lra.
Qed.

(** Entities without origin: a weighted mean of the brushes' centres. *)
Lemma sum_weighted : forall k l s r, 0 <= k -> sum_from O s l r ->
  weighted l (INR (length l) * k) (V3 (k * (vx r - vx s)) (k * (vy r - vy s)) (k * (vz r - vz s))).
Proof.
  intros k l s r K H. induction H as [s|s x l r H IH].
  - cbn [length INR]. replace (0 * k) with 0 by ring. replace (V3 _ _ _) with (V3 0 0 0); [constructor|]. f_equal; ring.
  - cbn [length]. rewrite S_INR. replace ((INR (length l) + 1) * k) with (k + INR (length l) * k) by ring.
    replace (V3 (k * (vx r - vx s)) (k * (vy r - vy s)) (k * (vz r - vz s))) with
      (let y := V3 (k * (vx r - vx (v3_add O s x))) (k * (vy r - vy (v3_add O s x))) (k * (vz r - vz (v3_add O s x))) in V3 (k * vx x + vx y) (k * vy x + vy y) (k * vz x + vz y)).
    + cbn zeta. constructor; assumption.
    + cbn. f_equal; ring.
Qed.
Theorem mean_hull : forall l c, l <> [] -> is_mean O l c -> in_hull l c.
Proof.
  intros l c L (s & S & ->). pose proof (length_pos l L) as P.
  assert (K : 0 <= / INR (length l)) by (apply Rlt_le, Rinv_0_lt_compat; exact P).
  pose proof (sum_weighted (/ INR (length l)) _ _ _ K S) as W. unfold in_hull. rewrite Rinv_r in W by lra.
  replace (Nat.max (length l) 1) with (length l) by (destruct l; [congruence|cbn; lia]).
  assert (E : n_of_N O (N.of_nat (length l)) = INR (length l)) by (cbn; rewrite nat_N_Z, INR_IZR_INZ; reflexivity).
  unfold v3_divs. rewrite E. cbn [n_div real_num vx vy vz n_zero] in *. 
  replace (V3 (vx s / _) _ _) with (V3 (/ INR (length l) * (vx s - 0)) (/ INR (length l) * (vy s - 0)) (/ INR (length l) * (vz s - 0))); [exact W|].
  f_equal; unfold Rdiv; ring.
Qed.
Theorem entity_centre : forall tx e g, build_entity_geo O tx e = Ok g -> hget (e_props e) (lit "origin") = None -> e_brushes e <> [] ->
  in_hull (map bg_center (eg_brushes g)) (eg_center g).
Proof.
  intros tx e g E H N. unfold build_entity_geo in E. apply bind_ok in E. destruct E as (bs & Eb & E). rewrite H in E. injection E as <-. cbn [eg_brushes eg_center].
  apply mean_hull; [|apply mean_is]. apply mapM_ok in Eb. inversion Eb; [congruence|discriminate].
Qed.
End Centre.
