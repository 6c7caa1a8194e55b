(** Geometry over binary32: the order of angles, entities, totality (C17, C19, C21). *)
From Coq Require Import SpecFloat Sorted Permutation.
From Verif Require Import Prelude F32 Text MapModel GeoModel GatherSpec GeoSpec BaseProofs GatherProofs GeoProofs.

(** ** The order of binary32 without NaN *)
Definition rank (x : f32) : Z * Z * Z :=
  match x with
  | S754_infinity true => (0, 0, 0)
  | S754_finite true m e => (1, - e, - Z.pos m)
  | S754_zero _ => (2, 0, 0)
  | S754_finite false m e => (3, e, Z.pos m)
  | S754_infinity false => (4, 0, 0)
  | S754_nan => (5, 0, 0)
  end%Z.
Definition lex (a b : Z * Z * Z) : comparison :=
  let '(a1, a2, a3) := a in let '(b1, b2, b3) := b in
  match (a1 ?= b1)%Z with Eq => match (a2 ?= b2)%Z with Eq => (a3 ?= b3)%Z | c => c end | c => c end.

Lemma cmp_rank : forall a b, a <> S754_nan -> b <> S754_nan -> f32_cmp a b = Some (lex (rank a) (rank b)).
Proof.
  intros a b Ha Hb. destruct a as [s|s| |s m e], b as [s'|s'| |s' m' e']; try congruence;
    try destruct s; try destruct s'; try reflexivity; unfold f32_cmp, SFcompare, lex, rank.
  - change (1 ?= 1)%Z with Eq. cbv iota.
    rewrite Z.compare_opp, (Z.compare_antisym e e'). destruct (Z.compare_spec e e'); try reflexivity.
Qed.

Lemma f32_order : forall p, order_laws (f32_num p) (fun x => x <> S754_nan).
Proof.
  intros p. assert (N : forall a b, not_above (f32_num p) a b \/ greater (f32_num p) a b -> a <> S754_nan /\ b <> S754_nan).
  { intros a b [[H|H]|H]; unfold greater in H; simpl in H; unfold f32_cmp in H;
      (split; [intros ->; discriminate|intros ->; destruct a as [[]|[]| |[]]; discriminate]). }
  assert (Tr : forall a b, a <> S754_nan -> b <> S754_nan -> (not_above (f32_num p) a b <-> lex (rank a) (rank b) <> Gt)).
  { intros a b Ha Hb. unfold not_above. simpl. rewrite (cmp_rank a b Ha Hb). destruct (lex _ _); split; intros H; try discriminate; auto.
    - destruct H; discriminate.
    - congruence. }
  split.
  - intros a b Ha Hb. rewrite (Tr a b Ha Hb). unfold greater. simpl. rewrite (cmp_rank a b Ha Hb).
    destruct (lex _ _); [left|left|right]; congruence.
  - intros a b G. destruct (N a b) as [Ha Hb]; [auto|]. apply Tr; auto. unfold greater in G. simpl in G.
    rewrite (cmp_rank a b Ha Hb) in G. injection G as G. destruct (rank a) as [[a1 a2] a3], (rank b) as [[b1 b2] b3]. unfold lex in *.
    destruct (Z.compare_spec a1 b1), (Z.compare_spec b1 a1), (Z.compare_spec a2 b2), (Z.compare_spec b2 a2),
      (Z.compare_spec a3 b3), (Z.compare_spec b3 a3); try discriminate; lia.
  - intros a b c H1 H2. destruct (N a b) as [Ha Hb]; [auto|]. destruct (N b c) as [_ Hc]; [auto|].
    rewrite Tr in * by assumption.
    destruct (rank a) as [[a1 a2] a3], (rank b) as [[b1 b2] b3], (rank c) as [[c1 c2] c3]. unfold lex in *.
    destruct (Z.compare_spec a1 b1), (Z.compare_spec b1 c1), (Z.compare_spec a1 c1); try lia; try congruence;
    destruct (Z.compare_spec a2 b2), (Z.compare_spec b2 c2), (Z.compare_spec a2 c2); try lia; try congruence;
    destruct (Z.compare_spec a3 b3), (Z.compare_spec b3 c3), (Z.compare_spec a3 c3); try lia; try congruence.
Qed.

(** ** Entities *)
Lemma joined_split : forall s, joined (split_char 32 s) = s.
Proof.
  intros s. rewrite <- (join_split 32 s) at 2. generalize (split_char 32 s). induction l as [|a l IH]; [reflexivity|].
  simpl. destruct l; [reflexivity|]. rewrite IH. reflexivity.
Qed.

Lemma parse_zero : forall modern, parse_f32 modern (lit "0.0") = Some f32_zero.
Proof. intros []; reflexivity. Qed.

Theorem geometry_shape : forall p tx es gs, build_geometry (f32_num p) tx es = Ok gs ->
  Forall2 (fun e g => Forall2 (fun b bg => Forall2 (fun pl f => build_face (f32_num p) tx e b pl = Ok f) b (bg_faces bg)
                                /\ is_mean (f32_num p) (map f_center (bg_faces bg)) (bg_center bg))
                        (e_brushes e) (eg_brushes g)
                      /\ entity_center (f32_num p) e (eg_brushes g) (eg_center g)) es gs.
Proof.
  intros p tx es gs E. apply mapM_ok in E. eapply Forall2_impl; [|exact E]. clear. intros e g E. unfold build_entity_geo in E.
  apply bind_ok in E. destruct E as (bs & Eb & E). injection E as <-. cbn [eg_brushes eg_center]. split.
  - apply mapM_ok in Eb. eapply Forall2_impl; [|exact Eb]. clear. intros b bg E. unfold build_brush in E.
    apply bind_ok in E. destruct E as (fs & Ef & E). injection E as <-. cbn [bg_faces bg_center]. apply mapM_ok in Ef.
    split; [exact Ef|apply mean_is].
  - unfold entity_center. destruct (hget (e_props e) (lit "origin")) as [s|]; [|apply mean_is].
    exists (split_char 32 s). split.
    + split; [apply joined_split|]. split; [apply split_char_nonempty|]. intros q. apply split_char_pieces.
    + assert (C : forall i, origin_comp (f32_num p) (split_char 32 s) i = component (f32_num p) (n_zero (f32_num p)) (split_char 32 s) i).
      { intros i. unfold origin_comp, component. destruct (nth_error (split_char 32 s) i) as [t|] eqn:N.
        - now rewrite (nth_error_nth _ _ _ N).
        - rewrite nth_overflow by (apply nth_error_None; exact N). cbn [n_parse f32_num]. now rewrite parse_zero. }
      rewrite !C. reflexivity.
Qed.

Theorem geometry_lengths : forall p tx es gs, build_geometry (f32_num p) tx es = Ok gs ->
  length gs = length es
  /\ Forall2 (fun e g => length (eg_brushes g) = length (e_brushes e)
               /\ Forall2 (fun b bg => length (bg_faces bg) = length b) (e_brushes e) (eg_brushes g)) es gs.
Proof.
  intros p tx es gs E. apply geometry_shape in E. split; [symmetry; eapply Forall2_length; exact E|].
  eapply Forall2_impl; [|exact E]. cbv beta. intros e g [F _]. split; [symmetry; eapply Forall2_length; exact F|].
  eapply Forall2_impl; [|exact F]. cbv beta. intros b bg [G _]. symmetry. eapply Forall2_length; exact G.
Qed.

Theorem corners_c15 : forall p tx e planes plane f, build_face (f32_num p) tx e planes plane = Ok f ->
  exists raw centred sorted, corner_set (f32_num p) planes plane raw
    /\ is_mean (f32_num p) (map vt_pos raw) (f_center f)
    /\ Forall2 (displaced (fun x => v3_sub (f32_num p) x (f_center f))) raw centred
    /\ Permutation centred sorted
    /\ Forall2 (displaced (fun x => v3_add (f32_num p) x (f_center f))) sorted (f_vertices f).
Proof.
  intros p tx e planes plane f E. destruct (face_corners_built _ (f32_eq_laws p) _ _ _ _ _ E) as (raw & centred & sorted & H).
  exists raw, centred, sorted. tauto.
Qed.

Theorem winding_c17 : forall p tx e planes plane f, build_face (f32_num p) tx e planes plane = Ok f ->
  exists raw centred sorted, corner_set (f32_num p) planes plane raw
    /\ is_mean (f32_num p) (map vt_pos raw) (f_center f)
    /\ Forall2 (displaced (fun x => v3_sub (f32_num p) x (f_center f))) raw centred
    /\ Permutation centred sorted
    /\ Forall2 (displaced (fun x => v3_add (f32_num p) x (f_center f))) sorted (f_vertices f)
    /\ ((forall v, In v centred -> angle_of (f32_num p) plane v <> S754_nan) ->
        StronglySorted (fun a b => not_above (f32_num p) (angle_of (f32_num p) plane b) (angle_of (f32_num p) plane a)) sorted).
Proof.
  intros p tx e planes plane f E. destruct (face_corners_built _ (f32_eq_laws p) _ _ _ _ _ E) as (raw & centred & sorted & A & B & C & D & F & G).
  exists raw, centred, sorted. split; [exact A|]. split; [exact B|]. split; [exact C|]. split; [exact D|]. split; [exact F|].
  intros H. apply (G _ (f32_order p)). exact H.
Qed.

Theorem tangents_equal : forall T (O : num T) tx e planes plane f v w, build_face O tx e planes plane = Ok f ->
  In v (f_vertices f) -> In w (f_vertices f) -> vt_tangent v = vt_tangent w.
Proof.
  intros T O tx e planes plane f v w E Hv Hw. pose proof (tangents_shared _ _ _ _ _ _ _ E Hv) as A.
  pose proof (tangents_shared _ _ _ _ _ _ _ E Hw) as B. congruence.
Qed.
