(** Proofs about delivered entity properties (C36, C37, C53, C54, C60, C62). *)
From Coq Require Import SpecFloat Reals Lra.
From Flocq Require Import Core.
From Verif Require Import Prelude F32 Text MapModel GameDataModel SceneModel GameDataSpec TreeSpec PropertySpec
  BaseProofs FloatProofs DecimalProofs TextProofs MapProofs GameDataProofs ColorProofs NodeProofs.
Local Close Scope R_scope.
Local Open Scope nat_scope.

(** ** Integers *)
Lemma integer_text_unique : forall s a b, integer_text s a -> integer_text s b -> a = b.
Proof. intros s a b A B. apply parse_i32_iff in A. apply parse_i32_iff in B. congruence. Qed.

(** ** Splitting at spaces *)
Local Arguments split_char c !s /.
Lemma split_none : forall c s, ~ In c s -> split_char c s = [s].
Proof.
  induction s as [|x s IH]; intros H; simpl; [reflexivity|].
  destruct (N.eqb_spec x c) as [->|]; [exfalso; apply H; simpl; auto|]. rewrite IH; [reflexivity|]. intros K; apply H; simpl; auto.
Qed.
Lemma split_at : forall c x r, ~ In c x -> split_char c (x ++ c :: r) = x :: split_char c r.
Proof.
  induction x as [|a x IH]; intros r H; simpl; [now rewrite N.eqb_refl|].
  destruct (N.eqb_spec a c) as [->|]; [exfalso; apply H; simpl; auto|]. rewrite IH; [reflexivity|]. intros K; apply H; simpl; auto.
Qed.
Lemma split_inv : forall c s x l, split_char c s = x :: l ->
  ~ In c x /\ ((l = [] /\ s = x) \/ exists r, s = x ++ c :: r /\ split_char c r = l).
Proof.
  induction s as [|a s IH]; intros x l H; simpl in H.
  - inv H. split; [intros []|]. left. auto.
  - destruct (N.eqb_spec a c) as [->|Na].
    + inv H. split; [intros []|]. right. exists s. auto.
    + destruct (split_char c s) as [|y ys] eqn:E.
      * exfalso. destruct s as [|b s]; simpl in E; [discriminate|]. destruct (b =? c)%N; [discriminate|].
        destruct (split_char c s); discriminate.
      * inv H. destruct (IH y l eq_refl) as (N & C). split; [intros [K|K]; auto|].
        destruct C as [[-> ->]|(r & -> & R)]; [left; auto|right; exists r; auto].
Qed.

Section Three.
Context (p : platform).
Let O := f32_num p.

Lemma parse_three_iff : forall s a b c, parse_three O s = Some (a, b, c) <-> three_text (number_text p) s a b c.
Proof.
  intros s a b c. unfold parse_three, number_text. split.
  - destruct (split_char 32 s) as [|x [|y [|z l]]] eqn:E; try discriminate. intros H.
    destruct (split_inv _ _ _ _ E) as (Nx & [[? _]|(r & -> & E1)]); [discriminate|].
    destruct (split_inv _ _ _ _ E1) as (Ny & [[? _]|(r1 & -> & E2)]); [discriminate|].
    destruct (split_inv _ _ _ _ E2) as (Nz & C). cbn [n_parse O f32_num] in H.
    destruct C as [[-> ->]|(r2 & -> & E3)].
    + exists x, y, z, []. rewrite app_nil_r. split; [reflexivity|]. repeat (split; [assumption|]). split; [auto|].
      destruct (parse_f32 _ x), (parse_f32 _ y), (parse_f32 _ z); try discriminate. inv H. auto.
    + exists x, y, z, (lit " " ++ r2). split; [reflexivity|]. repeat (split; [assumption|]).
      split; [right; exists r2; reflexivity|].
      destruct (parse_f32 _ x), (parse_f32 _ y), (parse_f32 _ z); try discriminate. inv H. auto.
  - intros (x & y & z & rest & -> & Nx & Ny & Nz & R & Px & Py & Pz).
    change (x ++ lit " " ++ y ++ lit " " ++ z ++ rest) with (x ++ 32%N :: y ++ 32%N :: z ++ rest).
    rewrite split_at, split_at by assumption.
    assert (E : exists l, split_char 32 (z ++ rest) = z :: l).
    { destruct R as [->|(r & ->)]; [rewrite app_nil_r, split_none by assumption; eauto|].
      change (z ++ lit " " ++ r) with (z ++ 32%N :: r). rewrite split_at by assumption. eauto. }
    destruct E as (l & ->). cbn [n_parse O f32_num]. now rewrite Px, Py, Pz.
Qed.

Lemma parse_vector_iff : forall s v, parse_vector3 O s = Some v <-> vector_reads p s v.
Proof.
  intros s [a b c]. unfold parse_vector3, vector_reads. cbn [vx vy vz]. rewrite <- parse_three_iff.
  destruct (parse_three O s) as [[[a' b'] c']|]; split; intros H; inv H; reflexivity.
Qed.
Lemma parse_color_iff : forall s v, parse_color O s = Some v <-> color_reads p s v.
Proof.
  intros s [a b c]. unfold parse_color, color_reads. cbn [c_r c_g c_b]. rewrite <- parse_three_iff.
  destruct (parse_three O s) as [[[a' b'] c']|]; split; intros H; inv H; reflexivity.
Qed.

Lemma or_default_reads : forall A (parse : str -> option A) reads raw d,
  (forall s v, parse s = Some v <-> reads s v) -> read_or reads raw d (or_default parse raw d).
Proof.
  intros A parse reads raw d H. unfold or_default. destruct raw as [s|].
  - destruct (parse s) as [v|] eqn:E; [left; exists s; split; [reflexivity|now apply H]|].
    right. split; [reflexivity|]. intros s' E' w Hw. inv E'. apply H in Hw. congruence.
  - right. split; [reflexivity|]. discriminate.
Qed.

Theorem property_delivered : forall d raw, ~ is_flags d -> delivered p d raw (property_value O d raw).
Proof.
  intros d raw N. destruct d; simpl; try constructor; try (apply or_default_reads).
  - apply parse_i32_iff.
  - reflexivity.
  - apply parse_vector_iff.
  - destruct raw as [t|]; [left; eauto|right; split; [reflexivity|discriminate]].
  - apply parse_color_iff.
  - apply parse_i32_iff.
  - exfalso. apply N. eexists _, _; reflexivity.
Qed.

Theorem flags_value : forall fs d raw, exists v, property_value O (FFlags fs d) raw = PrChoices v /\ read_or integer_text raw d v.
Proof. intros fs d raw. eexists. split; [reflexivity|]. apply or_default_reads, parse_i32_iff. Qed.

(** ** The property map *)
Lemma find_forge_spec : forall (fd : forge_data f32) e,
  match find_forge fd (get_property e (lit "classname")) with
  | Some fe => forge_by fd e fe
  | None => forge_none fd e
  end.
Proof.
  intros fd e. unfold find_forge, forge_by, forge_none, class_of. unfold get_property.
  destruct (hget (e_props e) (lit "classname")) as [c|].
  - pose proof (find_first _ (fun d : forge_entity f32 => opt_str_eqb (Some (fe_name d)) (Some c)) (fun d => fe_name d = c) (fd_definitions fd)
      (fun x => str_eqb_eq _ _)) as F.
    destruct (find _ _); [eauto|]. intros fe c' H E. inv E. auto.
  - assert (find (fun d : forge_entity f32 => opt_str_eqb (Some (fe_name d)) None) (fd_definitions fd) = None) as ->.
    { induction (fd_definitions fd) as [|x l IH]; simpl; auto. }
    intros fe c _ K. discriminate.
Qed.

Lemma forge_found : forall (fd : forge_data f32) e fe, forge_by fd e fe -> find_forge fd (get_property e (lit "classname")) = Some fe.
Proof.
  intros fd e fe (c & Hc & F). pose proof (find_forge_spec fd e) as Sp.
  destruct (find_forge fd (get_property e (lit "classname"))) as [fe'|].
  - destruct Sp as (c' & Hc' & F'). assert (c' = c) by congruence. subst c'. f_equal. eapply first_with_unique; eauto.
  - exfalso. destruct F as (l1 & l2 & El & Pf & _). apply (Sp fe c); [rewrite El; apply in_or_app; simpl; auto|exact Hc|exact Pf].
Qed.
Lemma forge_missing : forall (fd : forge_data f32) e, forge_none fd e -> find_forge fd (get_property e (lit "classname")) = None.
Proof.
  intros fd e N. pose proof (find_forge_spec fd e) as Sp.
  destruct (find_forge fd (get_property e (lit "classname"))) as [fe'|]; [|reflexivity].
  destruct Sp as (c & Hc & l1 & l2 & El & Pf & _). exfalso. apply (N fe' c); [rewrite El; apply in_or_app; simpl; auto|exact Hc|exact Pf].
Qed.

Lemma fold_put : forall (e : entity f32) (l : list (forge_property f32)) m k,
  let m' := fold_left (fun m fp => hput m (fp_name fp) (property_value O (fp_data fp) (get_property e (fp_name fp)))) l m in
  ((forall y, In y l -> fp_name y <> k) -> hget m' k = hget m k)
  /\ (forall x, last_named k l x -> hget m' k = Some (property_value O (fp_data x) (get_property e k))).
Proof.
  intros e l. induction l as [|y l IH]; intros m k; cbn [fold_left].
  - split; [reflexivity|]. intros x (l1 & l2 & E & _). destruct l1; discriminate.
  - destruct (IH (hput m (fp_name y) (property_value O (fp_data y) (get_property e (fp_name y)))) k) as [A B]. split.
    + intros N. cbv zeta in A. rewrite A by (intros; apply N; simpl; auto). apply hget_hput_other. intros E. apply (N y); simpl; auto.
    + intros x (l1 & l2 & E & Nx & Last). destruct l1 as [|z l1]; simpl in E; injection E as -> ->.
      * cbv zeta in A. rewrite A by exact Last. rewrite Nx. apply hget_hput_same.
      * apply B. exists l1, l2. auto.
Qed.

Lemma integer_or_panic : forall (e : entity f32) k (m : properties f32),
  (exists m', add_internal_integer e k m = Ok m' /\ (forall k', k' <> k -> hget m' k' = hget m k')
     /\ ((get_property e k = None /\ m' = m) \/ exists s z, get_property e k = Some s /\ integer_text s z /\ hget m' k = Some (PrInteger z)))
  \/ (exists s w, get_property e k = Some s /\ (forall z, ~ integer_text s z) /\ add_internal_integer e k m = Panic w).
Proof.
  intros e k m. unfold add_internal_integer. destruct (get_property e k) as [s|] eqn:G.
  - destruct (parse_i32 s) as [z|] eqn:P; simpl.
    + left. eexists. split; [reflexivity|]. split; [intros; now apply hget_hput_other|]. right. exists s, z.
      split; [reflexivity|]. split; [now apply parse_i32_iff|apply hget_hput_same].
    + right. exists s. eexists. split; [reflexivity|]. split; [|reflexivity]. intros z K. apply parse_i32_iff in K. congruence.
  - left. exists m. split; [reflexivity|]. split; [reflexivity|]. left. auto.
Qed.

Lemma string_added : forall (e : entity f32) k (m : properties f32),
  (forall k', k' <> k -> hget (add_internal_string e k m) k' = hget m k')
  /\ (hget m k = None -> hget (add_internal_string e k m) k = match get_property e k with Some s => Some (PrString s) | None => None end).
Proof.
  intros e k m. unfold add_internal_string. destruct (get_property e k).
  - split; [intros; now apply hget_hput_other|]. intros _. apply hget_hput_same.
  - split; auto.
Qed.

Lemma internals : forall (fd : forge_data f32) e fe, forge_by fd e fe ->
  (exists m0, get_properties O fd e = Ok (fold_left (fun m fp => hput m (fp_name fp) (property_value O (fp_data fp) (get_property e (fp_name fp))))
        (fe_properties fe) m0)
     /\ (forall k, undeclared_value (hget (e_props e) k) k (hget m0 k)) /\ integral_ids e)
  \/ (~ integral_ids e /\ exists w, get_properties O fd e = Panic w).
Proof.
  intros fd e fe F. unfold get_properties. rewrite (forge_found fd e fe F).
  assert (NE : forall a b : str, str_eqb a b = false -> a <> b) by (intros a b; apply str_eqb_neq).
  destruct (integer_or_panic e (lit "_tb_id") []) as [(m1 & -> & O1 & C1)|(s & w & G & N & ->)].
  2:{ right. split; [|eexists; reflexivity]. intros I. destruct (I _ s (or_introl eq_refl) G) as (z & K). now apply (N z). }
  cbn [bind].
  destruct (integer_or_panic e (lit "_tb_group") m1) as [(m2 & -> & O2 & C2)|(s & w & G & N & ->)].
  2:{ right. split; [|eexists; reflexivity]. intros I. destruct (I _ s (or_intror eq_refl) G) as (z & K). now apply (N z). }
  cbn [bind]. left.
  set (m3 := add_internal_string e (lit "_tb_type") m2). set (m4 := add_internal_string e (lit "_tb_name") m3).
  exists m4. split; [reflexivity|].
  destruct (string_added e (lit "_tb_type") m2) as [O3 C3]. destruct (string_added e (lit "_tb_name") m3) as [O4 C4].
  fold m3 in O3, C3. fold m4 in O4, C4.
  assert (Id : hget m4 (lit "_tb_id") = hget m1 (lit "_tb_id")).
  { rewrite O4, O3, O2 by (apply NE; reflexivity). reflexivity. }
  assert (Gr : hget m4 (lit "_tb_group") = hget m2 (lit "_tb_group")).
  { rewrite O4, O3 by (apply NE; reflexivity). reflexivity. }
  split.
  - intros k. destruct (SurfaceSpec.str_dec k (lit "_tb_id")) as [->|N1].
    { left. split; [left; reflexivity|]. rewrite Id. destruct C1 as [[G ->]|(s & z & G & I & E)]; [left; auto|right; exists s, z; auto]. }
    destruct (SurfaceSpec.str_dec k (lit "_tb_group")) as [->|N2].
    { left. split; [right; reflexivity|]. rewrite Gr. destruct C2 as [[G ->]|(s & z & G & I & E)]; [left|right; exists s, z; auto].
      split; [exact G|]. rewrite O1 by (apply NE; reflexivity). reflexivity. }
    right. destruct (SurfaceSpec.str_dec k (lit "_tb_type")) as [->|N3].
    { left. split; [left; reflexivity|]. rewrite O4 by (apply NE; reflexivity). apply C3. rewrite O2, O1 by assumption. reflexivity. }
    destruct (SurfaceSpec.str_dec k (lit "_tb_name")) as [->|N4].
    { left. split; [right; reflexivity|]. apply C4. rewrite O3, O2, O1 by assumption. reflexivity. }
    right. unfold internal_integer, internal_string. split; [tauto|]. split; [tauto|]. now rewrite O4, O3, O2, O1.
  - intros k s K G. destruct K as [->| ->].
    + destruct C1 as [[G' _]|(s' & z & G' & I & _)]; unfold get_property in G'; rewrite G in G'; inv G'. eauto.
    + destruct C2 as [[G' _]|(s' & z & G' & I & _)]; unfold get_property in G'; rewrite G in G'; inv G'. eauto.
Qed.

Theorem properties_declared : forall (fd : forge_data f32) e fe m k fp, forge_by fd e fe -> get_properties O fd e = Ok m ->
  last_named k (fe_properties fe) fp -> hget m k = Some (property_value O (fp_data fp) (hget (e_props e) k)).
Proof.
  intros fd e fe m k fp F E L. destruct (internals fd e fe F) as [(m0 & E0 & _)|(_ & w & Ew)]; [|congruence].
  assert (m = fold_left (fun m fp => hput m (fp_name fp) (property_value O (fp_data fp) (get_property e (fp_name fp)))) (fe_properties fe) m0) by congruence.
  subst m. now apply fold_put.
Qed.

Theorem properties_undeclared : forall (fd : forge_data f32) e fe m k, forge_by fd e fe -> get_properties O fd e = Ok m ->
  ~ declares fe k -> undeclared_value (hget (e_props e) k) k (hget m k).
Proof.
  intros fd e fe m k F E N. destruct (internals fd e fe F) as [(m0 & E0 & U & _)|(_ & w & Ew)]; [|congruence].
  assert (m = fold_left (fun m fp => hput m (fp_name fp) (property_value O (fp_data fp) (get_property e (fp_name fp)))) (fe_properties fe) m0) by congruence.
  subst m. destruct (fold_put e (fe_properties fe) m0 k) as [A _]. cbv zeta in A. rewrite A; [apply U|].
  intros y Hy K. apply N. exists y. auto.
Qed.

Theorem properties_total : forall (fd : forge_data f32) e fe, forge_by fd e fe ->
  (integral_ids e -> exists m, get_properties O fd e = Ok m) /\ (~ integral_ids e -> exists w, get_properties O fd e = Panic w).
Proof.
  intros fd e fe F. destruct (internals fd e fe F) as [(m0 & E0 & _ & I)|(N & w & Ew)].
  - split; [eauto|contradiction].
  - split; [contradiction|eauto].
Qed.

Theorem properties_none : forall (fd : forge_data f32) e, forge_none fd e -> get_properties O fd e = Ok [].
Proof. intros fd e N. unfold get_properties. now rewrite (forge_missing fd e N). Qed.

Lemma last_named_exists : forall (l : list (forge_property f32)) k, (exists x, In x l /\ fp_name x = k) -> exists x, last_named k l x.
Proof.
  induction l as [|y l IH]; intros k (x & Hx & Ex); [contradiction|].
  destruct (in_dec SurfaceSpec.str_dec k (map fp_name l)) as [I|NI].
  - apply in_map_iff in I. destruct I as (z & Ez & Hz). destruct (IH k) as (w & l1 & l2 & -> & C); [eauto|].
    exists w, (y :: l1), l2. auto.
  - destruct Hx as [->|Hx]; [|exfalso; apply NI; rewrite <- Ex; now apply in_map].
    exists x, [], l. split; [reflexivity|]. split; [exact Ex|]. intros z Hz E. apply NI. rewrite <- E. now apply in_map.
Qed.
End Three.
