(** Lemmas about the shared vocabulary. *)
From Coq Require Import Permutation.
From Verif Require Import Prelude F32 Text.
From Coq Require Export ZifyBool ZifyNat ZifyN.

Ltac inv H := inversion H; subst; clear H.

Lemma str_eqb_eq : forall a b, str_eqb a b = true <-> a = b.
Proof.
  induction a as [|x a IH]; destruct b as [|y b]; simpl; split; intros H;
    try reflexivity; try discriminate.
  - apply andb_true_iff in H as [H1 H2]. apply N.eqb_eq in H1. apply IH in H2. congruence.
  - inv H. rewrite N.eqb_refl. simpl. apply IH. reflexivity.
Qed.

Lemma str_eqb_refl : forall a, str_eqb a a = true.
Proof. intros a. apply str_eqb_eq. reflexivity. Qed.

Lemma str_eqb_neq : forall a b, str_eqb a b = false <-> a <> b.
Proof.
  intros a b. split.
  - intros H E. apply str_eqb_eq in E. congruence.
  - intros H. destruct (str_eqb a b) eqn:E; [apply str_eqb_eq in E; contradiction | reflexivity].
Qed.

Lemma str_eqb_sym : forall a b, str_eqb a b = str_eqb b a.
Proof.
  intros a b. destruct (str_eqb a b) eqn:E.
  - apply str_eqb_eq in E. subst. symmetry. apply str_eqb_refl.
  - symmetry. apply str_eqb_neq. apply str_eqb_neq in E. congruence.
Qed.

Lemma str_eq_dec : forall a b : str, {a = b} + {a <> b}.
Proof. apply list_eq_dec, N.eq_dec. Qed.

Lemma opt_str_eqb_eq : forall a b, opt_str_eqb a b = true <-> a = b.
Proof.
  intros [a|] [b|]; simpl; split; intros H; try reflexivity; try discriminate.
  - apply str_eqb_eq in H. congruence.
  - inv H. apply str_eqb_refl.
Qed.

Lemma Forall2_length : forall A B (R : A -> B -> Prop) l l', Forall2 R l l' -> length l = length l'.
Proof. intros A B R l l' H. induction H; simpl; congruence. Qed.

(** ** Outcomes *)
Lemma bind_ok : forall A B (r : res A) (f : A -> res B) b,
  bind r f = Ok b <-> exists a, r = Ok a /\ f a = Ok b.
Proof.
  intros A B r f b. split.
  - destruct r; simpl; intros H; try discriminate. eauto.
  - intros (a & -> & H). exact H.
Qed.

Lemma bind_err : forall A B (r : res A) (f : A -> res B) e,
  bind r f = Err e <-> r = Err e \/ exists a, r = Ok a /\ f a = Err e.
Proof.
  intros A B r f e. split.
  - destruct r; simpl; intros H; try discriminate; eauto. inv H. auto.
  - intros [-> | (a & -> & H)]; [reflexivity | exact H].
Qed.

Lemma mapM_ok : forall A B (f : A -> res B) l r,
  mapM f l = Ok r <-> Forall2 (fun x y => f x = Ok y) l r.
Proof.
  induction l as [|x l IH]; intros r; simpl.
  - split; [intros H; inv H; constructor | intros H; inv H; reflexivity].
  - split.
    + intros H. apply bind_ok in H as (y & Hy & H). apply bind_ok in H as (ys & Hys & H). inv H.
      constructor; [exact Hy | apply IH; exact Hys].
    + intros H. inv H. rewrite H2. simpl. apply IH in H4. rewrite H4. reflexivity.
Qed.

Lemma mapM_ext : forall A B (f g : A -> res B) l, (forall x, In x l -> f x = g x) -> mapM f l = mapM g l.
Proof.
  induction l as [|x l IH]; intros H; simpl; [reflexivity|].
  rewrite (H x (or_introl eq_refl)). destruct (g x); simpl; try reflexivity.
  rewrite IH by (intros; apply H; right; assumption). reflexivity.
Qed.

Lemma mapM_map_ok : forall A B (f : A -> B) l, mapM (fun x => Ok (f x)) l = Ok (map f l).
Proof. induction l as [|x l IH]; simpl; [reflexivity|]. rewrite IH. reflexivity. Qed.

Lemma mapM_app : forall A B (f : A -> res B) l1 l2,
  mapM f (l1 ++ l2) = (a <- mapM f l1 ;; b <- mapM f l2 ;; Ok (a ++ b)).
Proof.
  induction l1 as [|x l1 IH]; intros l2; simpl.
  - destruct (mapM f l2); reflexivity.
  - destruct (f x); simpl; try reflexivity. rewrite IH.
    destruct (mapM f l1); simpl; try reflexivity. destruct (mapM f l2); reflexivity.
Qed.

Lemma mapM_length : forall A B (f : A -> res B) l r, mapM f l = Ok r -> length r = length l.
Proof. intros A B f l r H. apply mapM_ok in H. symmetry. eapply Forall2_length; eassumption. Qed.

(** If every call is [Ok], so is the whole. *)
Lemma mapM_total : forall A B (f : A -> res B) l,
  (forall x, In x l -> exists y, f x = Ok y) -> exists r, mapM f l = Ok r.
Proof.
  induction l as [|x l IH]; intros H; simpl; [eauto|].
  destruct (H x (or_introl eq_refl)) as [y ->]. simpl.
  destruct IH as [r ->]; [intros; apply H; right; assumption|]. simpl. eauto.
Qed.

(** The first element whose call is not [Ok] decides. *)
Lemma mapM_err : forall A B (f : A -> res B) l e,
  mapM f l = Err e <->
  exists l1 x l2, l = l1 ++ x :: l2 /\ (forall y, In y l1 -> exists z, f y = Ok z) /\ f x = Err e.
Proof.
  induction l as [|x l IH]; intros e; simpl.
  - split; [discriminate|]. intros ([|] & ? & ? & H & _); discriminate.
  - split.
    + intros H. apply bind_err in H as [H | (y & Hy & H)].
      * exists [], x, l. repeat split; auto. intros ? [].
      * apply bind_err in H as [H | (ys & _ & H)]; [|discriminate].
        apply IH in H as (l1 & x' & l2 & -> & H1 & H2).
        exists (x :: l1), x', l2. repeat split; auto.
        intros z [<- | Hz]; eauto.
    + intros (l1 & x' & l2 & H & H1 & H2). destruct l1 as [|y l1]; simpl in H; inv H.
      * rewrite H2. reflexivity.
      * destruct (H1 y (or_introl eq_refl)) as [z ->]. simpl.
        assert (E : mapM f (l1 ++ x' :: l2) = Err e).
        { apply IH. exists l1, x', l2. repeat split; auto. intros w Hw. apply H1. right. exact Hw. }
        rewrite E. reflexivity.
Qed.

Lemma unwrap_ok : forall A w (o : option A) a, unwrap w o = Ok a <-> o = Some a.
Proof. intros A w [x|] a; simpl; split; intros H; inv H; reflexivity. Qed.

(** ** Maps *)
Lemma hget_hput : forall V (m : hmap V) k v k',
  hget (hput m k v) k' = if str_eqb k' k then Some v else hget m k'.
Proof.
  induction m as [|[k0 v0] m IH]; intros k v k'; simpl; [reflexivity|].
  destruct (str_eqb k k0) eqn:E; simpl.
  - apply str_eqb_eq in E. subst. destruct (str_eqb k' k0) eqn:E'; reflexivity.
  - rewrite IH. destruct (str_eqb k' k0) eqn:E1, (str_eqb k' k) eqn:E2; try reflexivity.
    apply str_eqb_eq in E1, E2. subst. rewrite str_eqb_refl in E. discriminate.
Qed.

Lemma hget_hput_same : forall V (m : hmap V) k v, hget (hput m k v) k = Some v.
Proof. intros. rewrite hget_hput, str_eqb_refl. reflexivity. Qed.

Lemma hget_hput_other : forall V (m : hmap V) k v k', k' <> k -> hget (hput m k v) k' = hget m k'.
Proof. intros V m k v k' H. rewrite hget_hput. apply str_eqb_neq in H. rewrite H. reflexivity. Qed.

(** ** Lists *)
Lemma position_some : forall A (p : A -> bool) l k,
  position p l = Some k <->
  (exists x, nth_error l k = Some x /\ p x = true) /\ (forall j x, j < k -> nth_error l j = Some x -> p x = false).
Proof.
  induction l as [|y l IH]; intros k; simpl.
  - split; [discriminate|]. intros ((x & H & _) & _). destruct k; discriminate.
  - destruct (p y) eqn:E.
    + split.
      * intros H. inv H. split; [exists y; auto|]. intros j x Hj. lia.
      * intros ((x & H1 & H2) & H3). destruct k as [|k]; [reflexivity|].
        specialize (H3 0 y ltac:(lia) eq_refl). congruence.
    + split.
      * intros H. destruct (position p l) as [k'|] eqn:Ep; [|discriminate]. simpl in H. inv H.
        destruct (proj1 (IH k') eq_refl) as ((x & H1 & H2) & H3). split; [exists x; auto|].
        intros [|j] x' Hj Hx; simpl in Hx; [inv Hx; exact E|]. eapply H3; [|exact Hx]. lia.
      * intros ((x & H1 & H2) & H3). destruct k as [|k]; [simpl in H1; inv H1; congruence|].
        assert (Ep : position p l = Some k).
        { apply IH. split; [exists x; auto|]. intros j x' Hj Hx. apply (H3 (S j) x'); [lia|exact Hx]. }
        rewrite Ep. reflexivity.
Qed.

Lemma position_none : forall A (p : A -> bool) l,
  position p l = None <-> forall x, In x l -> p x = false.
Proof.
  induction l as [|y l IH]; simpl.
  - split; [intros _ x []|reflexivity].
  - destruct (p y) eqn:E.
    + split; [discriminate|]. intros H. specialize (H y (or_introl eq_refl)). congruence.
    + split.
      * intros H x [<- | Hx]; [exact E|]. apply IH; [|exact Hx]. destruct (position p l); [discriminate|reflexivity].
      * intros H. replace (position p l) with (@None nat); [reflexivity|]. symmetry. apply IH. auto.
Qed.

Lemma position_lt : forall A (p : A -> bool) l k, position p l = Some k -> k < length l.
Proof.
  intros A p l k H. apply position_some in H as ((x & H & _) & _). apply nth_error_Some. congruence.
Qed.

Lemma filter_map_In : forall A B (f : A -> option B) l y,
  In y (filter_map f l) <-> exists x, In x l /\ f x = Some y.
Proof.
  induction l as [|x l IH]; intros y; simpl.
  - split; [intros []|intros (? & [] & _)].
  - destruct (f x) eqn:E; simpl; rewrite IH; split.
    + intros [<- | (x' & H1 & H2)]; eauto.
    + intros (x' & [-> | H1] & H2); [left; congruence|right; eauto].
    + intros (x' & H1 & H2); eauto.
    + intros (x' & [-> | H1] & H2); [congruence|eauto].
Qed.

Lemma filter_map_id_map_Some : forall A (l : list A), filter_map (fun o => o) (map Some l) = l.
Proof. induction l as [|x l IH]; simpl; [reflexivity|]. rewrite IH. reflexivity. Qed.

Lemma filter_map_app : forall A B (f : A -> option B) l1 l2,
  filter_map f (l1 ++ l2) = filter_map f l1 ++ filter_map f l2.
Proof.
  induction l1 as [|x l1 IH]; intros l2; simpl; [reflexivity|].
  destruct (f x); simpl; rewrite IH; reflexivity.
Qed.

Lemma filter_map_length_le : forall A B (f : A -> option B) l, length (filter_map f l) <= length l.
Proof. induction l as [|x l IH]; simpl; [lia|]. destruct (f x); simpl; lia. Qed.

Lemma filter_map_all : forall A B (f : A -> option B) (g : A -> B) l,
  (forall x, In x l -> f x = Some (g x)) -> filter_map f l = map g l.
Proof.
  induction l as [|x l IH]; intros H; simpl; [reflexivity|].
  rewrite (H x (or_introl eq_refl)), IH; auto. intros; apply H; right; assumption.
Qed.

Lemma set_nth_some : forall A i (v : A) l l', set_nth i v l = Some l' ->
  i < length l /\ length l' = length l /\ nth_error l' i = Some v /\
  (forall j, j <> i -> nth_error l' j = nth_error l j).
Proof.
  intros A i v l. revert i. induction l as [|x l IH]; intros i l' H; simpl in H.
  - destruct i; discriminate.
  - destruct i as [|i].
    + inv H. simpl. repeat split; try lia. intros [|j] Hj; [lia|reflexivity].
    + simpl in H. destruct (set_nth i v l) as [l0|] eqn:E; simpl in H; [|discriminate H]. inv H.
      apply IH in E as (H1 & H2 & H3 & H4). simpl. repeat split; try lia; auto.
      intros [|j] Hj; [reflexivity|]. simpl. apply H4. lia.
Qed.

Lemma set_nth_lt : forall A i (v : A) l, i < length l -> exists l', set_nth i v l = Some l'.
Proof.
  intros A i v l. revert i. induction l as [|x l IH]; intros i H; simpl in *; [lia|].
  destruct i as [|i]; simpl; [eexists; reflexivity|]. destruct (IH i ltac:(lia)) as [l' ->]. simpl. eauto.
Qed.

Lemma upd_last_snoc : forall A (f : A -> A) l x, upd_last f (l ++ [x]) = Some (l ++ [f x]).
Proof.
  induction l as [|y l IH]; intros x; [reflexivity|].
  specialize (IH x). simpl. destruct (l ++ [x]) eqn:E; [discriminate|].
  rewrite IH. reflexivity.
Qed.

Lemma nth_error_snoc : forall A (l : list A) x, nth_error (l ++ [x]) (length (l ++ [x]) - 1) = Some x.
Proof.
  intros A l x. rewrite app_length. simpl. replace (length l + 1 - 1) with (length l) by lia.
  rewrite nth_error_app2, Nat.sub_diag by lia. reflexivity.
Qed.

Lemma enumerate_from_length : forall A (l : list A) i, length (enumerate_from i l) = length l.
Proof. induction l as [|x l IH]; intros i; simpl; [reflexivity|]. rewrite IH. reflexivity. Qed.

Lemma nth_error_enumerate_from : forall A (l : list A) i k,
  nth_error (enumerate_from i l) k = option_map (fun x => (i + k, x)) (nth_error l k).
Proof.
  induction l as [|x l IH]; intros i k; simpl.
  - destruct k; reflexivity.
  - destruct k as [|k]; simpl; [rewrite Nat.add_0_r; reflexivity|].
    rewrite IH. destruct (nth_error l k); simpl; [f_equal; f_equal; lia|reflexivity].
Qed.

Lemma sequence_some : forall A (l : list (option A)) r, sequence l = Some r <-> l = map Some r.
Proof.
  induction l as [|[x|] l IH]; intros r; simpl.
  - split; [intros H; inv H; reflexivity|]. destruct r; [reflexivity|discriminate].
  - destruct (sequence l) as [xs|] eqn:E.
    + split.
      * intros H. inv H. simpl. f_equal. apply IH. reflexivity.
      * intros H. destruct r as [|y r]; simpl in H; inv H. f_equal. f_equal.
        assert (H : Some xs = Some r) by (apply IH; reflexivity). congruence.
    + split; [discriminate|]. intros H. destruct r as [|y r]; simpl in H; inv H.
      assert (H : @None (list A) = Some r) by (apply IH; reflexivity). discriminate.
  - split; [discriminate|]. destruct r; discriminate.
Qed.

Lemma sequence_none : forall A (l : list (option A)), sequence l = None <-> In None l.
Proof.
  induction l as [|[x|] l IH]; simpl.
  - split; [discriminate|intros []].
  - destruct (sequence l); split; intros H; try discriminate; try reflexivity.
    + destruct H as [H|H]; [discriminate|]. apply IH in H. discriminate.
    + right. apply IH. reflexivity.
  - split; auto.
Qed.

(** ** Sorting *)
Lemma sort_insert_perm : forall A cmp (x : A) l, Permutation (sort_insert cmp x l) (x :: l).
Proof.
  induction l as [|y l IH]; simpl; [apply Permutation_refl|].
  destruct (cmp y x); try apply Permutation_refl;
    (rewrite IH; apply perm_swap).
Qed.

Lemma sort_by_perm : forall A cmp (l : list A), Permutation (sort_by cmp l) l.
Proof.
  intros A cmp l. unfold sort_by.
  enough (H : forall acc, Permutation (fold_left (fun acc x => sort_insert cmp x acc) l acc) (acc ++ l)).
  { apply (H []). }
  induction l as [|x l IH]; intros acc; simpl; [rewrite app_nil_r; apply Permutation_refl|].
  rewrite IH, sort_insert_perm. simpl. apply Permutation_middle.
Qed.

Lemma sort_by_length : forall A cmp (l : list A), length (sort_by cmp l) = length l.
Proof. intros. apply Permutation_length, sort_by_perm. Qed.

(** ** Text *)
Lemma split_char_nonempty : forall c s, split_char c s <> [].
Proof.
  intros c s. destruct s as [|x t]; simpl; [discriminate|].
  destruct (x =? c)%N; [discriminate|]. destruct (split_char c t); discriminate.
Qed.

Lemma split_char_app_sep : forall c a b, ~ In c a ->
  split_char c (a ++ c :: b) = a :: split_char c b.
Proof.
  induction a as [|x a IH]; intros b H; simpl.
  - rewrite N.eqb_refl. reflexivity.
  - destruct (x =? c)%N eqn:E.
    + apply N.eqb_eq in E. subst. destruct H. left. reflexivity.
    + rewrite IH; [reflexivity|]. intros Hc. apply H. right. exact Hc.
Qed.

Lemma split_char_none : forall c a, ~ In c a -> split_char c a = [a].
Proof.
  induction a as [|x a IH]; intros H; simpl; [reflexivity|].
  destruct (x =? c)%N eqn:E.
  - apply N.eqb_eq in E. subst. destruct H. left. reflexivity.
  - rewrite IH; [reflexivity|]. intros Hc. apply H. right. exact Hc.
Qed.

(** The pieces joined by the separator give the text back, and contain no separator. *)
Fixpoint join_char (c : N) (ps : list str) : str :=
  match ps with
  | [] => []
  | [p] => p
  | p :: t => p ++ c :: join_char c t
  end.

Lemma join_split : forall c s, join_char c (split_char c s) = s.
Proof.
  induction s as [|x s IH]; [reflexivity|]. simpl.
  destruct (x =? c)%N eqn:E.
  - apply N.eqb_eq in E. subst. change (join_char c ([] :: split_char c s) = c :: s).
    simpl. destruct (split_char c s) eqn:E; [apply split_char_nonempty in E; contradiction|].
    rewrite IH. reflexivity.
  - destruct (split_char c s) as [|p ps] eqn:Ep; [apply split_char_nonempty in Ep; contradiction|].
    simpl in *. destruct ps; simpl in *; congruence.
Qed.

Lemma split_char_pieces : forall c s p, In p (split_char c s) -> ~ In c p.
Proof.
  induction s as [|x s IH]; intros p H; simpl in H.
  - destruct H as [<- | []]. intros [].
  - destruct (x =? c)%N eqn:E.
    + destruct H as [<- | H]; [intros []|]. apply IH. exact H.
    + destruct (split_char c s) as [|q qs] eqn:Ep.
      * destruct H as [<- | []]. intros [-> | []]. rewrite N.eqb_refl in E. discriminate.
      * destruct H as [<- | H].
        -- intros [-> | Hc]; [rewrite N.eqb_refl in E; discriminate|].
           apply (IH q); [left; reflexivity|exact Hc].
        -- apply IH. right. exact H.
Qed.

Lemma split_join : forall c ps, ps <> [] -> (forall p, In p ps -> ~ In c p) ->
  split_char c (join_char c ps) = ps.
Proof.
  induction ps as [|p ps IH]; intros Hne H; [contradiction|].
  destruct ps as [|p' ps].
  - simpl. apply split_char_none. apply H. left. reflexivity.
  - change (split_char c (p ++ c :: join_char c (p' :: ps)) = p :: p' :: ps).
    rewrite split_char_app_sep by (apply H; left; reflexivity).
    rewrite IH; [reflexivity|discriminate|]. intros q Hq. apply H. right. exact Hq.
Qed.

(** ** Forall2 *)
Lemma Forall2_nth : forall A B (R : A -> B -> Prop) l l',
  Forall2 R l l' <-> length l = length l' /\ forall i x y, nth_error l i = Some x -> nth_error l' i = Some y -> R x y.
Proof.
  intros A B R. induction l as [|a l IH]; intros l'.
  - split.
    + intros H. inv H. split; [reflexivity|]. intros [|i] x y E; discriminate E.
    + intros [H _]. destruct l'; [constructor|discriminate].
  - split.
    + intros H. inv H. match goal with H : Forall2 R l _ |- _ => apply IH in H as [Hl Hn] end.
      split; [simpl; congruence|]. intros [|i] x y' E1 E2; simpl in *; [congruence|eauto].
    + intros [Hl Hn]. destruct l' as [|b l']; [discriminate|]. constructor; [apply (Hn 0%nat); reflexivity|].
      apply IH. split; [simpl in Hl; congruence|]. intros i x y' E1 E2. apply (Hn (S i)); assumption.
Qed.

Lemma Forall2_combine : forall A B C (P : A -> B -> Prop) (Q : A * B -> C -> Prop) la lb lc,
  Forall2 P la lb -> Forall2 Q (combine la lb) lc ->
  Forall2 (fun a bc => P a (fst bc) /\ Q (a, fst bc) (snd bc)) la (combine lb lc).
Proof.
  intros A B C P Q la lb lc H. revert lc. induction H; intros lc H2; simpl in *.
  - constructor.
  - inv H2. simpl. constructor; auto.
Qed.

Lemma Forall2_uncombine : forall A B C (P : A -> B -> Prop) (Q : A * B -> C -> Prop) la (lt : list (B * C)),
  Forall2 (fun a bc => P a (fst bc) /\ Q (a, fst bc) (snd bc)) la lt ->
  Forall2 P la (map fst lt) /\ Forall2 Q (combine la (map fst lt)) (map snd lt).
Proof.
  intros A B C P Q la lt H. induction H as [|a bc la lt [H1 H2] H [IH1 IH2]]; simpl; split; constructor; auto.
Qed.

Lemma combine_fst_snd : forall A B (l : list (A * B)), combine (map fst l) (map snd l) = l.
Proof. induction l as [|[a b] l IH]; simpl; congruence. Qed.

Lemma Forall2_impl : forall A B (P Q : A -> B -> Prop) la lb, (forall a b, P a b -> Q a b) -> Forall2 P la lb -> Forall2 Q la lb.
Proof. intros A B P Q la lb H H2. induction H2; constructor; auto. Qed.

Lemma Forall2_map_r : forall A B C (f : B -> C) (P : A -> C -> Prop) la lb, Forall2 P la (map f lb) <-> Forall2 (fun a b => P a (f b)) la lb.
Proof.
  intros A B C f P la lb. split.
  - revert la. induction lb as [|b lb IH]; intros la H; inv H; constructor; auto.
  - intros H. induction H; simpl; constructor; auto.
Qed.

Lemma Forall2_in_l : forall A B (R : A -> B -> Prop) la lb a, Forall2 R la lb -> In a la -> exists b, In b lb /\ R a b.
Proof. intros A B R la lb a H. induction H; intros []; [subst; simpl; eauto|]. destruct IHForall2 as (b & ? & ?); simpl; eauto. Qed.

Lemma Forall2_in_r : forall A B (R : A -> B -> Prop) la lb b, Forall2 R la lb -> In b lb -> exists a, In a la /\ R a b.
Proof. intros A B R la lb a H. induction H; intros []; [subst; simpl; eauto|]. destruct IHForall2 as (? & ? & ?); simpl; eauto. Qed.

Lemma Forall2_combine_in : forall A B (R : A -> B -> Prop) la lb a, Forall2 R la lb -> In a la -> exists b, R a b /\ In (a, b) (combine la lb).
Proof.
  intros A B R la lb a H. induction H; intros []; simpl; [subst; eauto|]. destruct IHForall2 as (b & ? & ?); eauto.
Qed.

