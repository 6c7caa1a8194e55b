(** Token diff: lemmas for C10 to C13. *)
From Verif Require Import Prelude F32 Text MapModel DiffModel DiffSpec BaseProofs.

Lemma token_eqb_eq : forall a b, token_eqb a b = true <-> a = b.
Proof.
  intros a b. split.
  - destruct a, b; simpl; intros H; try discriminate; try reflexivity;
      try (apply str_eqb_eq in H; congruence).
    apply andb_true_iff in H as [H1 H2]. apply str_eqb_eq in H1, H2. congruence.
  - intros <-. destruct a; simpl; rewrite ?str_eqb_refl; reflexivity.
Qed.

Lemma token_eqb_refl : forall a, token_eqb a a = true.
Proof. intros a. apply token_eqb_eq. reflexivity. Qed.

(** ** Subsequences *)
Lemma subseq_nil : forall A (l : list A), subseq [] l.
Proof. induction l; constructor; assumption. Qed.

Lemma subseq_refl : forall A (l : list A), subseq l l.
Proof. induction l; constructor; assumption. Qed.

Lemma subseq_In : forall A (s l : list A) x, subseq s l -> In x s -> In x l.
Proof. intros A s l x H. induction H; simpl; intuition. Qed.

Lemma subseq_length : forall A (s l : list A), subseq s l -> length s <= length l.
Proof. intros A s l H. induction H; simpl; lia. Qed.

Lemma subseq_full : forall A (s l : list A), subseq s l -> length s = length l -> s = l.
Proof.
  intros A s l H. induction H; simpl; intros E; [reflexivity| |].
  - apply subseq_length in H. lia.
  - f_equal. apply IHsubseq. lia.
Qed.

Lemma subseq_app : forall A (s1 l1 s2 l2 : list A), subseq s1 l1 -> subseq s2 l2 -> subseq (s1 ++ s2) (l1 ++ l2).
Proof. intros A s1 l1 s2 l2 H H2. induction H; simpl; [exact H2|constructor; assumption|constructor; assumption]. Qed.

Lemma subseq_rev : forall A (s l : list A), subseq s l -> subseq (rev s) (rev l).
Proof.
  intros A s l H. induction H; simpl; [constructor| |].
  - rewrite <- (app_nil_r (rev s)). apply subseq_app; [assumption|apply subseq_nil].
  - apply subseq_app; [assumption|apply subseq_refl].
Qed.

(** ** Length of a longest common subsequence, by recursion *)
Fixpoint ll (a : list token) : list token -> nat :=
  match a with
  | [] => fun _ => 0
  | x :: a' =>
    fix inner b :=
      match b with
      | [] => 0
      | y :: b' => if token_eqb x y then S (ll a' b') else Nat.max (ll a' b) (inner b')
      end
  end.

Lemma ll_nil_r : forall a, ll a [] = 0.
Proof. destruct a; reflexivity. Qed.

Lemma ll_cons : forall x a y b,
  ll (x :: a) (y :: b) = if token_eqb x y then S (ll a b) else Nat.max (ll a (y :: b)) (ll (x :: a) b).
Proof. reflexivity. Qed.

(** Dropping one element on either side changes the length by at most one. *)
Lemma ll_bounds : forall a b,
  (forall x, ll a b <= ll (x :: a) b <= S (ll a b)) /\ (forall y, ll a b <= ll a (y :: b) <= S (ll a b)).
Proof.
  intros a b. remember (length a + length b) as n eqn:En. revert a b En.
  induction n as [n IH] using lt_wf_ind. intros a b ->.
  split; intros z.
  - destruct b as [|y b]; [rewrite !ll_nil_r; lia|].
    rewrite ll_cons. destruct (token_eqb z y).
    + destruct (IH (length a + length b) ltac:(simpl; lia) a b eq_refl) as [_ H]. specialize (H y). lia.
    + destruct (IH (length a + length b) ltac:(simpl; lia) a b eq_refl) as [H1 H2].
      specialize (H1 z). specialize (H2 y). lia.
  - destruct a as [|x a]; [simpl; lia|].
    rewrite ll_cons. destruct (token_eqb x z).
    + destruct (IH (length a + length b) ltac:(simpl; lia) a b eq_refl) as [H _]. specialize (H x). lia.
    + destruct (IH (length a + length b) ltac:(simpl; lia) a b eq_refl) as [H1 H2].
      specialize (H1 x). specialize (H2 z). lia.
Qed.

Lemma ll_upper : forall s a b, subseq s a -> subseq s b -> length s <= ll a b.
Proof.
  intros s a b. remember (length a + length b) as n eqn:En. revert s a b En.
  induction n as [n IH] using lt_wf_ind. intros s a b -> Ha Hb.
  inv Ha.
  - simpl. lia.
  - apply Nat.le_trans with (ll l b).
    + apply (IH (length l + length b)); auto; simpl; lia.
    + apply (ll_bounds l b).
  - inv Hb.
    + apply Nat.le_trans with (ll (x :: l) l0).
      * apply (IH (length (x :: l) + length l0)); [simpl; lia|reflexivity|constructor; assumption|assumption].
      * apply (ll_bounds (x :: l) l0).
    + rewrite ll_cons, token_eqb_refl. simpl. apply le_n_S.
      apply (IH (length l + length l0)); auto; simpl; lia.
Qed.

(** ** The table *)
Section Table.
  Context (a b : list token).

  Definition L (i j : nat) : nat := ll (rev (firstn i a)) (rev (firstn j b)).

  Lemma firstn_snoc : forall A (l : list A) i x, nth_error l i = Some x -> firstn (S i) l = firstn i l ++ [x].
  Proof.
    intros A l. induction l as [|y l IH]; intros [|i] x H; simpl in *; try discriminate.
    - congruence.
    - f_equal. apply IH. exact H.
  Qed.

  Lemma L_0_l : forall j, L 0 j = 0.
  Proof. reflexivity. Qed.
  Lemma L_0_r : forall i, L i 0 = 0.
  Proof. intros i. unfold L. simpl. apply ll_nil_r. Qed.
  Lemma L_step : forall i j x y, nth_error a i = Some x -> nth_error b j = Some y ->
    L (S i) (S j) = if token_eqb x y then S (L i j) else Nat.max (L i (S j)) (L (S i) j).
  Proof.
    intros i j x y Hx Hy. unfold L. rewrite (firstn_snoc _ a i x Hx), (firstn_snoc _ b j y Hy), !rev_app_distr. simpl app.
    apply ll_cons.
  Qed.

  Definition shape (l : table) : Prop :=
    length l = length a + 1 /\ forall row, In row l -> length row = length b + 1.

  Lemma get2_ok : forall l i j, shape l -> i <= length a -> j <= length b -> exists v, get2 l i j = Ok v.
  Proof.
    intros l i j [H1 H2] Hi Hj. unfold get2.
    destruct (nth_error l i) as [row|] eqn:Er; [|apply nth_error_None in Er; lia].
    simpl. apply nth_error_In in Er. apply H2 in Er.
    destruct (nth_error row j) eqn:Ej; [simpl; eauto|apply nth_error_None in Ej; lia].
  Qed.

  Lemma set2_ok : forall l x y v, shape l -> x <= length a -> y <= length b ->
    exists l', set2 l x y v = Ok l' /\ shape l' /\
      (forall i j, get2 l' i j = if (i =? x) && (j =? y) then Ok v else get2 l i j).
  Proof.
    intros l x y v [H1 H2] Hx Hy. unfold set2.
    destruct (nth_error l x) as [row|] eqn:Er; [|apply nth_error_None in Er; lia].
    simpl. assert (Hrow : length row = length b + 1) by (apply H2; eapply nth_error_In; exact Er).
    destruct (set_nth_lt _ y v row ltac:(lia)) as [row' Er']. rewrite Er'. simpl.
    destruct (set_nth_lt _ x row' l ltac:(lia)) as [l' El']. rewrite El'. simpl.
    apply set_nth_some in Er' as (_ & Hl1 & Hn1 & Ho1). apply set_nth_some in El' as (_ & Hl2 & Hn2 & Ho2).
    exists l'. split; [reflexivity|]. split.
    - split; [lia|]. intros r Hr. apply In_nth_error in Hr as [k Hk].
      destruct (Nat.eq_dec k x) as [->|Hne].
      + rewrite Hn2 in Hk. inv Hk. lia.
      + rewrite Ho2 in Hk by exact Hne. apply H2. eapply nth_error_In. exact Hk.
    - intros i j. unfold get2. destruct (Nat.eqb_spec i x) as [->|Hne].
      + rewrite Hn2, Er. simpl. destruct (Nat.eqb_spec j y) as [->|Hnj]; simpl.
        * rewrite Hn1. reflexivity.
        * rewrite Ho1 by exact Hnj. reflexivity.
      + rewrite Ho2 by exact Hne. reflexivity.
  Qed.

  (** Rows below [x] and row [x] below column [y] hold the specified values. *)
  Definition filled (l : table) (x y : nat) : Prop :=
    shape l /\ forall i j, (i < x \/ (i = x /\ j < y)) -> i < length a -> j < length b -> get2 l i j = Ok (L i j).

  Lemma cell_ok : forall l x y, filled l x y -> x < length a -> y < length b ->
    exists l', cell a b l x y = Ok l' /\ filled l' x (S y).
  Proof.
    intros l x y [Hs Hf] Hx Hy. unfold cell.
    assert (Hset : forall v, v = L x y -> exists l', set2 l x y v = Ok l' /\ filled l' x (S y)).
    { intros v Hv. destruct (set2_ok l x y v Hs ltac:(lia) ltac:(lia)) as (l' & E & Hs' & Hg).
      exists l'. split; [exact E|]. split; [exact Hs'|]. intros i j Hij Hi Hj. rewrite Hg.
      destruct (Nat.eqb_spec i x) as [->|Hne]; simpl.
      - destruct (Nat.eqb_spec j y) as [->|Hnj]; simpl; [congruence|]. apply Hf; lia.
      - apply Hf; lia. }
    destruct (Nat.eqb_spec x 0) as [->|Hx0]; simpl; [apply Hset; reflexivity|].
    destruct (Nat.eqb_spec y 0) as [->|Hy0]; simpl; [apply Hset; symmetry; apply L_0_r|].
    unfold tok.
    destruct (nth_error a (x - 1)) as [ta|] eqn:Ea; [|apply nth_error_None in Ea; lia].
    destruct (nth_error b (y - 1)) as [tb|] eqn:Eb; [|apply nth_error_None in Eb; lia].
    simpl. pose proof (L_step _ _ _ _ Ea Eb) as HL.
    replace (S (x - 1)) with x in HL by lia. replace (S (y - 1)) with y in HL by lia.
    destruct (token_eqb ta tb).
    - rewrite Hf by lia. simpl. apply Hset. lia.
    - rewrite !Hf by lia. simpl. apply Hset. lia.
  Qed.

  Lemma fill_row_ok : forall k l x y, y + k = length b -> filled l x y -> x < length a ->
    exists l', fill_row a b x (seq y k) l = Ok l' /\ filled l' x (length b).
  Proof.
    induction k as [|k IH]; intros l x y Hk Hf Hx; simpl.
    - exists l. split; [reflexivity|]. replace (length b) with y by lia. exact Hf.
    - destruct (cell_ok l x y Hf Hx ltac:(lia)) as (l' & -> & Hf'). simpl. apply IH; [lia|exact Hf'|exact Hx].
  Qed.

  Lemma fill_ok : forall k l x, x + k = length a -> filled l x 0 ->
    exists l', fill a b (seq x k) l = Ok l' /\ filled l' (length a) 0.
  Proof.
    induction k as [|k IH]; intros l x Hk Hf; simpl.
    - exists l. split; [reflexivity|]. replace (length a) with x by lia. exact Hf.
    - destruct (fill_row_ok (length b) l x 0 eq_refl Hf ltac:(lia)) as (l' & -> & [Hs' Hf']). simpl.
      apply IH; [lia|]. split; [exact Hs'|]. intros i j Hij Hi Hj. apply Hf'; lia.
  Qed.

  Lemma lcs_table_ok : exists l, lcs_table a b = Ok l /\ shape l /\
    forall i j, i < length a -> j < length b -> get2 l i j = Ok (L i j).
  Proof.
    unfold lcs_table.
    destruct (fill_ok (length a) (repeat (repeat 0 (length b + 1)) (length a + 1)) 0 eq_refl) as (l & E & [Hs Hf]).
    - split; [|intros; lia]. split; [apply repeat_length|]. intros row H. apply repeat_spec in H. subst. apply repeat_length.
    - exists l. split; [exact E|]. split; [exact Hs|]. intros i j Hi Hj. apply Hf; auto.
  Qed.

  (** ** Walking back *)
  Lemma set_nth_middle : forall A (p : list A) x v s, set_nth (length p) v (p ++ x :: s) = Some (p ++ v :: s).
  Proof. induction p as [|y p IH]; intros x v s; simpl; [reflexivity|]. rewrite IH. reflexivity. Qed.

  Lemma repeat_snoc : forall A (x : A) n, repeat x (S n) = repeat x n ++ [x].
  Proof. induction n as [|n IH]; [reflexivity|]. simpl in *. rewrite <- IH. reflexivity. Qed.

  Lemma backtrack_ok : forall l,
    (forall i j, i < length a -> j < length b -> get2 l i j = Ok (L i j)) ->
    forall fuel i j suffix, i + j <= fuel -> i < length a -> j < length b ->
    exists s, backtrack fuel a b l (L i j) i j (repeat None (L i j) ++ suffix) = Ok (map Some s ++ suffix) /\
      subseq s (firstn i a) /\ subseq s (firstn j b) /\ length s = L i j.
  Proof.
    intros l Hg. induction fuel as [|f IH]; intros i j suffix Hfuel Hi Hj.
    - assert (i = 0) by lia. assert (j = 0) by lia. subst. exists []. repeat split; constructor.
    - cbn [backtrack]. destruct (Nat.ltb_spec 0 i) as [Hi0|Hi0]; simpl.
      2:{ assert (i = 0) by lia. subst. exists []. rewrite L_0_l. simpl. repeat split; [constructor|apply subseq_nil]. }
      destruct (Nat.ltb_spec 0 j) as [Hj0|Hj0]; simpl.
      2:{ assert (j = 0) by lia. subst. exists []. rewrite L_0_r. simpl. repeat split; [apply subseq_nil|constructor]. }
      unfold tok.
      destruct (nth_error a (i - 1)) as [ta|] eqn:Ea; [|apply nth_error_None in Ea; lia].
      destruct (nth_error b (j - 1)) as [tb|] eqn:Eb; [|apply nth_error_None in Eb; lia].
      simpl. pose proof (L_step _ _ _ _ Ea Eb) as HL.
      pose proof (firstn_snoc _ _ _ _ Ea) as Fa. pose proof (firstn_snoc _ _ _ _ Eb) as Fb.
      replace (S (i - 1)) with i in * by lia. replace (S (j - 1)) with j in * by lia.
      destruct (token_eqb ta tb) eqn:Et.
      + apply token_eqb_eq in Et. subst tb. rewrite HL. simpl Nat.eqb. cbv iota.
        rewrite repeat_snoc, <- app_assoc. simpl app. simpl Nat.sub. rewrite Nat.sub_0_r.
        replace (set_nth (L (i - 1) (j - 1)) (Some ta) (repeat None (L (i - 1) (j - 1)) ++ None :: suffix))
          with (Some (repeat None (L (i - 1) (j - 1)) ++ Some ta :: suffix))
          by (symmetry; rewrite <- (repeat_length (@None token) (L (i - 1) (j - 1))) at 1; apply set_nth_middle).
        simpl. destruct (IH (i - 1) (j - 1) (Some ta :: suffix) ltac:(lia) ltac:(lia) ltac:(lia)) as (s & E & H1 & H2 & H3).
        rewrite E. exists (s ++ [ta]). rewrite map_app, <- app_assoc. repeat split.
        * rewrite Fa. apply subseq_app; [exact H1|apply subseq_refl].
        * rewrite Fb. apply subseq_app; [exact H2|apply subseq_refl].
        * rewrite app_length. simpl. lia.
      + rewrite !Hg by lia. simpl. destruct (Nat.ltb_spec (L i (j - 1)) (L (i - 1) j)) as [Hlt|Hge].
        * replace (L i j) with (L (i - 1) j) by lia.
          destruct (IH (i - 1) j suffix ltac:(lia) ltac:(lia) ltac:(lia)) as (s & E & H1 & H2 & H3).
          exists s. rewrite E. repeat split; auto. rewrite Fa, <- (app_nil_r s). apply subseq_app; [exact H1|apply subseq_nil].
        * replace (L i j) with (L i (j - 1)) by lia.
          destruct (IH i (j - 1) suffix ltac:(lia) ltac:(lia) ltac:(lia)) as (s & E & H1 & H2 & H3).
          exists s. rewrite E. repeat split; auto. rewrite Fb, <- (app_nil_r s). apply subseq_app; [exact H2|apply subseq_nil].
  Qed.

  Lemma mapM_unwrap : forall A w (s : list A), mapM (unwrap w) (map Some s) = Ok s.
  Proof. intros A w. induction s as [|x s IH]; [reflexivity|]. simpl. rewrite IH. reflexivity. Qed.

  Lemma firstn_removelast : forall A (l : list A), l <> [] -> firstn (length l - 1) l = removelast l.
  Proof.
    intros A l H. destruct l as [|x l _] using rev_ind; [contradiction|].
    rewrite removelast_last, app_length. simpl. rewrite Nat.add_sub, firstn_app, Nat.sub_diag, firstn_all. simpl.
    apply app_nil_r.
  Qed.

  Lemma lcs_tokens_ok : a <> [] -> b <> [] ->
    exists s, lcs_tokens a b = Ok s /\ longest_common s (removelast a) (removelast b).
  Proof.
    intros Ha Hb. unfold lcs_tokens. destruct lcs_table_ok as (l & -> & Hs & Hg). simpl.
    destruct (length a) as [|n] eqn:Ela; [destruct a; [contradiction|discriminate]|].
    destruct (length b) as [|m] eqn:Elb; [destruct b; [contradiction|discriminate]|].
    rewrite Hg by lia. simpl.
    destruct (backtrack_ok l) with (fuel := n + m) (i := n) (j := m) (suffix := @nil (option token)) as (s & E & H1 & H2 & H3);
      try lia; [rewrite Ela, Elb; exact Hg|].
    rewrite !app_nil_r in E. rewrite E. simpl. rewrite mapM_unwrap. exists s. split; [reflexivity|].
    replace n with (length a - 1) in * by lia. replace m with (length b - 1) in * by lia.
    unfold L in H3. rewrite firstn_removelast in * by assumption. rewrite firstn_removelast in * by assumption.
    repeat split; auto. intros s' Hs1 Hs2. rewrite H3, <- (rev_length s'). apply ll_upper; apply subseq_rev; assumption.
  Qed.
End Table.

Lemma selected_filter : forall A (f : A -> bool) (P : A -> Prop) l, (forall x, f x = true <-> P x) -> selected P l (filter f l).
Proof.
  intros A f P l H. induction l as [|x l IH]; simpl; [constructor|].
  destruct (f x) eqn:E; [constructor; [apply H; exact E|exact IH]|].
  apply SelDrop; [|exact IH]. intros Hp. apply H in Hp. congruence.
Qed.

Lemma not_in_lcs_spec : forall s t, not_in_lcs s t = true <-> ~ In t s.
Proof.
  intros s t. unfold not_in_lcs. rewrite negb_true_iff. split.
  - intros H Hin. assert (E : existsb (fun c => token_eqb c t) s = true).
    { apply existsb_exists. exists t. split; [exact Hin|apply token_eqb_refl]. }
    congruence.
  - intros H. destruct (existsb _ s) eqn:E; [|reflexivity]. apply existsb_exists in E as (x & Hx & E).
    apply token_eqb_eq in E. subst. contradiction.
Qed.

Lemma diff_ok : forall a b, a <> [] -> b <> [] ->
  exists kept d, diff_tokens a b = Ok d /\ longest_common kept (removelast a) (removelast b) /\
    selected (fun t => ~ In t kept) a (d_removed d) /\ selected (fun t => ~ In t kept) b (d_added d).
Proof.
  intros a b Ha Hb. unfold diff_tokens. destruct (lcs_tokens_ok a b Ha Hb) as (s & -> & Hs). simpl.
  exists s. eexists. split; [reflexivity|]. simpl.
  split; [exact Hs|]. split; apply selected_filter; apply not_in_lcs_spec.
Qed.

Lemma diff_empty : forall a b, a = [] \/ b = [] -> exists w, diff_tokens a b = Panic w.
Proof.
  intros a b H. unfold diff_tokens, lcs_tokens. destruct (lcs_table_ok a b) as (l & -> & _). simpl.
  destruct H as [-> | ->]; simpl; [eauto|]. destruct (length a); simpl; eauto.
Qed.

Lemma selected_In : forall A (P : A -> Prop) l r x, selected P l r -> (In x r <-> In x l /\ P x).
Proof.
  intros A P l r x H. induction H; simpl.
  - tauto.
  - rewrite IHselected. split; [intros [<-|[H1 H2]]; auto|intros [[<-|H1] H2]; auto].
  - rewrite IHselected. split; [intros [H1 H2]; auto|intros [[<-|H1] H2]; [contradiction|auto]].
Qed.

Lemma removelast_In : forall A (l : list A) x, In x (removelast l) -> In x l.
Proof.
  intros A l x H. destruct l as [|y l _] using rev_ind; [destruct H|].
  rewrite removelast_last in H. apply in_or_app. left. exact H.
Qed.

Lemma diff_reports : forall a b d, diff_tokens a b = Ok d ->
  (forall t, In t a -> ~ In t b -> In t (d_removed d)) /\
  (forall t, In t b -> ~ In t a -> In t (d_added d)) /\
  (forall t, In t (d_removed d) -> In t a) /\ (forall t, In t (d_added d) -> In t b).
Proof.
  intros a b d H.
  assert (Ha : a <> []) by (intros ->; destruct (diff_empty [] b) as [w E]; auto; congruence).
  assert (Hb : b <> []) by (intros ->; destruct (diff_empty a []) as [w E]; auto; congruence).
  destruct (diff_ok a b Ha Hb) as (kept & d' & E & (H1 & H2 & _) & Hr & Hadd). rewrite E in H. inv H.
  repeat split; intros t.
  - intros Hta Htb. apply (selected_In _ _ _ _ t Hr). split; [exact Hta|]. intros Hk. apply Htb.
    apply removelast_In. eapply subseq_In; eassumption.
  - intros Htb Hta. apply (selected_In _ _ _ _ t Hadd). split; [exact Htb|]. intros Hk. apply Hta.
    apply removelast_In. eapply subseq_In; eassumption.
  - intros Ht. apply (selected_In _ _ _ _ t Hr) in Ht. apply Ht.
  - intros Ht. apply (selected_In _ _ _ _ t Hadd) in Ht. apply Ht.
Qed.

Lemma selected_fun : forall A (P : A -> Prop) l r r', selected P l r -> selected P l r' -> r = r'.
Proof.
  intros A P l r r' H. revert r'. induction H; intros r' H'; inv H'; try contradiction; try reflexivity;
    try (f_equal); auto.
Qed.

Lemma diff_self : forall c x,
  exists d, diff_tokens (c ++ [x]) (c ++ [x]) = Ok d /\
    (In x c -> d_added d = [] /\ d_removed d = []) /\
    (~ In x c -> d_added d = [x] /\ d_removed d = [x]).
Proof.
  intros c x. assert (Hne : c ++ [x] <> []) by (destruct c; discriminate).
  destruct (diff_ok (c ++ [x]) (c ++ [x]) Hne Hne) as (kept & d & E & (H1 & H2 & H3) & Hr & Ha).
  rewrite removelast_last in *.
  assert (kept = c).
  { apply subseq_full; [exact H1|]. apply Nat.le_antisymm; [apply subseq_length; exact H1|]. apply H3; apply subseq_refl. }
  subst kept. exists d. split; [exact E|].
  assert (Hsel : forall r, selected (fun t => ~ In t c) (c ++ [x]) r ->
            (In x c -> r = []) /\ (~ In x c -> r = [x])).
  { intros r Hs.
    assert (Hgen : forall pre suf, (forall t, In t pre -> In t c) -> forall r', selected (fun t => ~ In t c) suf r' ->
               selected (fun t => ~ In t c) (pre ++ suf) r').
    { induction pre as [|y pre IH]; intros suf Hp r' Hs'; simpl; [exact Hs'|].
      apply SelDrop; [intros Hn; apply Hn, Hp; left; reflexivity|]. apply IH; [intros t Ht; apply Hp; right; exact Ht|exact Hs']. }
    split; intros Hx; eapply selected_fun; try exact Hs; apply Hgen; auto.
    - apply SelDrop; [tauto|constructor].
    - apply SelTake; [exact Hx|constructor]. }
  destruct (Hsel _ Hr) as [R1 R2]. destruct (Hsel _ Ha) as [A1 A2]. split; intros Hx; auto.
Qed.

Lemma diff_no_panic : forall a b, a <> [] -> b <> [] -> exists d, diff_tokens a b = Ok d.
Proof. intros a b Ha Hb. destruct (diff_ok a b Ha Hb) as (kept & d & E & _). exists d. exact E. Qed.

Lemma self_diff_refuted : exists a, a <> [] /\ diff_tokens a a <> Ok (Diff [] []).
Proof. exists [TOpen; TClose]. split; [discriminate|]. vm_compute. discriminate. Qed.
