(** Which of the longest common subsequences a diff keeps: proofs of C136. *)
From Coq Require Import Sorting.Sorted.
From Verif Require Import Prelude F32 Text MapModel DiffModel DiffSpec LatestSpec BaseProofs DiffProofs.

(** ** Positions *)
Lemma sorted_snoc : forall ps q, StronglySorted lt (ps ++ [q]) <-> StronglySorted lt ps /\ Forall (fun p => p < q) ps.
Proof.
  intros ps q. induction ps as [|p ps IH]; simpl.
  - split; intros _; repeat constructor.
  - split.
    + intros H. inv H. apply IH in H2 as [S F]. apply Forall_app in H3 as [F1 F2]. inv F2. split; constructor; auto.
    + intros [H F]. inv H. inv F. constructor; [apply IH; auto|]. apply Forall_app. split; [assumption|]. repeat constructor. assumption.
Qed.
Lemma map_snoc_inv : forall A B (f : A -> B) s l y, map f s = l ++ [y] -> exists s' x, s = s' ++ [x] /\ map f s' = l /\ f x = y.
Proof.
  intros A B f s l y H. destruct s as [|x s _] using rev_ind; [destruct l; discriminate|]. rewrite map_app in H. simpl in H. apply app_inj_tail in H as [H1 H2]. eauto.
Qed.
Section Positions.
  Context {A : Type} (l : list A).
  Lemma chosen_nil : chosen l [] [].
  Proof. split; [constructor|reflexivity]. Qed.
  Lemma chosen_length : forall ps s, chosen l ps s -> length ps = length s.
  Proof. intros ps s [_ H]. apply (f_equal (@length _)) in H. rewrite !map_length in H. exact H. Qed.
  Lemma chosen_snoc : forall ps q s t, chosen l ps s -> Forall (fun p => p < q) ps -> nth_error l q = Some t -> chosen l (ps ++ [q]) (s ++ [t]).
  Proof. intros ps q s t [S E] F N. split; [apply sorted_snoc; auto|]. rewrite !map_app, E. simpl. now rewrite N. Qed.
  Lemma chosen_last : forall ps q s, chosen l (ps ++ [q]) s -> exists s' t, s = s' ++ [t] /\ chosen l ps s' /\ Forall (fun p => p < q) ps /\ nth_error l q = Some t.
  Proof.
    intros ps q s [S E]. apply sorted_snoc in S as [S F]. rewrite map_app in E. simpl in E. symmetry in E. apply map_snoc_inv in E as (s' & t & -> & E & N).
    exists s', t. split; [reflexivity|]. split; [split; [assumption|congruence]|]. auto.
  Qed.
  Lemma chosen_fun : forall ps s s', chosen l ps s -> chosen l ps s' -> s = s'.
  Proof.
    intros ps s s' [_ E] [_ E']. rewrite E in E'. clear E. revert s' E'. induction s as [|x s IH]; intros [|y s'] E; try discriminate; [reflexivity|]. injection E as -> E. f_equal. now apply IH.
  Qed.
  Lemma chosen_subseq : forall ps s i, chosen l ps s -> Forall (fun p => p < i) ps -> subseq s (firstn i l).
  Proof.
    induction ps as [|q ps IH] using rev_ind; intros s i C F.
    - apply chosen_length in C. destruct s; [apply subseq_nil|discriminate].
    - apply chosen_last in C as (s' & t & -> & C & G & N). apply Forall_app in F as [_ F]. inv F.
      replace (firstn i l) with (firstn q l ++ firstn (i - q) (skipn q l)) by (rewrite <- (firstn_skipn q (firstn i l)) at 1; rewrite firstn_firstn, Nat.min_l, skipn_firstn_comm by lia; reflexivity).
      apply subseq_app; [now apply IH|]. destruct (skipn q l) as [|x r] eqn:E.
      + assert (K : length (skipn q l) = 0) by (now rewrite E). rewrite skipn_length in K. assert (Lq : q < length l) by (apply nth_error_Some; congruence). lia.
      + assert (K : nth_error (firstn q l ++ skipn q l) q = Some t) by (now rewrite firstn_skipn). assert (Lq : q < length l) by (apply nth_error_Some; congruence).
        rewrite nth_error_app2 in K by (rewrite firstn_length; lia). rewrite firstn_length, Nat.min_l, Nat.sub_diag, E in K by lia. injection K as ->.
        destruct (i - q) as [|n] eqn:En; [lia|]. simpl. apply SubTake, subseq_nil.
  Qed.
  Lemma chosen_in : forall ps s, chosen l ps s -> Forall (fun p => p < length l) ps.
  Proof.
    intros ps s [_ E]. apply Forall_forall. intros p H. apply (in_map (nth_error l)) in H. rewrite E in H. apply in_map_iff in H as (x & H & _). apply nth_error_Some. congruence.
  Qed.
End Positions.

Lemma ahead_trans : forall a b c, ahead a b -> ahead b c -> ahead a c.
Proof.
  induction a as [|x a IH]; intros [|y b] [|z c]; simpl; try tauto. intros [H|[-> H]] [K|[-> K]]; [left; lia|left; lia|left; lia|]. right. split; [reflexivity|]. eapply IH; eauto.
Qed.
Lemma ahead_irrefl : forall a, ~ ahead a a.
Proof. induction a as [|x a IH]; simpl; [tauto|]. intros [H|[_ H]]; [lia|tauto]. Qed.
Lemma later_last : forall ps p qs q, q < p -> later (ps ++ [p]) (qs ++ [q]).
Proof. intros. unfold later. rewrite !rev_app_distr. simpl. auto. Qed.
Lemma later_snoc : forall ps qs q, later ps qs -> later (ps ++ [q]) (qs ++ [q]).
Proof. intros. unfold later. rewrite !rev_app_distr. simpl. auto. Qed.

(** ** Subsequences *)
Lemma subseq_snoc_inv : forall A (b s : list A) t, subseq (s ++ [t]) b -> exists b0 b1, b = b0 ++ t :: b1 /\ subseq s b0.
Proof.
  intros A b. induction b as [|x b IH]; intros s t H.
  - inversion H. destruct s; discriminate.
  - inversion H as [|? ? ? H1|? u ? H1 E].
    + subst. apply IH in H1 as (b0 & b1 & -> & S). exists (x :: b0), b1. split; [reflexivity|now constructor].
    + subst. destruct s as [|y s]; injection E as -> E.
      * exists [], b. split; [reflexivity|constructor].
      * subst. apply IH in H1 as (b0 & b1 & -> & S). exists (y :: b0), b1. split; [reflexivity|now constructor].
Qed.
Lemma subseq_more : forall A (s l r : list A), subseq s l -> subseq s (l ++ r).
Proof. intros A s l r H. rewrite <- (app_nil_r s). apply subseq_app; [assumption|apply subseq_nil]. Qed.

(** ** Leaving out the end of the second list, as long as that costs nothing, does not lose later positions *)
Section Keep.
  Context {A : Type} (a : list A).
  (** [s], at [ps] among the first [i] elements of [a], is also in [b]. *)
  Definition common (i : nat) (b s : list A) (ps : list nat) : Prop := chosen a ps s /\ Forall (fun p => p < i) ps /\ subseq s b.
  Lemma common_snoc : forall i q b s ps t r, common q b s ps -> q < i -> nth_error a q = Some t -> common i (b ++ t :: r) (s ++ [t]) (ps ++ [q]).
  Proof.
    intros i q b s ps t r (C & F & S) Lq N. split; [now apply chosen_snoc|]. split.
    - apply Forall_app. split; [|repeat constructor; assumption]. eapply Forall_impl; [|exact F]. simpl. intros. lia.
    - apply subseq_app; [assumption|]. apply SubTake, subseq_nil.
  Qed.
  Lemma common_last : forall i b s ps q, common i b s (ps ++ [q]) ->
    exists s' t b0 b1, s = s' ++ [t] /\ b = b0 ++ t :: b1 /\ common q b0 s' ps /\ q < i /\ nth_error a q = Some t.
  Proof.
    intros i b s ps q (C & F & S). apply chosen_last in C as (s' & t & -> & C & G & N). apply subseq_snoc_inv in S as (b0 & b1 & -> & S).
    apply Forall_app in F as [_ F]. inv F. exists s', t, b0, b1. repeat (split; [reflexivity || assumption|]). split; [split; [assumption|split; assumption]|auto].
  Qed.
  Lemma keep : forall k i b r s1 ps1 s2 qs, common i b s1 ps1 -> length ps1 = k -> common i (b ++ r) s2 qs -> length qs = k ->
    (forall s ps, common i (b ++ r) s ps -> length ps <= k) -> exists s ps, common i b s ps /\ length ps = k /\ (ps = qs \/ later ps qs).
  Proof.
    induction k as [|k IH]; intros i b r s1 ps1 s2 qs C1 L1 C2 L2 Max.
    - exists s1, ps1. split; [exact C1|]. split; [exact L1|]. left. destruct ps1, qs; try discriminate. reflexivity.
    - destruct ps1 as [|q1 ps1 _] using rev_ind; [discriminate|]. destruct qs as [|q qs _] using rev_ind; [discriminate|].
      rewrite app_length in L1, L2. simpl in L1, L2.
      pose proof (common_last _ _ _ _ _ C1) as (s1' & t1 & c0 & c1 & E1 & Eb & C1' & Q1 & N1).
      pose proof (common_last _ _ _ _ _ C2) as (s2' & t & b0 & b1 & E2 & Ebr & C2' & Q & N).
      assert (Fits : forall x, b = b0 ++ t :: x -> exists s ps, common i b s ps /\ length ps = S k /\ (ps = qs ++ [q] \/ later ps (qs ++ [q]))).
      { intros x E. exists s2, (qs ++ [q]). split; [rewrite E, E2; now apply common_snoc with (1 := C2')|]. split; [rewrite app_length; simpl; lia|now left]. }
      destruct (Nat.lt_trichotomy q q1) as [Lt|[Eq|Gt]].
      + exists s1, (ps1 ++ [q1]). split; [exact C1|]. split; [rewrite app_length; simpl; lia|]. right. now apply later_last.
      + subst q1. assert (t1 = t) by congruence. subst t1. rewrite Eb in Ebr.
        assert (K : (exists x, c0 = b0 ++ x) \/ exists x, b0 = c0 ++ x) by (rewrite <- app_assoc in Ebr; apply app_eq_app in Ebr as (x & [[-> _]|[-> _]]); eauto).
        destruct K as [(x & ->)|(x & ->)].
        * exists s2, (qs ++ [q]). split; [|split; [rewrite app_length; simpl; lia|now left]]. rewrite Eb, E2. apply common_snoc with (q := q); [|assumption..].
          destruct C2' as (X & Y & Z). split; [exact X|]. split; [exact Y|]. now apply subseq_more.
        * destruct (IH q c0 x s1' ps1 s2' qs C1' ltac:(lia) C2' ltac:(lia)) as (s & ps & Cs & Ls & Or).
          { intros s ps Cs. assert (M : length (ps ++ [q]) <= S k) by (eapply Max; rewrite Eb, Ebr; apply common_snoc with (q := q); eassumption). rewrite app_length in M. simpl in M. lia. }
          exists (s ++ [t]), (ps ++ [q]). split; [rewrite Eb; now apply common_snoc with (q := q)|]. split; [rewrite app_length; simpl; lia|].
          destruct Or as [->|Or]; [now left|right; now apply later_snoc].
      + assert (Long : forall x, b0 = b ++ x -> False).
        { intros x E. assert (M : length ((ps1 ++ [q1]) ++ [q]) <= S k).
          { eapply Max. rewrite Ebr. apply common_snoc with (q := q); [|assumption|exact N]. destruct C1 as (X & Y & Z). split; [exact X|]. split; [|rewrite E; apply subseq_more; exact Z].
            destruct C1' as (_ & F & _). apply Forall_app. split; [|repeat constructor; assumption]. eapply Forall_impl; [|exact F]. simpl. intros. lia. }
          rewrite !app_length in M. simpl in M. lia. }
        pose proof Ebr as Eq. apply app_eq_app in Eq as (x & [[E E']|[E E']]); [|destruct (Long x E)].
        destruct x as [|y x]; [rewrite app_nil_r in E; destruct (Long []); now rewrite app_nil_r|]. injection E' as <- _. exact (Fits x E).
  Qed.
End Keep.

(** ** Walking back *)
Section Back.
  Context (a b : list token).
  Local Notation L := (L a b).
  Lemma common_bound : forall i j s ps, common a i (firstn j b) s ps -> length ps <= L i j.
  Proof.
    intros i j s ps (C & F & S). rewrite (chosen_length _ _ _ C), <- (rev_length s). apply ll_upper; apply subseq_rev; [|assumption]. eapply chosen_subseq; eauto.
  Qed.
  Lemma backtrack_latest : forall l,
    (forall i j, i < length a -> j < length b -> get2 l i j = Ok (L i j)) ->
    forall fuel i j suffix, i + j <= fuel -> i < length a -> j < length b ->
    exists s ps, backtrack fuel a b l (L i j) i j (repeat None (L i j) ++ suffix) = Ok (map Some s ++ suffix) /\
      common a i (firstn j b) s ps /\ length ps = L i j /\
      forall s' qs, common a i (firstn j b) s' qs -> length qs = L i j -> qs = ps \/ later ps qs.
  Proof.
    assert (Nil : forall i j, L i j = 0 -> common a i (firstn j b) [] [] /\ length (@nil nat) = L i j
      /\ forall s' qs, common a i (firstn j b) s' qs -> length qs = L i j -> qs = [] \/ later [] qs).
    { intros i j E. split; [split; [apply chosen_nil|split; [constructor|apply subseq_nil]]|]. rewrite E. split; [reflexivity|]. intros s' [|q qs] _ H; [now left|discriminate]. }
    intros l Hg. induction fuel as [|f IH]; intros i j suffix Hfuel Hi Hj.
    - assert (i = 0) by lia. assert (j = 0) by lia. subst. exists [], []. split; [reflexivity|]. apply Nil. reflexivity.
    - cbn [backtrack]. destruct (Nat.ltb_spec 0 i) as [Hi0|Hi0]; simpl.
      2:{ assert (i = 0) by lia. subst. exists [], []. rewrite L_0_l. split; [reflexivity|]. apply (Nil 0 j). reflexivity. }
      destruct (Nat.ltb_spec 0 j) as [Hj0|Hj0]; simpl.
      2:{ assert (j = 0) by lia. subst. exists [], []. pose proof (Nil i 0 (L_0_r a b i)) as K. rewrite L_0_r in *. split; [reflexivity|exact K]. }
      unfold tok.
      destruct (nth_error a (i - 1)) as [ta|] eqn:Ea; [|apply nth_error_None in Ea; lia].
      destruct (nth_error b (j - 1)) as [tb|] eqn:Eb; [|apply nth_error_None in Eb; lia].
      simpl. pose proof (L_step a b _ _ _ _ Ea Eb) as HL. pose proof (firstn_snoc _ _ _ _ Eb) as Fb.
      replace (S (i - 1)) with i in * by lia. replace (S (j - 1)) with j in * by lia.
      assert (Wide : forall i' s ps x, i' <= i -> common a i' x s ps -> common a i x s ps).
      { intros i' s ps x Le (C & F & S). split; [exact C|]. split; [|exact S]. eapply Forall_impl; [|exact F]. simpl. intros. lia. }
      destruct (token_eqb ta tb) eqn:Et.
      + apply token_eqb_eq in Et. subst tb. rewrite HL. simpl Nat.eqb. cbv iota.
        rewrite repeat_snoc, <- app_assoc. simpl app. simpl Nat.sub. rewrite Nat.sub_0_r.
        replace (set_nth (L (i - 1) (j - 1)) (Some ta) (repeat None (L (i - 1) (j - 1)) ++ None :: suffix))
          with (Some (repeat None (L (i - 1) (j - 1)) ++ Some ta :: suffix))
          by (symmetry; rewrite <- (repeat_length (@None token) (L (i - 1) (j - 1))) at 1; apply set_nth_middle).
        simpl. destruct (IH (i - 1) (j - 1) (Some ta :: suffix) ltac:(lia) ltac:(lia) ltac:(lia)) as (s & ps & E & C & Ln & Best).
        rewrite E. exists (s ++ [ta]), (ps ++ [i - 1]). rewrite map_app, <- app_assoc, app_length. split; [reflexivity|]. split.
        * rewrite Fb. apply common_snoc with (q := i - 1); [exact C|lia|exact Ea].
        * split; [simpl; lia|]. intros s' qs C' Lq. destruct qs as [|q qs _] using rev_ind; [simpl in Lq; lia|]. rewrite app_length in Lq. simpl in Lq.
          destruct C' as (C' & F & S). apply chosen_last in C' as (s0 & t & -> & C' & G & N). apply Forall_app in F as [_ F]. inv F.
          destruct (Nat.eq_dec q (i - 1)) as [->|Ne]; [|right; apply later_last; lia].
          assert (t = ta) by congruence. subst t. rewrite Fb in S.
          assert (S0 : subseq s0 (firstn (j - 1) b)).
          { apply subseq_rev in S. rewrite !rev_app_distr in S. simpl in S. rewrite <- (rev_involutive s0), <- (rev_involutive (firstn (j - 1) b)). apply subseq_rev.
            inversion S as [|? ? ? S'|]; subst; [|assumption]. clear - S'. remember (rev s0) as u. remember (rev (firstn (j - 1) b)) as w. clear Hequ Heqw.
            remember (ta :: u) as v. revert u Heqv. induction S'; intros u E; [discriminate| |]; [subst; constructor; now apply IHS'|]. injection E as -> ->. now constructor. }
          destruct (Best s0 qs) as [->|Bt]; [split; [exact C'|split; assumption]|lia|now left|right; now apply later_snoc].
      + assert (Ne : ta <> tb) by (intros ->; rewrite token_eqb_refl in Et; discriminate).
        rewrite !Hg by lia. simpl. destruct (Nat.ltb_spec (L i (j - 1)) (L (i - 1) j)) as [Hlt|Hge].
        * assert (EL : L i j = L (i - 1) j) by lia. rewrite EL.
          destruct (IH (i - 1) j suffix ltac:(lia) ltac:(lia) ltac:(lia)) as (s & ps & E & C & Ln & Best).
          exists s, ps. split; [exact E|]. split; [now apply (Wide (i - 1)); [lia|]|]. split; [exact Ln|]. intros s' qs C' Lq. apply (Best s' qs); [|exact Lq].
          destruct qs as [|q qs _] using rev_ind; [simpl in Lq; lia|]. pose proof C' as (X & Y & Z). split; [exact X|]. split; [|exact Z].
          apply chosen_last in X as (s0 & t & -> & X & G & N). apply Forall_app in Y as [Y1 Y2]. inv Y2.
          assert (Nq : q <> i - 1).
          { intros ->. assert (t = ta) by congruence. subst t. rewrite Fb in Z. apply subseq_rev in Z. rewrite !rev_app_distr in Z. simpl in Z.
            inversion Z as [|? ? ? Z'|]; subst; [|congruence]. apply subseq_rev in Z'. rewrite rev_involutive in Z'. simpl in Z'. rewrite rev_involutive in Z'.
            assert (B : length (qs ++ [i - 1]) <= L i (j - 1)) by (apply (common_bound i (j - 1) (s0 ++ [ta])); destruct C' as (U & V & _); split; [exact U|]; split; [exact V|exact Z']). lia. }
          apply Forall_app. split; [|repeat constructor; lia]. eapply Forall_impl; [|exact G]. simpl. intros. lia.
        * assert (EL : L i j = L i (j - 1)) by lia. rewrite EL.
          destruct (IH i (j - 1) suffix ltac:(lia) ltac:(lia) ltac:(lia)) as (s & ps & E & C & Ln & Best).
          exists s, ps. split; [exact E|]. split; [destruct C as (X & Y & Z); split; [exact X|]; split; [exact Y|]; rewrite Fb; now apply subseq_more|]. split; [exact Ln|].
          intros s' qs C' Lq. rewrite Fb in C'. destruct (keep a (L i (j - 1)) i (firstn (j - 1) b) [tb] s ps s' qs C Ln C' Lq) as (s2 & ps2 & C2 & L2 & Or).
          { intros u us Cu. rewrite <- Fb in Cu. apply common_bound in Cu. lia. }
          destruct (Best s2 ps2 C2 L2) as [->|Bt]; destruct Or as [Or|Or]; [left; congruence|right; assumption|right; congruence|right; eapply ahead_trans; eassumption].
  Qed.
  Lemma lcs_latest : a <> [] -> b <> [] -> exists s, lcs_tokens a b = Ok s /\ latest_common s (removelast a) (removelast b).
  Proof.
    intros Ha Hb. destruct (lcs_tokens_ok a b Ha Hb) as (s0 & E0 & Lc). exists s0. split; [exact E0|]. split; [exact Lc|].
    unfold lcs_tokens in E0. destruct (lcs_table_ok a b) as (l & El & Hs & Hg). rewrite El in E0. simpl in E0.
    destruct (length a) as [|n] eqn:Ela; [destruct a; [contradiction|discriminate]|].
    destruct (length b) as [|m] eqn:Elb; [destruct b; [contradiction|discriminate]|].
    rewrite Hg in E0 by lia. simpl in E0.
    destruct (backtrack_latest l) with (fuel := n + m) (i := n) (j := m) (suffix := @nil (option token)) as (s & ps & E & C & Ln & Best);
      try lia; [rewrite Ela, Elb; exact Hg|].
    rewrite !app_nil_r in E. rewrite E in E0. simpl in E0. rewrite mapM_unwrap in E0. injection E0 as <-.
    replace n with (length a - 1) in * by lia. replace m with (length b - 1) in * by lia.
    rewrite firstn_removelast in C, Best by assumption.
    assert (Ra : forall qs u, Forall (fun p => p < length a - 1) qs -> (chosen a qs u <-> chosen (removelast a) qs u)).
    { intros qs u F. unfold chosen. replace (map (nth_error (removelast a)) qs) with (map (nth_error a) qs); [reflexivity|]. apply map_ext_in. intros q Hq. rewrite Forall_forall in F. apply F in Hq.
      rewrite <- firstn_removelast by assumption. rewrite <- (firstn_skipn (length a - 1) a) at 1. apply nth_error_app1. rewrite firstn_length. lia. }
    assert (Rl : length (removelast a) = length a - 1) by (rewrite <- firstn_removelast, firstn_length by assumption; lia).
    destruct C as (C & F & S). exists ps. split; [now apply Ra|]. intros s' qs Lc' Cq.
    assert (Fq : Forall (fun p => p < length a - 1) qs) by (rewrite <- Rl; eapply chosen_in; eassumption).
    apply (Best s' qs).
    - split; [now apply Ra|]. split; [exact Fq|apply Lc'].
    - rewrite <- Ln, (chosen_length _ _ _ Cq), (chosen_length _ _ _ C). destruct Lc as (A1 & A2 & A3), Lc' as (B1 & B2 & B3). apply Nat.le_antisymm; auto.
  Qed.
End Back.

Lemma latest_unique : forall A (s s' a b : list A), latest_common s a b -> latest_common s' a b -> s = s'.
Proof.
  intros A s s' a b (H & ps & C & B) (H' & ps' & C' & B'). assert (E : ps = ps').
  { destruct (B s' ps' H' C') as [->|L1]; [reflexivity|]. destruct (B' s ps H C) as [->|L2]; [reflexivity|]. destruct (ahead_irrefl (rev ps)). eapply ahead_trans; eassumption. }
  subst. eapply chosen_fun; eassumption.
Qed.

Theorem diff_exactly : forall a b d, diff_tokens a b = Ok d <-> a <> [] /\ b <> [] /\ exists kept, latest_common kept (removelast a) (removelast b)
  /\ selected (fun t => ~ In t kept) a (d_removed d) /\ selected (fun t => ~ In t kept) b (d_added d).
Proof.
  intros a b d. assert (K : a <> [] -> b <> [] -> exists kept d', diff_tokens a b = Ok d' /\ latest_common kept (removelast a) (removelast b)
    /\ selected (fun t => ~ In t kept) a (d_removed d') /\ selected (fun t => ~ In t kept) b (d_added d')).
  { intros Ha Hb. unfold diff_tokens. destruct (lcs_latest a b Ha Hb) as (s & -> & Hs). simpl. exists s. eexists. split; [reflexivity|]. split; [exact Hs|]. split; apply selected_filter; apply not_in_lcs_spec. }
  split.
  - intros E. assert (Ha : a <> []) by (intros ->; destruct (diff_empty [] b) as [w X]; auto; congruence).
    assert (Hb : b <> []) by (intros ->; destruct (diff_empty a []) as [w X]; auto; congruence).
    destruct (K Ha Hb) as (kept & d' & E' & R). rewrite E in E'. injection E' as <-. eauto.
  - intros (Ha & Hb & kept & Lc & R1 & R2). destruct (K Ha Hb) as (kept' & d' & E' & Lc' & R1' & R2').
    rewrite E'. rewrite <- (latest_unique _ _ _ _ _ Lc Lc') in R1', R2'. destruct d, d'. simpl in *. now rewrite (selected_fun _ _ _ _ _ R1 R1'), (selected_fun _ _ _ _ _ R2 R2').
Qed.

Theorem diff_swapped : forall a b d d', one_common (removelast a) (removelast b) -> diff_tokens a b = Ok d -> diff_tokens b a = Ok d' ->
  d_added d' = d_removed d /\ d_removed d' = d_added d.
Proof.
  intros a b d d' One E E'. apply diff_exactly in E as (_ & _ & k & (Lc & _) & R1 & R2). apply diff_exactly in E' as (_ & _ & k' & ((A1 & A2 & A3) & _) & R1' & R2').
  assert (k = k') by (apply One; [exact Lc|]; split; [exact A2|]; split; [exact A1|]; intros; now apply A3). subst k'.
  split; eapply selected_fun; eassumption.
Qed.

Theorem diff_nothing : forall a b, diff_tokens a b = Ok (Diff [] []) <-> a <> [] /\ b <> [] /\ exists kept, latest_common kept (removelast a) (removelast b)
  /\ (forall t, In t a <-> In t kept) /\ forall t, In t b <-> In t kept.
Proof.
  assert (D : forall (k : list token) t, In t k \/ ~ In t k) by (intros k t; destruct (existsb (fun c => token_eqb c t) k) eqn:E; [left; apply existsb_exists in E as (x & Hx & E); apply token_eqb_eq in E; now subst|right; now apply not_in_lcs_spec; unfold not_in_lcs; rewrite E]).
  assert (N : forall k l : list token, selected (fun t => ~ In t k) l [] <-> forall t, In t l -> In t k).
  { intros k l. split.
    - intros S t H. destruct (D k t) as [|X]; [assumption|]. assert (F : In t []) by (apply (selected_In _ _ _ _ t S); auto). destruct F.
    - induction l as [|x l IH]; intros H; [constructor|]. apply SelDrop; [intros X; apply X, H; now left|]. apply IH. intros t Ht. apply H. now right. }
  intros a b. rewrite diff_exactly. simpl. split; intros (Ha & Hb & k & Lc & R1 & R2); (split; [exact Ha|]; split; [exact Hb|]); exists k; (split; [exact Lc|]).
  - rewrite N in R1, R2. destruct Lc as ((S1 & S2 & _) & _). split; intros t; (split; [auto|]); intros H; apply removelast_In; eapply subseq_In; eassumption.
  - rewrite !N. split; intros t H; [now apply R1|now apply R2].
Qed.
