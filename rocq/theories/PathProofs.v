(** Token paths: lemmas for C75. *)
From Verif Require Import Prelude F32 Text MapModel MapSpec PathSpec BaseProofs TokenProofs DiffProofs ParserProofs.

Lemma counting_snoc : forall ts d c t, counting d c (ts ++ [t]) = count_token (fold_left next_depth ts d) (counting d c ts) t.
Proof. induction ts as [|u ts IH]; intros d c t; [reflexivity|]. cbn [app counting fold_left]. apply IH. Qed.
Lemma counts_snoc : forall ts t, counts_after (ts ++ [t]) = count_token (depth_after ts) (counts_after ts) t.
Proof. intros. apply counting_snoc. Qed.
Lemma depth_snoc : forall ts t, depth_after (ts ++ [t]) = next_depth (depth_after ts) t.
Proof. intros. unfold depth_after. now rewrite fold_left_app. Qed.

Lemma put_keys : forall m k v t, In t (map fst (path_put m k v)) <-> t = k \/ In t (map fst m).
Proof.
  induction m as [|[k' v'] m IH]; intros k v t; cbn [path_put map fst].
  - cbn. intuition.
  - destruct (token_eqb k k') eqn:E; cbn [map fst In].
    + apply token_eqb_eq in E. subst. intuition.
    + rewrite IH. intuition.
Qed.
Lemma put_nodup : forall m k v, NoDup (map fst m) -> NoDup (map fst (path_put m k v)).
Proof.
  induction m as [|[k' v'] m IH]; intros k v H; cbn [path_put map fst]; [repeat constructor; auto|].
  inv H. destruct (token_eqb k k') eqn:E; cbn [map fst]; constructor; auto.
  rewrite put_keys. intros [->|I]; [|contradiction]. now rewrite token_eqb_refl in E.
Qed.
Lemma put_in : forall m k v t q, NoDup (map fst m) -> (In (t, q) (path_put m k v) <-> (t = k /\ q = v) \/ (t <> k /\ In (t, q) m)).
Proof.
  induction m as [|[k' v'] m IH]; intros k v t q H; cbn [path_put].
  - cbn. split; [intros [[= <- <-]|[]]; auto|intros [[-> ->]|[_ []]]; auto].
  - inv H. destruct (token_eqb k k') eqn:E; cbn [In].
    + apply token_eqb_eq in E. subst k'. split.
      * intros [[= <- <-]|I]; [auto|]. right. split; [|auto]. intros ->. apply H2. now apply (in_map fst) in I.
      * intros [[-> ->]|[N [[= -> ->]|I]]]; auto. contradiction.
    + rewrite IH by assumption. assert (k <> k') by (intros ->; now rewrite token_eqb_refl in E). split.
      * intros [[= <- <-]|[?|[? ?]]]; auto.
      * intros [?|[? [[= <- <-]|?]]]; auto.
Qed.

Section Paths.
  Context {T : Type} (O : num T) (lower : str -> str).
  Notation parse_step := (parse_step O lower).
  Notation parse_loop := (parse_loop O lower).
  Notation parse_plane := (parse_plane O lower).

  (** The parser state agrees with the counts. *)
  Definition synced (ts : list token) (s : pstate (T := T)) : Prop :=
    depth (ps_scope s) = depth_after ts /\ length (ps_entities s) = n_entities (counts_after ts) /\
    match ps_scope s with
    | SFile => True
    | SEntity id => exists es e, ps_entities s = es ++ [e] /\ id = length es /\ length (e_brushes e) = n_brushes (counts_after ts)
    | SBrush id b => exists es props bs ps, ps_entities s = es ++ [Entity props (bs ++ [ps])] /\ id = length es /\ b = length bs /\
        length (bs ++ [ps]) = n_brushes (counts_after ts) /\ length ps = n_planes (counts_after ts)
    end.
  Lemma synced_wf : forall ts s, synced ts s -> wf s.
  Proof.
    intros ts s (_ & _ & H). unfold wf. destruct (ps_scope s); auto.
    - destruct H as (es & e & -> & _). eauto.
    - destruct H as (es & pr & bs & ps & -> & _). eauto 6.
  Qed.

  (** One step: the state stays in step, and a path is recorded for braces that open, properties and planes. *)
  Lemma step_synced : forall ts s t s', synced ts s -> parse_step s t = Ok s' ->
    synced (ts ++ [t]) s' /\
    ps_paths s' = match address ts t with Some q => path_put (ps_paths s) t q | None => ps_paths s end /\
    (forall q, address ts t = Some q -> found parse_plane (ps_entities s') t q).
  Proof.
    intros ts [sc paths es] t s' Y H. pose proof (synced_wf _ _ Y) as W.
    assert (G : forall u, count_token (depth_after ts) (counts_after ts) u = counts_after (ts ++ [u])) by (intros; now rewrite counts_snoc).
    destruct Y as (D & L & Y). unfold synced. rewrite counts_snoc, depth_snoc. cbn [ps_scope ps_paths ps_entities] in *.
    destruct t as [c| | |k v|line|u].
    - inv H. repeat split; auto. intros q H. discriminate H.
    - cbn in H. destruct sc; cbn [depth] in D; [|destruct Y as (es0 & e & -> & -> & B)|discriminate H].
      + inv H. cbn [ps_scope ps_paths ps_entities depth address count_token next_depth]. rewrite <- D. cbn [Nat.eqb n_entities n_brushes n_planes].
        rewrite app_length. cbn [length]. repeat split; [lia| |now rewrite L|].
        * exists es, entity_new. repeat split.
        * intros q [= <-]. rewrite <- L. eapply FoundEntity. rewrite nth_error_app2, Nat.sub_diag by lia. reflexivity.
      + rewrite last_entity_snoc in H. cbn [bind] in H. rewrite set_last_entity_snoc in H. inv H.
        cbn [ps_scope ps_paths ps_entities depth address count_token next_depth]. rewrite <- D. cbn [Nat.eqb n_entities n_brushes n_planes].
        rewrite app_length in *. cbn [length] in *. repeat split; [lia| | |].
        * exists es0, (e_props e), (e_brushes e), []. repeat split; rewrite ?app_length; cbn; lia.
        * rewrite <- L, B. replace (length es0 + 1 - 1) with (length es0) by lia. reflexivity.
        * intros q [= <-]. rewrite <- L, <- B. replace (length es0 + 1 - 1) with (length es0) by lia.
          eapply FoundBrush; [rewrite nth_error_app2, Nat.sub_diag by lia; reflexivity|]. cbn [e_brushes]. rewrite nth_error_app2, Nat.sub_diag by lia. reflexivity.
    - cbn in H. destruct sc; [discriminate H|destruct Y as (es0 & e & -> & -> & B)|destruct Y as (es0 & pr & bs & ps & -> & -> & -> & B & P)];
        inv H; cbn [ps_scope ps_paths ps_entities depth address count_token next_depth] in *; rewrite <- D; (repeat split; auto); try (intros q H; discriminate H).
      exists es0, (Entity pr (bs ++ [ps])). repeat split; auto.
    - cbn in H. destruct sc; [discriminate H|destruct Y as (es0 & e & -> & -> & B)|discriminate H].
      rewrite last_entity_snoc in H. cbn [bind] in H. rewrite set_last_entity_snoc in H. inv H.
      cbn [ps_scope ps_paths ps_entities depth address count_token next_depth] in *. rewrite app_length in *. cbn [length] in *.
      rewrite <- L. replace (length es0 + 1 - 1) with (length es0) by lia. repeat split; auto.
      + eexists _, _. repeat split. exact B.
      + intros q [= <-]. eapply FoundProperty; [rewrite nth_error_app2, Nat.sub_diag by lia; reflexivity|].
        unfold get_property. cbn [e_props]. rewrite hget_hput, str_eqb_refl. reflexivity.
    - destruct sc; [discriminate H|discriminate H|]. destruct Y as (es0 & pr & bs & ps & -> & -> & -> & B & P).
      destruct (step_plane O lower _ line W eq_refl) as (es1 & pr1 & bs1 & ps1 & i & b & E1 & E2 & E3). rewrite E3 in H. clear E3.
      cbn [ps_entities ps_scope] in E1, E2. inv E2. apply app_inj_tail in E1 as (-> & E1). inv E1. apply app_inj_tail in H2 as (-> & ->).
      apply bind_ok in H as (pl & Epl & H). inv H. cbn [ps_scope ps_paths ps_entities depth address count_token next_depth n_entities n_brushes n_planes] in *.
      rewrite !app_length in *. cbn [length] in *. rewrite <- L, <- B, <- P.
      replace (length es1 + 1 - 1) with (length es1) by lia. replace (length bs1 + 1 - 1) with (length bs1) by lia. repeat split; auto.
      + eexists _, _, _, _. repeat split; rewrite ?app_length; cbn; lia.
      + intros q [= <-]. apply (FoundPlane _ _ _ (Entity pr1 (bs1 ++ [ps1 ++ [pl]])) _ (ps1 ++ [pl]) _ _ pl); cbn [e_brushes]; [| | |exact Epl];
          rewrite nth_error_app2, Nat.sub_diag by lia; reflexivity.
    - inv H. repeat split; auto. intros q H. discriminate H.
  Qed.

  Lemma loop_synced : forall ts s, parse_loop parse_init ts = Ok s -> synced ts s.
  Proof.
    induction ts as [|t ts IH] using rev_ind; intros s H.
    - inv H. repeat split.
    - rewrite loop_app in H. apply bind_ok in H as (s1 & H1 & H). cbn in H. apply bind_ok in H as (s2 & H2 & H). inv H.
      eapply step_synced; eauto.
  Qed.

  (** Entities only grow. *)
  Lemma cut_nth : forall A (R : A -> A -> Prop) a b i x, (forall y, R y y) -> cut_list R a b -> nth_error a i = Some x ->
    exists y, nth_error b i = Some y /\ R x y.
  Proof.
    intros A R a b i x HR [->|(f & l & l' & r & -> & -> & H)] E; [destruct i; discriminate E|].
    destruct (Nat.lt_ge_cases i (length f)) as [I|I].
    - rewrite nth_error_app1 in E by assumption. rewrite nth_error_app1 by assumption. exists x. auto.
    - rewrite nth_error_app2 in E by assumption. rewrite nth_error_app2 by assumption.
      destruct (i - length f) as [|k]; [|destruct k; discriminate E]. inv E. exists l'. split; [reflexivity|assumption].
  Qed.
  Lemma found_cut : forall es es' t q, cut_entities es es' -> found parse_plane es t q -> found parse_plane es' t q.
  Proof.
    intros es es' t q C F. destruct F as [i e E|i e b ps E B|i e k v w E K|i e b ps n l pl E B P Rd];
      destruct (cut_nth _ _ _ _ _ _ cut_entity_refl C E) as (e' & E' & Cb & Cp).
    - eapply FoundEntity; eauto.
    - destruct (cut_nth _ _ _ _ _ _ cut_brush_refl Cb B) as (ps' & B' & _). eapply FoundBrush; eauto.
    - destruct (get_property e' k) as [w'|] eqn:G; [eapply FoundProperty; eauto|]. exfalso. revert G. apply Cp. congruence.
    - destruct (cut_nth _ _ _ _ _ _ cut_brush_refl Cb B) as (ps' & B' & m & ->). eapply FoundPlane; eauto.
      rewrite nth_error_app1; [exact P|]. apply nth_error_Some. congruence.
  Qed.

  Theorem paths_iff : forall ts paths es, parse_tokens O lower ts = Ok (paths, es) ->
    NoDup (map fst paths) /\
    forall t q, In (t, q) paths <-> exists pre post, ts = pre ++ t :: post /\ ~ In t post /\ address pre t = Some q.
  Proof.
    intros ts paths es H. unfold parse_tokens in H. apply bind_ok in H as (s & H & E). inv E. revert s H.
    induction ts as [|u ts IH] using rev_ind; intros s H.
    - inv H. split; [constructor|]. intros t q. split; [intros []|]. intros (pre & post & E & _). destruct pre; discriminate E.
    - rewrite loop_app in H. apply bind_ok in H as (s1 & H1 & H). cbn in H. apply bind_ok in H as (s2 & H2 & H). inv H.
      destruct (step_synced _ _ _ _ (loop_synced _ _ H1) H2) as (_ & Ep & _). destruct (IH _ H1) as (ND & Iff). clear IH.
      assert (Old : forall t q, t <> u \/ address ts u = None ->
        ((exists pre post, ts = pre ++ t :: post /\ ~ In t post /\ address pre t = Some q) <->
         (exists pre post, ts ++ [u] = pre ++ t :: post /\ ~ In t post /\ address pre t = Some q))).
      { intros t q N. split.
        - intros (pre & post & -> & I & A). destruct N as [N|N].
          + exists pre, (post ++ [u]). rewrite <- app_assoc. repeat split; auto. rewrite in_app_iff. intros [?|[?|[]]]; auto.
          + exists pre, (post ++ [u]). rewrite <- app_assoc. repeat split; auto. rewrite in_app_iff. intros [?|[->|[]]]; [auto|].
            destruct t; discriminate.
        - intros (pre & post & E & I & A). destruct post as [|w post] using rev_ind.
          + apply app_inj_tail in E as (-> & ->). destruct N as [N|N]; [contradiction|congruence].
          + rewrite app_comm_cons, app_assoc in E. apply app_inj_tail in E as (-> & ->). exists pre, post. repeat split; auto.
            intros X. apply I. apply in_or_app. now left. }
      rewrite Ep. destruct (address ts u) as [qu|] eqn:Au.
      + split; [now apply put_nodup|]. intros t q. rewrite put_in by exact ND. split.
        * intros [(-> & ->)|(N & I)].
          -- exists ts, []. repeat split; auto.
          -- apply Old; [now left|]. now apply Iff.
        * intros X. destruct (token_eqb t u) eqn:Et.
          -- apply token_eqb_eq in Et. subst u. left. split; [reflexivity|]. destruct X as (pre & post & E & I & A).
             destruct post as [|w post] using rev_ind.
             ++ apply app_inj_tail in E as (-> & _). congruence.
             ++ rewrite app_comm_cons, app_assoc in E. apply app_inj_tail in E as (_ & <-). exfalso. apply I, in_or_app. right. now left.
          -- right. assert (N : t <> u) by (intros ->; now rewrite token_eqb_refl in Et). split; [exact N|]. apply Iff. apply Old in X; auto.
      + split; [exact ND|]. intros t q. rewrite Iff. apply Old. now right.
  Qed.

  Theorem paths_found : forall ts paths es pre t post q, parse_tokens O lower ts = Ok (paths, es) ->
    ts = pre ++ t :: post -> address pre t = Some q -> found parse_plane es t q.
  Proof.
    intros ts paths es pre t post q H -> A. unfold parse_tokens in H. apply bind_ok in H as (s & H & E). inv E.
    rewrite loop_app in H. apply bind_ok in H as (s1 & H1 & H). cbn [MapModel.parse_loop] in H. apply bind_ok in H as (s2 & H2 & H).
    pose proof (loop_synced _ _ H1) as Y. destruct (step_synced _ _ _ _ Y H2) as (Y2 & _ & F).
    eapply found_cut; [|apply F; exact A]. eapply loop_cut; [|exact H]. eapply synced_wf. exact Y2.
  Qed.

  (** The value of a property is that of the last line with the key in the entity. *)
  Lemma step_value : forall ts s t s' i e, synced ts s -> parse_step s t = Ok s' -> nth_error (ps_entities s) i = Some e ->
    exists e', nth_error (ps_entities s') i = Some e' /\
      forall k, get_property e' k = get_property e k \/ (i = n_entities (counts_after ts) - 1 /\ exists v, t = TProperty k v).
  Proof.
    intros ts [sc paths es] t s' i e Y H E. pose proof (synced_wf _ _ Y) as W. destruct Y as (D & L & Y). cbn [ps_scope ps_paths ps_entities] in *.
    destruct t as [c| | |k v|line|u].
    - inv H. eauto.
    - cbn in H. destruct sc; cbn [depth] in D; [|destruct Y as (es0 & e0 & -> & -> & B)|discriminate H].
      + inv H. cbn [ps_entities]. exists e. split; [|auto]. rewrite nth_error_app1; [exact E|]. apply nth_error_Some. congruence.
      + rewrite last_entity_snoc in H. cbn [bind] in H. rewrite set_last_entity_snoc in H. inv H. cbn [ps_entities].
        destruct (Nat.lt_ge_cases i (length es0)) as [I|I].
        * rewrite nth_error_app1 in * by exact I. eauto.
        * rewrite nth_error_app2 in * by exact I. destruct (i - length es0) as [|j]; [|destruct j; discriminate E]. inv E. eexists. split; [reflexivity|]. auto.
    - cbn in H. destruct sc; inv H; cbn [ps_entities]; eauto.
    - cbn in H. destruct sc; [discriminate H|destruct Y as (es0 & e0 & -> & -> & B)|discriminate H].
      rewrite last_entity_snoc in H. cbn [bind] in H. rewrite set_last_entity_snoc in H. inv H. cbn [ps_entities] in *. rewrite app_length in L. cbn in L.
      destruct (Nat.lt_ge_cases i (length es0)) as [I|I].
      * rewrite nth_error_app1 in * by exact I. eauto.
      * rewrite nth_error_app2 in * by exact I. destruct (i - length es0) as [|j] eqn:J; [|destruct j; discriminate E]. inv E. eexists. split; [reflexivity|].
        intros k'. unfold get_property. cbn [e_props]. rewrite hget_hput. destruct (str_eqb k' k) eqn:Ek; [|auto].
        apply str_eqb_eq in Ek. subst. right. split; [lia|eauto].
    - destruct sc; [discriminate H|discriminate H|]. destruct Y as (es0 & pr & bs & ps & -> & -> & -> & B & P).
      destruct (step_plane O lower _ line W eq_refl) as (es1 & pr1 & bs1 & ps1 & i1 & b1 & E1 & E2 & E3). rewrite E3 in H. clear E3.
      cbn [ps_entities ps_scope] in E1, E2. inv E2. apply app_inj_tail in E1 as (-> & E1). inv E1.
      apply bind_ok in H as (pl & Epl & H). inv H. cbn [ps_entities] in *.
      destruct (Nat.lt_ge_cases i (length es1)) as [I|I].
      * rewrite nth_error_app1 in * by exact I. eauto.
      * rewrite nth_error_app2 in * by exact I. destruct (i - length es1) as [|j]; [|destruct j; discriminate E]. inv E. eexists. split; [reflexivity|]. auto.
    - inv H. eauto.
  Qed.

  Theorem last_value : forall ts paths es pre k v post, parse_tokens O lower ts = Ok (paths, es) ->
    ts = pre ++ TProperty k v :: post ->
    (forall a v' b, post = a ++ TProperty k v' :: b -> n_entities (counts_after (pre ++ TProperty k v :: a)) <> n_entities (counts_after pre)) ->
    exists e, nth_error es (n_entities (counts_after pre) - 1) = Some e /\ get_property e k = Some v.
  Proof.
    intros ts paths es pre k v post H -> N. unfold parse_tokens in H. apply bind_ok in H as (s & H & E). inv E. revert s H N.
    induction post as [|t post IH] using rev_ind; intros s H N.
    - rewrite loop_app in H. apply bind_ok in H as (s1 & H1 & H). cbn [MapModel.parse_loop] in H. apply bind_ok in H as (s2 & H2 & H). inv H.
      pose proof (loop_synced _ _ H1) as (D & L & Y). destruct s1 as [sc ps es]. cbn [ps_scope ps_entities] in *. cbn in H2.
      destruct sc; [discriminate H2|destruct Y as (es0 & e0 & -> & -> & B)|discriminate H2].
      rewrite last_entity_snoc in H2. cbn [bind] in H2. rewrite set_last_entity_snoc in H2. inv H2. cbn [ps_entities] in *. rewrite app_length in L. cbn in L.
      eexists. rewrite nth_error_app2 by lia. replace (n_entities (counts_after pre) - 1 - length es0) with 0 by lia. split; [reflexivity|].
      unfold get_property. cbn [e_props]. now rewrite hget_hput, str_eqb_refl.
    - change (pre ++ TProperty k v :: post ++ [t]) with (pre ++ (TProperty k v :: post) ++ [t]) in H. rewrite app_assoc, loop_app in H.
      apply bind_ok in H as (s1 & H1 & H). cbn [MapModel.parse_loop] in H. apply bind_ok in H as (s2 & H2 & H). inv H.
      destruct (IH _ H1) as (e & E & V).
      { intros a v' b ->. apply (N a v' (b ++ [t])). now rewrite <- app_assoc. }
      destruct (step_value _ _ _ _ _ _ (loop_synced _ _ H1) H2 E) as (e' & E' & K). exists e'. split; [exact E'|].
      destruct (K k) as [K'|(I & v' & ->)]; [now rewrite K'|]. exfalso.
      assert (Hc : n_entities (counts_after (pre ++ TProperty k v :: post)) <> n_entities (counts_after pre)) by now apply (N post v' []).
      assert (M : forall ts d c, n_entities c <= n_entities (counting d c ts)).
      { clear. induction ts as [|t ts IH]; intros d c; [auto|]. cbn [counting]. etransitivity; [|apply IH]. destruct t; cbn; try lia. destruct (d =? 0); cbn; lia. }
      assert (M' : n_entities (counts_after pre) <= n_entities (counts_after (pre ++ TProperty k v :: post))).
      { unfold counts_after. clear -M. revert M. generalize (Counts 0 0 0) as c. generalize 0 as d. induction pre as [|t pre IH]; intros d c M; cbn [app counting]; [apply M|apply IH, M]. }
      assert (Z : 0 < n_entities (counts_after pre)).
      { destruct (n_entities (counts_after pre)) eqn:Z; [|lia]. exfalso.
        rewrite loop_app in H1. apply bind_ok in H1 as (s3 & H3 & H1). cbn [MapModel.parse_loop] in H1. apply bind_ok in H1 as (s4 & H4 & H1).
        destruct (loop_synced _ _ H3) as (_ & L & Y). destruct s3 as [sc ps es]. cbn in H4, L, Y.
        destruct sc; [discriminate H4|destruct Y as (es0 & e0 & -> & _)|discriminate H4]. rewrite app_length in L. cbn in L. lia. }
      lia.
  Qed.
End Paths.
