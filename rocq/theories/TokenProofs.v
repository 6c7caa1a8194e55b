(** Lines and tokens: lemmas for C01, C02, and the text level of C05, C06. *)
From Verif Require Import Prelude F32 Text MapModel MapSpec BaseProofs.

(** ** Lines *)
Lemma strip_cr_snoc : forall l, strip_cr (l ++ [13%N]) = l.
Proof.
  induction l as [|x l IH]; [reflexivity|]. simpl.
  destruct (l ++ [13%N]) eqn:E; [destruct l; discriminate|].
  rewrite IH. destruct x as [|p]; [reflexivity|].
  repeat (destruct p as [p|p|]; try reflexivity).
Qed.

Lemma strip_cr_plain : forall l, ~ ends_with_cr l -> strip_cr l = l.
Proof.
  induction l as [|x l IH]; intros H; [reflexivity|].
  destruct l as [|y l].
  - simpl. destruct (N.eq_dec x 13) as [->|Hx].
    + destruct H. exists []. reflexivity.
    + destruct x as [|p]; [reflexivity|].
      repeat (destruct p as [p|p|]; try reflexivity). contradiction.
  - assert (E : strip_cr (y :: l) = y :: l).
    { apply IH. intros (l' & E). apply H. exists (x :: l'). rewrite E. reflexivity. }
    change (match x with 13%N => x :: strip_cr (y :: l) | _ => x :: strip_cr (y :: l) end = x :: y :: l).
    rewrite E. destruct x as [|p]; [reflexivity|]. repeat (destruct p as [p|p|]; try reflexivity).
Qed.

Lemma ends_with_cr_dec : forall l, ends_with_cr l \/ ~ ends_with_cr l.
Proof.
  intros l. destruct l as [|x l] using rev_ind.
  - right. intros (l' & E). destruct l'; discriminate.
  - destruct (N.eq_dec x 13) as [->|H].
    + left. exists l. reflexivity.
    + right. intros (l' & E). apply app_inj_tail in E as [_ E]. contradiction.
Qed.

Lemma last_lines_model : forall b rest last, one_line rest -> last_lines b rest last ->
  lines_of b (split_char 10 rest) = last.
Proof.
  intros b rest last H1 H. rewrite split_char_none by exact H1. inv H; simpl.
  - reflexivity.
  - destruct rest; [contradiction|]. destruct b; [reflexivity|]. rewrite strip_cr_plain by assumption. reflexivity.
  - destruct (l ++ [13%N]) eqn:E; [destruct l; discriminate|reflexivity].
  - destruct (l ++ [13%N]) eqn:E; [destruct l; discriminate|]. rewrite <- E, strip_cr_snoc. reflexivity.
Qed.

Lemma lines_of_cons : forall b p ps, ps <> [] -> lines_of b (p :: ps) = strip_cr p :: lines_of b ps.
Proof. intros b p ps H. destruct ps; [contradiction|reflexivity]. Qed.

Lemma render_lines : forall b ls rest last, Forall wf_line ls -> one_line rest -> last_lines b rest last ->
  str_lines b (render ls rest) = map fst ls ++ last.
Proof.
  intros b ls rest last Hls Hr Hl. unfold str_lines.
  induction Hls as [|[l e] ls [H1 H2] Hls IH]; simpl.
  - apply last_lines_model; assumption.
  - unfold render in *. simpl in *. destruct e; simpl; rewrite <- app_assoc.
    + change ([10%N] ++ ?x) with (10%N :: x).
      rewrite <- app_assoc. simpl. rewrite split_char_app_sep by exact H1.
      rewrite lines_of_cons by apply split_char_nonempty. rewrite IH, strip_cr_plain by auto. reflexivity.
    + rewrite <- app_assoc. simpl.
      replace (l ++ 13%N :: 10%N :: flat_map (fun le => fst le ++ ending_text (snd le)) ls ++ rest)
        with ((l ++ [13%N]) ++ 10%N :: flat_map (fun le => fst le ++ ending_text (snd le)) ls ++ rest)
        by (rewrite <- app_assoc; reflexivity).
      rewrite split_char_app_sep.
      * rewrite lines_of_cons by apply split_char_nonempty. rewrite IH, strip_cr_snoc. reflexivity.
      * intros H. apply in_app_or in H as [H|[H|[]]]; [exact (H1 H)|discriminate].
Qed.

Lemma last_lines_total : forall b rest, exists last, last_lines b rest last.
Proof.
  intros b rest. destruct rest as [|x t]; [exists []; constructor|].
  destruct (ends_with_cr_dec (x :: t)) as [(l & ->)|H].
  - destruct b; eexists; [apply LastKeep|apply LastDrop]; reflexivity.
  - exists [x :: t]. apply LastPlain; [discriminate|exact H].
Qed.

Lemma render_exists : forall text, exists ls rest, Forall wf_line ls /\ one_line rest /\ text = render ls rest.
Proof.
  intros text.
  enough (H : forall ps, ps <> [] -> (forall p, In p ps -> one_line p) ->
            exists ls rest, Forall wf_line ls /\ one_line rest /\ join_char 10 ps = render ls rest).
  { rewrite <- (join_split 10 text). apply H; [apply split_char_nonempty|]. apply split_char_pieces. }
  induction ps as [|p ps IH]; intros Hne Hp; [contradiction|].
  destruct ps as [|p' ps].
  - exists [], p. repeat split; [constructor|apply Hp; left; reflexivity].
  - destruct IH as (ls & rest & H1 & H2 & H3); [discriminate|intros q Hq; apply Hp; right; exact Hq|].
    change (join_char 10 (p :: p' :: ps)) with (p ++ 10%N :: join_char 10 (p' :: ps)). rewrite H3.
    assert (Hp1 : one_line p) by (apply Hp; left; reflexivity).
    destruct (ends_with_cr_dec p) as [(l & ->)|Hcr].
    + exists ((l, CRLF) :: ls), rest. repeat split; try assumption.
      * constructor; [split; [|discriminate]|exact H1].
        intros Hi. apply Hp1. apply in_or_app. left. exact Hi.
      * unfold render. simpl. rewrite <- !app_assoc. reflexivity.
    + exists ((p, LF) :: ls), rest. repeat split; try assumption.
      * constructor; [split; [exact Hp1|intros _; exact Hcr]|exact H1].
      * unfold render. simpl. rewrite <- !app_assoc. reflexivity.
Qed.

Lemma lines_spec_iff : forall b text ls, lines_spec b text ls <-> str_lines b text = ls.
Proof.
  intros b text ls. split.
  - intros H. inv H. apply render_lines; assumption.
  - intros <-. destruct (render_exists text) as (l & rest & H1 & H2 & H3).
    destruct (last_lines_total b rest) as [last Hl].
    rewrite H3, (render_lines b l rest last) by assumption.
    apply LinesSpec with (rest := rest); auto.
Qed.

(** ** Tokens *)
Lemma starts_cons : forall c x t, starts c (x :: t) <-> c = x.
Proof. intros c x t. split; [intros (t' & H); congruence|intros ->; exists t; reflexivity]. Qed.

Lemma not_starts_nil : forall c, ~ starts c [].
Proof. intros c (t & H). discriminate. Qed.

(** How the model classifies by the first character. *)
Lemma tokenize_line_cases : forall l,
  tokenize_line l =
  match l with
  | [] => Ok (TUnrecognized l)
  | c :: _ =>
    if (c =? 47)%N then Ok (TComment l)
    else if (c =? 34)%N then
      key <- unwrap (lit "property key") (nth_error (split_char 34 l) 1) ;;
      value <- unwrap (lit "property value") (nth_error (split_char 34 l) 3) ;;
      Ok (TProperty key value)
    else if (c =? 123)%N then Ok TOpen
    else if (c =? 125)%N then Ok TClose
    else if (c =? 40)%N then Ok (TPlane l)
    else Ok (TUnrecognized l)
  end.
Proof.
  intros [|c t]; [reflexivity|].
  destruct (N.eqb_spec c 47) as [->|H1]; [reflexivity|].
  destruct (N.eqb_spec c 34) as [->|H2]; [reflexivity|].
  destruct (N.eqb_spec c 123) as [->|H3]; [reflexivity|].
  destruct (N.eqb_spec c 125) as [->|H4]; [reflexivity|].
  destruct (N.eqb_spec c 40) as [->|H5]; [reflexivity|].
  unfold tokenize_line. destruct c as [|p]; [reflexivity|].
  repeat (destruct p as [p|p|]; try reflexivity); contradiction.
Qed.

(** First piece and the rest at a separator. *)
Lemma split_first : forall c s,
  (~ In c s /\ split_char c s = [s]) \/
  (exists a b, s = a ++ c :: b /\ ~ In c a /\ split_char c s = a :: split_char c b).
Proof.
  intros c s. induction s as [|x s IH].
  - left. split; [intros []|reflexivity].
  - destruct (N.eqb_spec x c) as [->|H].
    + right. exists [], s. repeat split; [intros []|]. simpl. rewrite N.eqb_refl. reflexivity.
    + destruct IH as [[H1 H2]|(a & b & -> & H1 & H2)].
      * left. split; [intros [E|Hi]; [congruence|exact (H1 Hi)]|].
        apply split_char_none. intros [E|Hi]; [congruence|exact (H1 Hi)].
      * right. exists (x :: a), b. repeat split; [intros [E|Hi]; [congruence|exact (H1 Hi)]|].
        simpl. apply N.eqb_neq in H. rewrite H, H2. reflexivity.
Qed.

Lemma quotes_app : forall a b, quotes (a ++ b) = quotes a + quotes b.
Proof. intros. apply count_occ_app. Qed.

Lemma quotes_none : forall a, ~ In 34%N a -> quotes a = 0.
Proof. intros a H. apply count_occ_not_In. exact H. Qed.

Lemma quotes_cons : forall a, quotes (34%N :: a) = S (quotes a).
Proof. reflexivity. Qed.

Lemma tokenize_property_line : forall k sep v rest,
  ~ In 34%N k -> ~ In 34%N sep -> ~ In 34%N v -> (rest = [] \/ starts 34 rest) ->
  tokenize_line ([34%N] ++ k ++ [34%N] ++ sep ++ [34%N] ++ v ++ rest) = Ok (TProperty k v).
Proof.
  intros k sep v rest Hk Hs Hv Hr. rewrite tokenize_line_cases. simpl.
  rewrite split_char_app_sep by exact Hk. rewrite split_char_app_sep by exact Hs.
  destruct Hr as [->|(t & ->)].
  - rewrite app_nil_r, split_char_none by exact Hv. reflexivity.
  - rewrite split_char_app_sep by exact Hv. reflexivity.
Qed.

(** The property arm: either readable as specified or a panic with fewer than three quotes. *)
Lemma property_arm : forall t,
  (exists k sep v rest,
     t = k ++ [34%N] ++ sep ++ [34%N] ++ v ++ rest /\
     ~ In 34%N k /\ ~ In 34%N sep /\ ~ In 34%N v /\ (rest = [] \/ starts 34 rest)) \/
  quotes t < 2.
Proof.
  intros t. destruct (split_first 34 t) as [[H _]|(k & b & -> & Hk & _)].
  - right. rewrite quotes_none by exact H. lia.
  - destruct (split_first 34 b) as [[H _]|(sep & b2 & -> & Hs & _)].
    + right. rewrite quotes_app, quotes_cons, (quotes_none k), (quotes_none b) by assumption. lia.
    + left. destruct (split_first 34 b2) as [[H _]|(v & b3 & -> & Hv & _)].
      * exists k, sep, b2, []. rewrite app_nil_r. repeat split; auto.
      * exists k, sep, v, (34%N :: b3). repeat split; auto. right. exists b3. reflexivity.
Qed.

Lemma property_panics : forall t, quotes t < 2 -> exists w, tokenize_line (34%N :: t) = Panic w.
Proof.
  intros t H. rewrite tokenize_line_cases. cbn [N.eqb Pos.eqb]. simpl split_char.
  destruct (split_first 34 t) as [[Ht ->]|(k & b & -> & Hk & ->)]; [eexists; reflexivity|].
  rewrite quotes_app, quotes_cons in H.
  destruct (split_first 34 b) as [[Hb ->]|(s & b2 & -> & Hs & ->)]; [eexists; reflexivity|].
  rewrite quotes_app, quotes_cons in H. lia.
Qed.

Lemma tokenize_line_spec : forall l,
  (bad_line l /\ exists w, tokenize_line l = Panic w) \/
  (~ bad_line l /\ exists t, tokenize_line l = Ok t /\ token_spec l t).
Proof.
  intros [|c t].
  - right. split; [intros [H _]; exact (not_starts_nil _ H)|].
    eexists. split; [reflexivity|]. apply SpecOther. intros c _. apply not_starts_nil.
  - destruct (N.eqb_spec c 34) as [->|H34].
    + destruct (property_arm t) as [(k & sep & v & rest & -> & Hk & Hs & Hv & Hr)|H].
      * right. split.
        -- intros [_ H]. unfold quotes in H. simpl in H. change (S (quotes (k ++ [34%N] ++ sep ++ [34%N] ++ v ++ rest)) < 3) in H.
           rewrite !quotes_app in H. change (quotes [34%N]) with 1 in H. lia.
        -- exists (TProperty k v). split; [apply (tokenize_property_line k sep v rest); assumption|].
           apply (SpecProperty _ k sep v rest); auto.
      * left. split; [split; [exists t; reflexivity|rewrite quotes_cons; lia]|]. apply property_panics. exact H.
    + right. split; [intros [H _]; apply starts_cons in H; congruence|].
      rewrite tokenize_line_cases.
      destruct (N.eqb_spec c 47) as [->|H47]; [eexists; split; [reflexivity|apply SpecComment; exists t; reflexivity]|].
      apply N.eqb_neq in H34. rewrite H34. apply N.eqb_neq in H34.
      destruct (N.eqb_spec c 123) as [->|H123]; [eexists; split; [reflexivity|apply SpecOpen; exists t; reflexivity]|].
      destruct (N.eqb_spec c 125) as [->|H125]; [eexists; split; [reflexivity|apply SpecClose; exists t; reflexivity]|].
      destruct (N.eqb_spec c 40) as [->|H40]; [eexists; split; [reflexivity|apply SpecPlane; exists t; reflexivity]|].
      eexists. split; [reflexivity|]. apply SpecOther. intros c' Hin Hst. apply starts_cons in Hst. subst c'.
      simpl in Hin. intuition congruence.
Qed.

(** The specified token of a line is the model's. *)
Lemma token_spec_line : forall l t0, token_spec l t0 -> tokenize_line l = Ok t0.
Proof.
  intros l t0 H. inv H.
  - destruct H0 as (t & ->). reflexivity.
  - destruct H0 as (t & ->). reflexivity.
  - destruct H0 as (t & ->). reflexivity.
  - destruct H0 as (t & ->). reflexivity.
  - apply tokenize_property_line; assumption.
  - rewrite tokenize_line_cases. destruct l as [|c t]; [reflexivity|].
    assert (Hc : forall c', In c' [47; 34; 123; 125; 40]%N -> (c =? c')%N = false).
    { intros c' Hi. apply N.eqb_neq. intros ->. apply (H0 c' Hi). exists t. reflexivity. }
    rewrite !Hc by (simpl; auto 6). reflexivity.
Qed.

Lemma token_spec_fun : forall l t t', token_spec l t -> token_spec l t' -> t = t'.
Proof. intros l t t' H H'. apply token_spec_line in H, H'. congruence. Qed.

Lemma token_spec_unique : forall l, ~ bad_line l -> exists! t, token_spec l t.
Proof.
  intros l H. destruct (tokenize_line_spec l) as [[Hb _]|[_ (t & _ & Ht)]]; [contradiction|].
  exists t. split; [exact Ht|]. intros t' Ht'. eapply token_spec_fun; eassumption.
Qed.

Lemma tokenize_ok : forall p text ts,
  tokenize p text = Ok ts <->
  (forall l, In l (str_lines (p_keep_bare_cr p) text) -> ~ bad_line l) /\
  Forall2 token_spec (str_lines (p_keep_bare_cr p) text) ts.
Proof.
  intros p text ts. unfold tokenize. rewrite mapM_ok.
  generalize (str_lines (p_keep_bare_cr p) text). intros ls. split.
  - intros H. split.
    + intros l Hl Hb. apply (Forall2_length) in H as Hlen.
      assert (E : exists t, tokenize_line l = Ok t).
      { clear Hb Hlen. induction H as [|x y ls ts Hx H IH]; [destruct Hl|].
        destruct Hl as [<-|Hl]; [eauto|auto]. }
      destruct E as [t E]. destruct (tokenize_line_spec l) as [[_ (w & E')]|[Hnb _]]; [congruence|contradiction].
    + induction H as [|x y ls ts Hx H IH]; constructor; [|exact IH].
      destruct (tokenize_line_spec x) as [[_ (w & E)]|[_ (t & E & Hs)]]; [congruence|].
      rewrite E in Hx. inv Hx. exact Hs.
  - intros [Hb H]. induction H as [|x y ls ts Hx H IH]; constructor.
    + destruct (tokenize_line_spec x) as [[Hbad _]|[_ (t & E & Hs)]].
      * destruct (Hb x (or_introl eq_refl) Hbad).
      * rewrite E. f_equal. eapply token_spec_fun; eassumption.
    + apply IH. intros l Hl. apply Hb. right. exact Hl.
Qed.

Lemma tokenize_panic : forall p text,
  (exists l, In l (str_lines (p_keep_bare_cr p) text) /\ bad_line l) <-> exists w, tokenize p text = Panic w.
Proof.
  intros p text. unfold tokenize. generalize (str_lines (p_keep_bare_cr p) text). intros ls.
  induction ls as [|x ls IH]; simpl.
  - split; [intros (l & [] & _)|intros (w & H); discriminate].
  - destruct (tokenize_line_spec x) as [[Hb (w & E)]|[Hb (t & E & Hs)]]; rewrite E; simpl.
    + split; [intros _; eauto|intros _; exists x; auto].
    + split.
      * intros (l & [<-|Hl] & Hbl); [contradiction|].
        destruct (proj1 IH) as (w & Ew); [eauto|]. rewrite Ew. eexists. reflexivity.
      * intros (w & H). destruct (mapM tokenize_line ls) eqn:Em; simpl in H; try discriminate.
        destruct (proj2 IH) as (l & Hl & Hbl); [eauto|]. exists l. auto.
Qed.

Lemma tokenize_outcome : forall p text,
  (exists ts, tokenize p text = Ok ts) \/ (exists w, tokenize p text = Panic w).
Proof.
  intros p text. unfold tokenize. generalize (str_lines (p_keep_bare_cr p) text). intros ls.
  induction ls as [|x ls IH]; simpl; [eauto|].
  destruct (tokenize_line_spec x) as [[Hb (w & E)]|[Hb (t & E & Hs)]]; rewrite E; simpl; [eauto|].
  destruct IH as [(ts & ->)|(w & ->)]; simpl; eauto.
Qed.

(** ** Final forms *)
Lemma lines_unique : forall b text, exists! ls, lines_spec b text ls.
Proof.
  intros b text. exists (str_lines b text). split; [apply lines_spec_iff; reflexivity|].
  intros ls H. apply lines_spec_iff in H. exact H.
Qed.

Lemma tokenize_lines_ok : forall p text ls ts,
  lines_spec (p_keep_bare_cr p) text ls ->
  (tokenize p text = Ok ts <-> (forall l, In l ls -> ~ bad_line l) /\ Forall2 token_spec ls ts).
Proof. intros p text ls ts H. apply lines_spec_iff in H. subst ls. apply tokenize_ok. Qed.

Lemma tokenize_lines_panic : forall p text ls,
  lines_spec (p_keep_bare_cr p) text ls ->
  ((exists w, tokenize p text = Panic w) <-> exists l, In l ls /\ bad_line l) /\
  ((exists ts, tokenize p text = Ok ts) \/ (exists w, tokenize p text = Panic w)).
Proof.
  intros p text ls H. apply lines_spec_iff in H. subst ls.
  split; [symmetry; apply tokenize_panic|apply tokenize_outcome].
Qed.

Lemma property_round_trip : forall p text k sep v rest ls,
  let line := [34%N] ++ k ++ [34%N] ++ sep ++ [34%N] ++ v ++ [34%N] ++ rest in
  ~ In 34%N k -> ~ In 34%N v -> ~ In 34%N sep ->
  lines_spec (p_keep_bare_cr p) text ls -> forall pre post, ls = pre ++ line :: post ->
  forall ts, tokenize p text = Ok ts -> nth_error ts (length pre) = Some (TProperty k v).
Proof.
  intros p text k sep v rest ls line Hk Hv Hs Hl pre post E ts Ht.
  apply lines_spec_iff in Hl. unfold tokenize in Ht. rewrite Hl, E, mapM_app in Ht.
  apply bind_ok in Ht as (ts1 & H1 & Ht). apply bind_ok in Ht as (ts2 & H2 & Ht). inv Ht.
  apply mapM_length in H1 as Hlen. rewrite nth_error_app2, Hlen, Nat.sub_diag by lia.
  cbn [mapM] in H2. unfold line in H2.
  rewrite tokenize_property_line in H2 by (try assumption; right; exists rest; reflexivity).
  cbn [bind] in H2. apply bind_ok in H2 as (ts3 & _ & H2). inv H2. reflexivity.
Qed.

Lemma property_file : forall p k v rest,
  ~ In 34%N k -> ~ In 10%N k -> ~ In 34%N v -> ~ In 10%N v -> ~ In 10%N rest ->
  tokenize p ([34%N] ++ k ++ [34; 32; 34]%N ++ v ++ [34%N] ++ rest ++ [10%N]) = Ok [TProperty k v].
Proof.
  intros p k v rest Hk Hk' Hv Hv' Hr.
  set (l := [34%N] ++ k ++ [34; 32; 34]%N ++ v ++ [34%N] ++ rest).
  assert (Hl : ~ In 10%N l).
  { unfold l. intros H. repeat (apply in_app_or in H as [H|H]); try (simpl in H; intuition discriminate); auto. }
  assert (E : str_lines (p_keep_bare_cr p) (l ++ [10%N]) = [strip_cr l]).
  { unfold str_lines. change (l ++ [10%N]) with (l ++ 10%N :: []). rewrite split_char_app_sep by exact Hl. reflexivity. }
  replace ([34%N] ++ k ++ [34; 32; 34]%N ++ v ++ [34%N] ++ rest ++ [10%N]) with (l ++ [10%N])
    by (unfold l; repeat rewrite <- app_assoc; reflexivity).
  unfold tokenize. rewrite E. cbn [mapM].
  assert (Hs : exists rest', strip_cr l = [34%N] ++ k ++ [34%N] ++ [32%N] ++ [34%N] ++ v ++ [34%N] ++ rest').
  { destruct (ends_with_cr_dec l) as [(l' & El)|Hcr].
    - rewrite El, strip_cr_snoc.
      destruct rest as [|x rest' _] using rev_ind.
      + exfalso. unfold l in El. rewrite app_nil_r in El.
        replace ([34%N] ++ k ++ [34; 32; 34]%N ++ v ++ [34%N]) with (([34%N] ++ k ++ [34; 32; 34]%N ++ v) ++ [34%N]) in El
          by (repeat rewrite <- app_assoc; reflexivity).
        apply app_inj_tail in El as [_ El]. discriminate.
      + exists rest'. unfold l in El.
        replace ([34%N] ++ k ++ [34; 32; 34]%N ++ v ++ [34%N] ++ rest' ++ [x])
          with (([34%N] ++ k ++ [34; 32; 34]%N ++ v ++ [34%N] ++ rest') ++ [x]) in El by (repeat rewrite <- app_assoc; reflexivity).
        apply app_inj_tail in El as [<- _]. repeat rewrite <- app_assoc. reflexivity.
    - rewrite strip_cr_plain by exact Hcr. exists rest. unfold l. repeat rewrite <- app_assoc. reflexivity. }
  destruct Hs as [rest' ->].
  rewrite tokenize_property_line; auto.
  - simpl. intuition discriminate.
  - right. exists rest'. reflexivity.
Qed.
