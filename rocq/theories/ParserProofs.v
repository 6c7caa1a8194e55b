(** Parser: lemmas for C03 to C08. *)
From Verif Require Import Prelude F32 Text MapModel MapSpec BaseProofs TokenProofs.

Section Parser.
  Context {T : Type} (O : num T) (lower : str -> str).
  Notation parse_step := (parse_step O lower).
  Notation parse_loop := (parse_loop O lower).
  Notation parse_plane := (parse_plane O lower).
  Notation parse_tokens := (parse_tokens O lower).

  (** ** Invariant of the parser state *)
  Definition depth (s : scope) : nat :=
    match s with SFile => 0 | SEntity _ => 1 | SBrush _ _ => 2 end.

  Definition wf (s : pstate (T := T)) : Prop :=
    match ps_scope s with
    | SFile => True
    | SEntity id => exists es e, ps_entities s = es ++ [e]
    | SBrush id b => exists es props bs ps, ps_entities s = es ++ [Entity props (bs ++ [ps])]
    end.

  Lemma last_entity_snoc : forall (es : list (entity T)) e, last_entity (es ++ [e]) = Ok e.
  Proof. intros. unfold last_entity. rewrite nth_error_snoc. reflexivity. Qed.

  Lemma set_last_entity_snoc : forall (es : list (entity T)) e e', set_last_entity (es ++ [e]) e' = Ok (es ++ [e']).
  Proof. intros. unfold set_last_entity. rewrite upd_last_snoc. reflexivity. Qed.

  Lemma step_illegal : forall s t, legal (depth (ps_scope s)) t = false ->
    parse_step s t = Err (scope_error (depth (ps_scope s)) t).
  Proof. intros [sc paths es] t H. destruct t, sc; simpl in *; try discriminate; reflexivity. Qed.

  Lemma step_other : forall s t, wf s -> legal (depth (ps_scope s)) t = true ->
    (forall line, t <> TPlane line) ->
    exists s', parse_step s t = Ok s' /\ wf s' /\ depth (ps_scope s') = next_depth (depth (ps_scope s)) t.
  Proof.
    intros [sc paths es] t Hwf Hl Hp. destruct t; try (destruct (Hp s eq_refl)); unfold wf in *; simpl in *.
    - eexists. split; [reflexivity|]. split; [exact Hwf|reflexivity].
    - destruct sc; simpl in *; try discriminate.
      + eexists. split; [reflexivity|]. simpl. split; [eauto|reflexivity].
      + destruct Hwf as (es0 & e & ->). rewrite last_entity_snoc. simpl. rewrite set_last_entity_snoc. simpl.
        eexists. split; [reflexivity|]. simpl. split; [|reflexivity]. eauto.
    - destruct sc; simpl in *; try discriminate.
      + eexists. split; [reflexivity|]. simpl. auto.
      + destruct Hwf as (es0 & props & bs & ps & ->). eexists. split; [reflexivity|]. simpl. split; [eauto|reflexivity].
    - destruct sc; simpl in *; try discriminate.
      destruct Hwf as (es0 & e & ->). rewrite last_entity_snoc. simpl. rewrite set_last_entity_snoc. simpl.
      eexists. split; [reflexivity|]. simpl. split; [eauto|reflexivity].
    - eexists. split; [reflexivity|]. split; [exact Hwf|reflexivity].
  Qed.

  Lemma step_plane : forall s line, wf s -> depth (ps_scope s) = 2 ->
    (exists es props bs ps id b,
       ps_entities s = es ++ [Entity props (bs ++ [ps])] /\ ps_scope s = SBrush id b /\
       parse_step s (TPlane line) =
       (pl <- parse_plane line ;;
        Ok (PState (SBrush id b) (path_put (ps_paths s) (TPlane line) (PPlane id b (length ps)))
                   (es ++ [Entity props (bs ++ [ps ++ [pl]])])))).
  Proof.
    intros [sc paths es] line Hwf Hd. unfold wf in Hwf. simpl in *. destruct sc; simpl in *; try discriminate.
    destruct Hwf as (es0 & props & bs & ps & ->). exists es0, props, bs, ps, entity_idx, brush_idx.
    split; [reflexivity|]. split; [reflexivity|].
    rewrite last_entity_snoc. simpl. rewrite nth_error_snoc. simpl.
    destruct (parse_plane line); simpl; try reflexivity.
    rewrite upd_last_snoc. simpl. rewrite set_last_entity_snoc. reflexivity.
  Qed.

  Lemma init_wf : wf parse_init.
  Proof. exact I. Qed.

  (** ** C04: acceptance *)
  Lemma loop_app : forall ts1 ts2 s, parse_loop s (ts1 ++ ts2) = (s' <- parse_loop s ts1 ;; parse_loop s' ts2).
  Proof.
    induction ts1 as [|t ts1 IH]; intros ts2 s; simpl; [reflexivity|].
    destruct (parse_step s t); simpl; auto.
  Qed.

  Lemma loop_cons : forall t ts s, parse_loop s (t :: ts) = (s' <- parse_step s t ;; parse_loop s' ts).
  Proof. reflexivity. Qed.

  (** A step from a well-formed state keeps the depth right when it succeeds. *)
  Lemma step_ok : forall s t s', wf s -> parse_step s t = Ok s' ->
    wf s' /\ depth (ps_scope s') = next_depth (depth (ps_scope s)) t /\
    legal (depth (ps_scope s)) t = true /\
    (forall line, t = TPlane line -> exists pl, parse_plane line = Ok pl).
  Proof.
    intros s t s' Hwf H.
    destruct (legal (depth (ps_scope s)) t) eqn:Hl; [|rewrite step_illegal in H by exact Hl; discriminate].
    destruct t as [c| | |k v|line|u];
      try (destruct (step_other s _ Hwf Hl ltac:(intros; discriminate)) as (s1 & E & Hw & Hd);
           rewrite E in H; inv H; repeat split; auto; intros; discriminate).
    simpl in Hl. apply Nat.eqb_eq in Hl.
    destruct (step_plane s line Hwf Hl) as (es & props & bs & ps & id & b & E1 & E2 & E3).
    rewrite E3 in H. apply bind_ok in H as (pl & Hpl & H). inv H. unfold wf. simpl. rewrite E2.
    repeat split; eauto. intros l El. inv El. eauto.
  Qed.

  Lemma loop_ok_wf : forall ts s s', wf s -> parse_loop s ts = Ok s' ->
    wf s' /\ depth (ps_scope s') = fold_left next_depth ts (depth (ps_scope s)).
  Proof.
    induction ts as [|t ts IH]; intros s s' Hwf H; simpl in H.
    - inv H. auto.
    - apply bind_ok in H as (s1 & H1 & H). apply step_ok in H1 as (Hw & Hd & _); [|exact Hwf].
      destruct (IH s1 s' Hw H) as [Hw' Hd']. split; [exact Hw'|]. simpl. congruence.
  Qed.

  Lemma well_scoped_snoc : forall ts t, well_scoped parse_plane (ts ++ [t]) -> well_scoped parse_plane ts.
  Proof.
    intros ts t H pre u post E. apply (H pre u (post ++ [t])). rewrite E, <- app_assoc. reflexivity.
  Qed.

  Lemma loop_well_scoped : forall ts, well_scoped parse_plane ts -> exists s, parse_loop parse_init ts = Ok s.
  Proof.
    induction ts as [|t ts IH] using rev_ind; intros H; [simpl; eauto|].
    destruct (IH (well_scoped_snoc _ _ H)) as (s & Es).
    destruct (H ts t [] eq_refl) as [Hl Hp].
    destruct (loop_ok_wf _ _ _ init_wf Es) as [Hw Hd]. simpl in Hd.
    unfold depth_after in Hl. rewrite <- Hd in Hl.
    rewrite loop_app, Es. simpl.
    destruct t as [c| | |k v|line|u];
      try (destruct (step_other s _ Hw Hl ltac:(intros; discriminate)) as (s1 & -> & _); simpl; eauto).
    simpl in Hl. apply Nat.eqb_eq in Hl.
    destruct (step_plane s line Hw Hl) as (es & props & bs & ps & id & b & E1 & E2 & E3).
    destruct (Hp line eq_refl) as (pl & Epl). rewrite E3, Epl. simpl. eauto.
  Qed.

  Lemma loop_ok_well_scoped : forall ts s, parse_loop parse_init ts = Ok s -> well_scoped parse_plane ts.
  Proof.
    intros ts s H pre t post ->. rewrite loop_app in H. apply bind_ok in H as (s1 & H1 & H).
    simpl in H. apply bind_ok in H as (s2 & H2 & _).
    destruct (loop_ok_wf _ _ _ init_wf H1) as [Hw Hd]. simpl in Hd.
    apply step_ok in H2 as (_ & _ & Hl & Hp); [|exact Hw]. rewrite Hd in Hl. auto.
  Qed.

  Lemma parse_accepts : forall ts,
    (exists paths es, parse_tokens ts = Ok (paths, es)) <-> well_scoped parse_plane ts.
  Proof.
    intros ts. split.
    - intros (paths & es & H). unfold MapModel.parse_tokens in H. apply bind_ok in H as (s & H & _).
      eapply loop_ok_well_scoped. exact H.
    - intros H. destruct (loop_well_scoped ts H) as (s & E). exists (ps_paths s), (ps_entities s).
      unfold MapModel.parse_tokens. rewrite E. reflexivity.
  Qed.

  Lemma parse_scope_error : forall pre t post, well_scoped parse_plane pre ->
    legal (depth_after pre) t = false ->
    parse_tokens (pre ++ t :: post) = Err (scope_error (depth_after pre) t).
  Proof.
    intros pre t post Hw Hl. destruct (loop_well_scoped pre Hw) as (s & E).
    destruct (loop_ok_wf _ _ _ init_wf E) as [_ Hd]. simpl in Hd.
    unfold MapModel.parse_tokens. rewrite loop_app, E. simpl. unfold depth_after in *. rewrite <- Hd in *.
    rewrite step_illegal by exact Hl. reflexivity.
  Qed.

  Lemma parse_plane_error : forall pre line post, well_scoped parse_plane pre ->
    depth_after pre = 2 -> is_ok (parse_plane line) = false ->
    parse_tokens (pre ++ TPlane line :: post) =
    match parse_plane line with Err e => Err e | Panic w => Panic w | _ => OutOfFuel end.
  Proof.
    intros pre line post Hw Hd2 Hp. destruct (loop_well_scoped pre Hw) as (s & E).
    destruct (loop_ok_wf _ _ _ init_wf E) as [Hw' Hd]. simpl in Hd.
    unfold MapModel.parse_tokens. rewrite loop_app, E. unfold depth_after in *. rewrite <- Hd in *.
    destruct (step_plane s line Hw' Hd2) as (es & props & bs & ps & id & b & E1 & E2 & E3).
    cbn [bind MapModel.parse_loop]. rewrite E3. destruct (parse_plane line); simpl in *; try discriminate; reflexivity.
  Qed.

  (** Every token sequence is covered by the three cases. *)
  Lemma scope_cases : forall ts,
    well_scoped parse_plane ts \/
    exists pre t post, ts = pre ++ t :: post /\ well_scoped parse_plane pre /\
      (legal (depth_after pre) t = false \/
       exists line, t = TPlane line /\ depth_after pre = 2 /\ is_ok (parse_plane line) = false).
  Proof.
    induction ts as [|t ts IH] using rev_ind.
    - left. intros [|x pre] t post E; discriminate.
    - destruct IH as [H|(pre & u & post & -> & Hw & Hc)].
      + destruct (legal (depth_after ts) t) eqn:Hl.
        * destruct t as [c| | |k v|line|u];
            try (left; intros pre' t' post' E;
                 destruct post' as [|y post'] using rev_ind;
                 [apply app_inj_tail in E as [-> <-]; split; [exact Hl|intros; discriminate]
                 |rewrite app_comm_cons, app_assoc in E; apply app_inj_tail in E as [-> _]; apply (H pre' t' post' eq_refl)]).
          destruct (is_ok (parse_plane line)) eqn:Eok.
          -- left. intros pre' t' post' E.
             destruct post' as [|y post'] using rev_ind.
             ++ apply app_inj_tail in E as [-> <-]. split; [exact Hl|]. intros l El. inv El.
                destruct (parse_plane l); try discriminate. eauto.
             ++ rewrite app_comm_cons, app_assoc in E. apply app_inj_tail in E as [-> _]. apply (H pre' t' post' eq_refl).
          -- right. exists ts, (TPlane line), []. split; [reflexivity|]. split; [exact H|]. right. exists line.
             simpl in Hl. apply Nat.eqb_eq in Hl. auto.
        * right. exists ts, t, []. auto.
      + right. exists pre, u, (post ++ [t]). rewrite <- app_assoc. auto.
  Qed.

  (** ** C06: inert tokens *)
  Lemma loop_significant : forall ts s, parse_loop s ts = parse_loop s (significant ts).
  Proof.
    induction ts as [|t ts IH]; intros s; [reflexivity|].
    destruct t; simpl; try (apply IH);
      match goal with |- bind ?r _ = bind ?r _ => destruct r; simpl; auto end.
  Qed.

  Lemma parse_significant : forall ts, parse_tokens ts = parse_tokens (significant ts).
  Proof. intros ts. unfold MapModel.parse_tokens. rewrite loop_significant. reflexivity. Qed.

  (** ** C03: documents *)
  Lemma loop_planes : forall lines pls, Forall2 (fun l pl => parse_plane l = Ok pl) lines pls ->
    forall id b paths es props bs ps, exists paths',
    parse_loop (PState (SBrush id b) paths (es ++ [Entity props (bs ++ [ps])])) (map TPlane lines)
    = Ok (PState (SBrush id b) paths' (es ++ [Entity props (bs ++ [ps ++ pls])])).
  Proof.
    intros lines pls H. induction H as [|l pl lines pls Hl H IH]; intros id b paths es props bs ps.
    - exists paths. simpl. rewrite app_nil_r. reflexivity.
    - cbn [map]. rewrite loop_cons.
      destruct (step_plane (PState (SBrush id b) paths (es ++ [Entity props (bs ++ [ps])])) l) as
        (es' & props' & bs' & ps' & id' & b' & E1 & E2 & E3).
      + red. simpl. eauto 6.
      + reflexivity.
      + simpl in E1, E2. injection E2 as <- <-. apply app_inj_tail in E1 as [<- E1]. injection E1 as <- E1.
        apply app_inj_tail in E1 as [<- <-].
        rewrite E3, Hl. cbn [bind ps_paths].
        destruct (IH id b (path_put paths (TPlane l) (PPlane id b (length ps))) es props bs (ps ++ [pl])) as [paths' E].
        exists paths'. rewrite <- app_assoc in E. exact E.
  Qed.

  Definition read (l : str) (pl : brush_plane T) : Prop := parse_plane l = Ok pl.

  Definition item_put (m : hmap str) (i : doc_item) : hmap str :=
    match i with DProp k v => hput m k v | DBrush _ => m end.

  Lemma loop_items : forall items pls, Forall2 (Forall2 read) (doc_brushes items) pls ->
    forall id paths es props bs, exists paths',
    parse_loop (PState (SEntity id) paths (es ++ [Entity props bs])) (flat_map item_tokens items)
    = Ok (PState (SEntity id) paths' (es ++ [Entity (fold_left item_put items props) (bs ++ pls)])).
  Proof.
    induction items as [|[k v|ps] items IH]; intros pls H id paths es props bs; simpl in H.
    - inv H. exists paths. simpl. rewrite app_nil_r. reflexivity.
    - cbn [flat_map item_tokens app MapModel.parse_loop MapModel.parse_step ps_scope ps_entities ps_paths].
      rewrite last_entity_snoc. cbn [bind]. rewrite set_last_entity_snoc. cbn [bind e_props e_brushes].
      destruct (IH pls H id (path_put paths (TProperty k v) (PProperty id k)) es (hput props k v) bs) as [paths' ->].
      exists paths'. reflexivity.
    - inv H. cbn [flat_map item_tokens app MapModel.parse_loop MapModel.parse_step ps_scope ps_entities ps_paths].
      rewrite last_entity_snoc. cbn [bind]. rewrite set_last_entity_snoc. cbn [bind e_props e_brushes].
      rewrite <- app_assoc, loop_app.
      destruct (loop_planes ps y H2 id (length bs) (path_put paths TOpen (PBrush id (length bs))) es props bs []) as [paths1 E1].
      change (bs ++ [[]]) with (bs ++ [[] : brush T]). rewrite E1.
      cbn [bind app MapModel.parse_loop MapModel.parse_step ps_scope ps_entities ps_paths].
      destruct (IH l' H4 id paths1 es props (bs ++ [y])) as [paths' ->].
      exists paths'. rewrite <- app_assoc. reflexivity.
  Qed.

  Lemma items_value : forall items m k,
    hget (fold_left item_put items m) k =
    match doc_value items k with Some v => Some v | None => hget m k end.
  Proof.
    induction items as [|[k' v|ps] items IH]; intros m k; simpl; [reflexivity| |apply IH].
    rewrite IH, hget_hput. destruct (doc_value items k); [reflexivity|]. destruct (str_eqb k k'); reflexivity.
  Qed.

  Lemma loop_doc : forall (d : doc) plss, Forall2 (fun e => Forall2 (Forall2 read) (doc_brushes e)) d plss ->
    forall paths es, exists paths',
    parse_loop (PState SFile paths es) (doc_tokens d)
    = Ok (PState SFile paths' (es ++ map (fun ep => Entity (fold_left item_put (fst ep) []) (snd ep)) (combine d plss))).
  Proof.
    intros d plss H. induction H as [|e pls d plss He H IH]; intros paths es.
    - exists paths. simpl. rewrite app_nil_r. reflexivity.
    - cbn [doc_tokens flat_map entity_tokens app MapModel.parse_loop MapModel.parse_step ps_scope ps_entities ps_paths bind].
      rewrite <- app_assoc, loop_app.
      destruct (loop_items e pls He (length es) (path_put paths TOpen (PEntity (length es))) es [] []) as [paths1 E1].
      unfold entity_new. rewrite E1. cbn [bind app MapModel.parse_loop MapModel.parse_step ps_scope ps_entities ps_paths].
      fold (doc_tokens d).
      destruct (IH paths1 (es ++ [Entity (fold_left item_put e []) pls])) as [paths' ->].
      exists paths'. simpl. rewrite <- app_assoc. reflexivity.
  Qed.

  Lemma parse_doc : forall (d : doc) ts, significant ts = doc_tokens d ->
    (forall e b l, In e d -> In b (doc_brushes e) -> In l b -> exists pl, parse_plane l = Ok pl) ->
    exists paths es, parse_tokens ts = Ok (paths, es) /\ Forall2 (entity_agrees read) d es.
  Proof.
    intros d ts Hts Hpl.
    assert (H : exists plss, Forall2 (fun e => Forall2 (Forall2 read) (doc_brushes e)) d plss).
    { clear Hts ts. induction d as [|e d IH]; [exists []; constructor|].
      destruct IH as [plss IH]; [intros; eapply Hpl; eauto; right; assumption|].
      assert (He : exists pls, Forall2 (Forall2 read) (doc_brushes e) pls).
      { assert (Hb : forall b l, In b (doc_brushes e) -> In l b -> exists pl, parse_plane l = Ok pl)
          by (intros; eapply Hpl; eauto; left; reflexivity).
        clear Hpl IH. induction (doc_brushes e) as [|b bs IHb]; [exists []; constructor|].
        destruct IHb as [pls Hpls]; [intros; eapply Hb; eauto; right; assumption|].
        destruct (mapM_total _ _ parse_plane b) as [r Hr].
        - intros x Hx. eapply Hb; [left; reflexivity|exact Hx].
        - apply mapM_ok in Hr. exists (r :: pls). constructor; assumption. }
      destruct He as [pls He]. exists (pls :: plss). constructor; assumption. }
    destruct H as [plss H].
    destruct (loop_doc d plss H [] []) as [paths E].
    exists paths. eexists. split.
    - rewrite parse_significant, Hts. unfold MapModel.parse_tokens, parse_init. rewrite E. reflexivity.
    - cbn [ps_entities app]. clear -H. induction H as [|e pls d plss He H IH]; simpl; constructor; [|exact IH].
      split; [|exact He]. intros k. unfold get_property. simpl. rewrite items_value. simpl.
      destruct (doc_value e k); reflexivity.
  Qed.

  (** ** C05: truncation *)
  Lemma cut_list_refl : forall A (R : A -> A -> Prop) l, (forall x, R x x) -> cut_list R l l.
  Proof.
    intros A R l HR. destruct l as [|x l] using rev_ind; [left; reflexivity|].
    right. exists l, x, x, []. auto.
  Qed.

  Lemma cut_list_trans : forall A (R : A -> A -> Prop) a b c, (forall x y z, R x y -> R y z -> R x z) ->
    cut_list R a b -> cut_list R b c -> cut_list R a c.
  Proof.
    intros A R a b c HR Hab Hbc. destruct Hab as [->|(f & l & l' & r & -> & -> & Hl)]; [left; reflexivity|].
    destruct Hbc as [E|(f2 & l2 & l2' & r2 & E & -> & Hl2)]; [destruct f; discriminate|].
    right. destruct r as [|y r] using rev_ind.
    - apply app_inj_tail in E as [<- <-]. exists f, l, l2', r2. eauto.
    - rewrite app_comm_cons, app_assoc in E. apply app_inj_tail in E as [<- <-].
      exists f, l, l', (r ++ l2' :: r2). repeat split; auto. rewrite <- app_assoc. reflexivity.
  Qed.

  Lemma cut_brush_refl : forall b : brush T, cut_brush b b.
  Proof. intros b. exists []. rewrite app_nil_r. reflexivity. Qed.
  Lemma cut_brush_trans : forall a b c : brush T, cut_brush a b -> cut_brush b c -> cut_brush a c.
  Proof. intros a b c (m & ->) (m' & ->). exists (m ++ m'). rewrite app_assoc. reflexivity. Qed.
  Lemma cut_entity_refl : forall e : entity T, cut_entity e e.
  Proof. intros e. split; [apply cut_list_refl, cut_brush_refl|auto]. Qed.
  Lemma cut_entity_trans : forall a b c : entity T, cut_entity a b -> cut_entity b c -> cut_entity a c.
  Proof.
    intros a b c [H1 H2] [H3 H4]. split; [|auto].
    eapply cut_list_trans; [apply cut_brush_trans|eassumption|eassumption].
  Qed.

  Lemma cut_list_snoc : forall A (R : A -> A -> Prop) l x y, R x y -> cut_list R (l ++ [x]) (l ++ [y]).
  Proof. intros. right. exists l, x, y, []. auto. Qed.
  Lemma cut_list_grow : forall A (R : A -> A -> Prop) l x, (forall y, R y y) -> cut_list R l (l ++ [x]).
  Proof.
    intros A R l x HR. destruct l as [|y l] using rev_ind; [left; reflexivity|].
    right. exists l, y, y, [x]. rewrite <- app_assoc. auto.
  Qed.

  Lemma step_cut : forall s t s', wf s -> parse_step s t = Ok s' -> cut_entities (ps_entities s) (ps_entities s').
  Proof.
    intros [sc paths es] t s' Hwf H. destruct t as [c| | |k v|line|u].
    - inv H. apply cut_list_refl, cut_entity_refl.
    - unfold wf in Hwf. destruct sc; simpl in *; try discriminate.
      + inv H. apply cut_list_grow, cut_entity_refl.
      + destruct Hwf as (es0 & e & ->). rewrite last_entity_snoc in H. simpl in H.
        rewrite set_last_entity_snoc in H. inv H. apply cut_list_snoc. split; [|auto].
        simpl. apply cut_list_grow, cut_brush_refl.
    - destruct sc; simpl in *; inv H; apply cut_list_refl, cut_entity_refl.
    - unfold wf in Hwf. destruct sc; simpl in *; try discriminate.
      destruct Hwf as (es0 & e & ->). rewrite last_entity_snoc in H. simpl in H.
      rewrite set_last_entity_snoc in H. inv H. apply cut_list_snoc. split; [apply cut_list_refl, cut_brush_refl|].
      intros k'. unfold get_property. simpl. rewrite hget_hput. destruct (str_eqb k' k); [discriminate|auto].
    - pose proof (step_ok _ _ _ Hwf H) as (_ & _ & Hl & _). simpl in Hl. apply Nat.eqb_eq in Hl.
      destruct (step_plane _ line Hwf Hl) as (es0 & props & bs & ps & id & b & E1 & E2 & E3).
      rewrite E3 in H. apply bind_ok in H as (pl & _ & H). inv H. simpl in *. subst es.
      apply cut_list_snoc. split; [|auto]. simpl. apply cut_list_snoc. exists [pl]. reflexivity.
    - inv H. apply cut_list_refl, cut_entity_refl.
  Qed.

  Lemma loop_cut : forall ts s s', wf s -> parse_loop s ts = Ok s' -> cut_entities (ps_entities s) (ps_entities s').
  Proof.
    induction ts as [|t ts IH]; intros s s' Hwf H; simpl in H.
    - inv H. apply cut_list_refl, cut_entity_refl.
    - apply bind_ok in H as (s1 & H1 & H). eapply cut_list_trans; [apply cut_entity_trans| |].
      + eapply step_cut; eassumption.
      + eapply IH; [|eassumption]. eapply step_ok; eassumption.
  Qed.

  Lemma parse_truncated : forall ts1 ts2 paths es, parse_tokens (ts1 ++ ts2) = Ok (paths, es) ->
    exists paths1 es1, parse_tokens ts1 = Ok (paths1, es1) /\ cut_entities es1 es.
  Proof.
    intros ts1 ts2 paths es H. unfold MapModel.parse_tokens in *. rewrite loop_app in H.
    destruct (parse_loop parse_init ts1) as [s1| | |] eqn:E; simpl in H; try discriminate.
    exists (ps_paths s1), (ps_entities s1). split; [reflexivity|].
    apply bind_ok in H as (s2 & H & E2). inv E2.
    eapply loop_cut; [|exact H]. eapply loop_ok_wf; [apply init_wf|exact E].
  Qed.
End Parser.

(** ** Text level *)
Lemma lines_of_app : forall b ps qs, qs <> [] -> lines_of b (ps ++ qs) = map strip_cr ps ++ lines_of b qs.
Proof.
  intros b ps qs Hq. induction ps as [|p ps IH]; [reflexivity|]. simpl app.
  rewrite lines_of_cons, IH; [reflexivity|]. destruct ps; [exact Hq|discriminate].
Qed.

Lemma split_char_app : forall c a b, split_char c (a ++ c :: b) = split_char c a ++ split_char c b.
Proof.
  intros c a b. induction a as [|x a IH]; simpl.
  - rewrite N.eqb_refl. reflexivity.
  - destruct (x =? c)%N; [rewrite IH; reflexivity|]. rewrite IH.
    destruct (split_char c a) eqn:E; [destruct (split_char_nonempty c a E)|]. reflexivity.
Qed.

Lemma str_lines_app : forall b t1 t2,
  str_lines b (t1 ++ 10%N :: t2) = str_lines b (t1 ++ [10%N]) ++ str_lines b t2.
Proof.
  intros b t1 t2. unfold str_lines. rewrite !split_char_app.
  rewrite !lines_of_app by (try apply split_char_nonempty; discriminate).
  simpl. rewrite app_nil_r. reflexivity.
Qed.

Lemma load_truncated : forall p t1 t2 paths es, load p (t1 ++ 10%N :: t2) = Ok (paths, es) ->
  exists paths1 es1, load p (t1 ++ [10%N]) = Ok (paths1, es1) /\ cut_entities es1 es.
Proof.
  intros p t1 t2 paths es H. unfold load, tokenize in *. rewrite str_lines_app, mapM_app in H.
  destruct (mapM tokenize_line (str_lines (p_keep_bare_cr p) (t1 ++ [10%N]))) as [ts1| | |]; simpl in *; try discriminate.
  destruct (mapM tokenize_line (str_lines (p_keep_bare_cr p) t2)) as [ts2| | |]; simpl in *; try discriminate.
  eapply parse_truncated. exact H.
Qed.

Lemma inert_line_token : forall l, inert_line l = true -> exists t, tokenize_line l = Ok t /\ ignorable t = true.
Proof.
  intros [|c t] H; rewrite tokenize_line_cases; [eexists; split; reflexivity|].
  destruct (c =? 47)%N; [eexists; split; reflexivity|].
  unfold inert_line in H. apply negb_true_iff in H. simpl in H.
  rewrite !orb_false_iff in H. destruct H as (-> & -> & -> & -> & _). eexists; split; reflexivity.
Qed.

Lemma live_line_token : forall l t, inert_line l = false -> tokenize_line l = Ok t -> ignorable t = false.
Proof.
  intros [|c s] t H E; [discriminate|]. rewrite tokenize_line_cases in E.
  destruct (N.eqb_spec c 47) as [->|_]; [discriminate|].
  unfold inert_line in H. apply negb_false_iff in H. simpl in H.
  destruct (c =? 34)%N.
  { apply bind_ok in E as (k & _ & E). apply bind_ok in E as (v & _ & E). inv E. reflexivity. }
  destruct (c =? 123)%N; [inv E; reflexivity|]. destruct (c =? 125)%N; [inv E; reflexivity|].
  destruct (c =? 40)%N; [inv E; reflexivity|]. discriminate.
Qed.

Lemma significant_lines : forall ls,
  (ts <- mapM tokenize_line ls ;; Ok (significant ts)) =
  mapM tokenize_line (filter (fun l => negb (inert_line l)) ls).
Proof.
  induction ls as [|l ls IH]; [reflexivity|]. simpl. destruct (inert_line l) eqn:Hl; simpl.
  - destruct (inert_line_token l Hl) as (t & -> & Ht). simpl. rewrite <- IH.
    destruct (mapM tokenize_line ls); simpl; try reflexivity. rewrite Ht. reflexivity.
  - destruct (tokenize_line l) as [t| | |] eqn:El; simpl; try reflexivity.
    apply (live_line_token l t Hl) in El. rewrite <- IH.
    destruct (mapM tokenize_line ls); simpl; try reflexivity. rewrite El. reflexivity.
Qed.

Lemma load_lines : forall p text,
  load p text =
  (ts <- mapM tokenize_line (filter (fun l => negb (inert_line l)) (str_lines (p_keep_bare_cr p) text)) ;;
   parse_tokens (f32_num p) (to_lowercase p) ts).
Proof.
  intros p text. rewrite <- significant_lines. unfold load, tokenize.
  destruct (mapM tokenize_line _); simpl; try reflexivity. apply parse_significant.
Qed.

Lemma load_same_lines : forall p t1 t2,
  filter (fun l => negb (inert_line l)) (str_lines (p_keep_bare_cr p) t1) =
  filter (fun l => negb (inert_line l)) (str_lines (p_keep_bare_cr p) t2) ->
  load p t1 = load p t2.
Proof. intros p t1 t2 H. rewrite !load_lines, H. reflexivity. Qed.
