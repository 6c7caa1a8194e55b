(** The maps that can be built: proofs for C118. *)
From Coq Require Import Permutation Lia.
From Verif Require Import Prelude F32 Text MapModel GeoModel LayerModel GameDataModel SceneModel RunModel
  GatherSpec GeoSpec LayerSpec SurfaceSpec DiffSpec TreeSpec PropertySpec MapSpec Utf8Spec RunSpec PointsSpec PlaceSpec ActorSpec ValidSpec
  BaseProofs Utf8Proofs TokenProofs PlaneProofs ParserProofs GeoProofs GeoFinal LayerProofs SurfaceProofs TreeProofs NodeProofs FuelProofs DegenerateFinal OutcomeProofs MapProofs RunProofs PointsProofs InvarianceProofs.

(** ** Tokens of unfinished documents *)
Definition items (e : doc_entity) : list token := flat_map item_tokens e.
Definition partial (k : nat) (ts : list token) : Prop :=
  match k with
  | 0 => exists d, ts = doc_tokens d
  | 1 => exists d e, ts = doc_tokens d ++ TOpen :: items e
  | 2 => exists d e ps, ts = doc_tokens d ++ TOpen :: items e ++ TOpen :: map TPlane ps
  | _ => False
  end.
Lemma doc_tokens_app : forall d d', doc_tokens (d ++ d') = doc_tokens d ++ doc_tokens d'.
Proof. intros. apply flat_map_app. Qed.
Lemma items_app : forall d d', items (d ++ d') = items d ++ items d'.
Proof. intros. apply flat_map_app. Qed.

Lemma doc_tokens_one : forall e, doc_tokens [e] = TOpen :: items e ++ [TClose].
Proof. intros e. unfold doc_tokens, entity_tokens. cbn [flat_map]. apply app_nil_r. Qed.

Lemma scoped_partial : forall T (read : str -> res (brush_plane T)) ts, well_scoped read ts -> partial (depth_after ts) (significant ts).
Proof.
  intros T read ts. induction ts as [|t ts IH] using rev_ind; intros W; [exists []; reflexivity|].
  assert (P : partial (depth_after ts) (significant ts)).
  { apply IH. intros pre u post E. apply (W pre u (post ++ [t])). rewrite E, <- app_assoc. reflexivity. }
  destruct (W ts t [] eq_refl) as (L & _). clear IH W. unfold depth_after, significant in *. rewrite fold_left_app, filter_app. cbn [fold_left filter].
  set (k := fold_left next_depth ts 0) in *. set (s := filter (fun t => negb (ignorable t)) ts) in *. clearbody k s.
  destruct k as [|[|[|k]]]; [| | |destruct P].
  - destruct P as (d & ->). destruct t as [c| | |key value|line|c]; cbn in L |- *; try discriminate L; try (rewrite app_nil_r; eauto).
    exists d, []. reflexivity.
  - destruct P as (d & e & ->). destruct t as [c| | |key value|line|c]; cbn in L |- *; try discriminate L; try (rewrite app_nil_r; eauto).
    + exists d, e, []. rewrite <- app_assoc. reflexivity.
    + exists (d ++ [e]). rewrite doc_tokens_app. cbn [doc_tokens flat_map entity_tokens]. rewrite app_nil_r, <- app_assoc. reflexivity.
    + exists d, (e ++ [DProp key value]). rewrite items_app, <- app_assoc. reflexivity.
  - destruct P as (d & e & ps & ->). destruct t as [c| | |key value|line|c]; cbn in L |- *; try discriminate L; try (rewrite app_nil_r; eauto).
    + exists d, (e ++ [DBrush ps]). rewrite items_app. unfold items. cbn [flat_map item_tokens]. rewrite !app_nil_r, <- !app_assoc. cbn [app]. now rewrite <- !app_assoc.
    + exists d, e, (ps ++ [line]). rewrite map_app, <- !app_assoc. cbn [app map]. now rewrite <- !app_assoc.
Qed.
Lemma partial_closed : forall k ts, partial k ts -> exists d, ts ++ repeat TClose k = doc_tokens d.
Proof.
  intros [|[|[|k]]] ts P; [| | |destruct P]; cbn [repeat].
  - destruct P as (d & ->). exists d. apply app_nil_r.
  - destruct P as (d & e & ->). exists (d ++ [e]). rewrite doc_tokens_app, doc_tokens_one. now rewrite <- app_assoc.
  - destruct P as (d & e & ps & ->). exists (d ++ [e ++ [DBrush ps]]). rewrite doc_tokens_app, doc_tokens_one, items_app. unfold items. cbn [flat_map item_tokens].
    rewrite !app_nil_r, <- !app_assoc. cbn [app]. now rewrite <- !app_assoc.
Qed.

(** ** Closing braces change no entity *)
Lemma parse_app : forall T (O : num T) lower a b s, parse_loop O lower s (a ++ b) = (s' <- parse_loop O lower s a ;; parse_loop O lower s' b).
Proof. intros T O lower a. induction a as [|t a IH]; intros b s; [reflexivity|]. cbn [app parse_loop]. destruct (parse_step O lower s t); cbn [bind]; [apply IH|reflexivity..]. Qed.
Lemma closing_kept : forall T (O : num T) lower n s s', parse_loop O lower s (repeat TClose n) = Ok s' -> ps_entities s' = ps_entities s.
Proof.
  intros T O lower n. induction n as [|n IH]; intros s s' E; [injection E as <-; reflexivity|]. cbn [repeat parse_loop] in E. apply bind_ok in E. destruct E as (u & Eu & E).
  rewrite (IH u s' E). unfold parse_step in Eu. destruct (ps_scope s); [discriminate Eu| |]; injection Eu as <-; reflexivity.
Qed.
Lemma closed_tokens : forall T (O : num T) lower ts n paths es, parse_tokens O lower (ts ++ repeat TClose n) = Ok (paths, es) -> exists paths', parse_tokens O lower ts = Ok (paths', es).
Proof.
  intros T O lower ts n paths es E. unfold parse_tokens in *. apply bind_ok in E. destruct E as (s & E & Q). injection Q as _ <-. rewrite parse_app in E.
  apply bind_ok in E. destruct E as (u & Eu & E). rewrite Eu. cbn [bind]. rewrite (closing_kept _ _ _ _ _ _ E). eauto.
Qed.
Lemma significant_closed : forall ts n, significant (ts ++ repeat TClose n) = significant ts ++ repeat TClose n.
Proof. intros ts n. unfold significant. rewrite filter_app. f_equal. induction n as [|n IH]; [reflexivity|]. cbn. now rewrite IH. Qed.

(** ** Loading *)
Section Load.
Context (p : platform).
Local Notation O := (f32_num p).
Lemma token_tokenized : forall text ls ts, lines_spec (p_keep_bare_cr p) text ls -> Forall2 token_spec ls ts -> tokenize p text = Ok ts.
Proof.
  intros text ls ts Hl Ht. apply (tokenize_lines_ok p text ls ts Hl). split; [|exact Ht].
  clear - Ht. induction Ht as [|l t ls ts Hlt Ht IH]; [intros l []|]. intros l' [<-|Hl']; [|apply IH; exact Hl'].
  intros Hb. destruct (tokenize_line_spec l) as [[_ (w & E)]|[H _]]; [|contradiction]. apply token_spec_line in Hlt. congruence.
Qed.
Lemma readings : forall l pl, parse_plane O (to_lowercase p) l = Ok pl <-> reads_as p l pl.
Proof.
  intros l pl. split.
  - intros H. exists (split_whitespace l). split; [apply written_iff; reflexivity|]. apply parse_plane_ok in H. exact H.
  - intros (ws & Hw & Hpl). apply parse_plane_ok. apply written_iff in Hw. rewrite Hw. exact Hpl.
Qed.
Lemma agrees_weaken : forall (R Q : str -> brush_plane f32 -> Prop) d es, (forall l pl, R l pl -> Q l pl) -> Forall2 (entity_agrees R) d es -> Forall2 (entity_agrees Q) d es.
Proof.
  intros R Q d es H F. induction F as [|e x d es [H1 H2] F IH]; constructor; [|exact IH]. split; [exact H1|].
  clear - H H2. induction H2 as [|ls pls lss plss K H2 IH]; constructor; [|exact IH]. clear - H K. induction K; constructor; auto.
Qed.

Theorem open_load : forall text d, open_document p text d -> (forall e l, In e d -> In l (doc_planes e) -> plane_readable p l) ->
  exists ps es, load p text = Ok (ps, es) /\ Forall2 (entity_agrees (reads_as p)) d es.
Proof.
  intros text d (ls & ts & n & Hl & Ht & E) R. rewrite <- significant_closed in E.
  destruct (parse_doc O (to_lowercase p) d (ts ++ repeat TClose n) E) as (paths & es & P & Ha).
  { intros e b l He Hb Hl'. destruct (R e l He) as (ws & pl & H); [apply in_concat; eauto|]. exists pl. apply readings. now exists ws. }
  destruct (closed_tokens _ _ _ _ _ _ _ P) as (paths' & P'). exists paths', es. split; [unfold load; rewrite (token_tokenized text ls ts Hl Ht); exact P'|].
  exact (agrees_weaken _ _ d es (fun l pl => proj1 (readings l pl)) Ha).
Qed.
Theorem load_open : forall text ps es, load p text = Ok (ps, es) -> exists d, open_document p text d /\ (forall e l, In e d -> In l (doc_planes e) -> plane_readable p l) /\ Forall2 (entity_agrees (reads_as p)) d es.
Proof.
  intros text ps es E. unfold load in E. apply bind_ok in E. destruct E as (ts & Et & Ep).
  pose proof (proj2 (lines_spec_iff (p_keep_bare_cr p) text _) eq_refl) as Hl. set (ls := str_lines (p_keep_bare_cr p) text) in *. apply (tokenize_lines_ok p text ls ts Hl) in Et. destruct Et as (_ & Ht).
  assert (W : well_scoped (parse_plane O (to_lowercase p)) ts) by (apply parse_accepts; eauto).
  destruct (partial_closed _ _ (scoped_partial _ _ ts W)) as (d & Ed). exists d.
  assert (Od : open_document p text d) by (exists ls, ts, (depth_after ts); auto). split; [exact Od|].
  assert (R : forall e l, In e d -> In l (doc_planes e) -> plane_readable p l).
  { intros e l He Hl'. apply in_concat in Hl'. destruct Hl' as (b & Hb & Hl').
    assert (It : In (TPlane l) ts).
    { assert (J : In (TPlane l) (significant ts ++ repeat TClose (depth_after ts))).
      { rewrite Ed. apply in_flat_map. exists e. split; [exact He|]. right. apply in_or_app. left. clear - Hb Hl'. induction e as [|[k v|b'] e IH]; cbn in Hb |- *; [contradiction|right; apply IH; exact Hb|].
        destruct Hb as [->|Hb]; [right; apply in_or_app; left; apply in_or_app; left; now apply in_map|]. right. apply in_or_app. right. apply IH, Hb. }
      apply in_app_or in J. destruct J as [J|J]; [apply filter_In in J; apply J|apply repeat_spec in J; discriminate J]. }
    apply in_split in It. destruct It as (pre & post & ->). destruct (W pre (TPlane l) post eq_refl) as (_ & K). destruct (K l eq_refl) as (pl & P). apply readings in P. destruct P as (ws & P). now exists ws, pl. }
  split; [exact R|]. destruct (open_load text d Od R) as (ps' & es' & E' & F). unfold load in E'. rewrite (token_tokenized text ls ts Hl Ht) in E'. cbn [bind] in E'. rewrite Ep in E'. injection E' as _ <-. exact F.
Qed.
End Load.

(** ** Documents and entities *)
Section Match.
Context (p : platform) (fd : forge_data f32).
Local Notation agrees := (entity_agrees (reads_as p)).

Lemma class_agrees : forall e x, agrees e x -> worldspawn x <-> doc_class e = Some (lit "worldspawn").
Proof. intros e x (A & _). unfold worldspawn, doc_class. rewrite <- A. reflexivity. Qed.
Lemma usable_agrees : forall e x, agrees e x -> usable fd x <-> usable_entity fd e.
Proof.
  intros e x (A & _). unfold usable, usable_entity, doc_class. split.
  - intros ((c & C) & I). split; [rewrite <- A; unfold get_property; congruence|]. intros fe k s D K V. apply (I fe) with (k := k); [|exact K|rewrite <- A in V; exact V].
    destruct D as (c' & C' & D). unfold doc_class in C'. rewrite <- A in C'. exists c'. split; assumption.
  - intros (C & I). split; [destruct (doc_value e (lit "classname")) as [c|] eqn:V; [|now destruct C]; exists c; rewrite <- A in V; exact V|].
    intros fe D k s K V. apply (I fe k s); [|exact K|rewrite <- A; exact V]. destruct D as (c' & C' & D). exists c'. split; [unfold doc_class; rewrite <- A; exact C'|exact D].
Qed.

Lemma world_agrees : forall d es, Forall2 agrees d es -> forall arr, world_first es arr -> exists w others, doc_world d others w /\ Forall2 agrees (w :: others) arr.
Proof.
  intros d es F arr (pre & w & post & -> & -> & W & N). apply Forall2_app_inv_r in F. destruct F as (dpre & dpost & F1 & F2 & ->). inversion F2 as [|e x dp ep A F3]; subst.
  exists e, (dpre ++ dp). split; [|constructor; [exact A|now apply Forall2_app]]. exists dpre, dp. split; [reflexivity|]. split; [reflexivity|]. split; [now apply (class_agrees e w A)|].
  intros e' He C. destruct (Forall2_in_l _ _ _ _ _ _ (Forall2_app F1 F3) He) as (x & Hx & A'). apply (N x Hx). now apply (class_agrees e' x A').
Qed.
Lemma agrees_world : forall d es, Forall2 agrees d es -> forall w others, doc_world d others w -> exists arr, world_first es arr /\ Forall2 agrees (w :: others) arr.
Proof.
  intros d es F w others (pre & post & -> & -> & W & N). apply Forall2_app_inv_l in F. destruct F as (epre & epost & F1 & F2 & ->). inversion F2 as [|e x dp ep A F3]; subst.
  exists (x :: epre ++ ep). split; [|constructor; [exact A|now apply Forall2_app]]. exists epre, x, ep. split; [reflexivity|]. split; [reflexivity|]. split; [now apply (class_agrees w x A)|].
  intros e' He C. destruct (Forall2_in_r _ _ _ _ _ _ (Forall2_app F1 F3) He) as (y & Hy & A'). apply (N y Hy). now apply (class_agrees y e' A').
Qed.

Lemma normals_agree : forall d es, Forall2 agrees d es -> (forall e l, In e d -> In l (doc_planes e) -> plane_readable p l) -> finite_normals p es <-> sound_planes p d.
Proof.
  intros d es F R. split.
  - intros N e l He Hl. split; [now apply (R e)|]. intros ws pl u v Hw Hp U. destruct (Forall2_in_l _ _ _ _ _ _ F He) as (x & Hx & (_ & B)).
    apply in_concat in Hl. destruct Hl as (b & Hb & Hl). destruct (Forall2_in_l _ _ _ _ _ _ B Hb) as (bx & Hbx & Q). destruct (Forall2_in_l _ _ _ _ _ _ Q Hl) as (pl' & Hpl & Rd).
    replace pl with pl'; [apply (N x bx pl' u v Hx Hbx Hpl); rewrite <- U; f_equal|]; apply (read_unique p l); [exact Rd|now exists ws|exact Rd|now exists ws].
  - intros N x b pl u v Hx Hb Hp U. destruct (Forall2_in_r _ _ _ _ _ _ F Hx) as (e & He & (_ & B)). destruct (Forall2_in_r _ _ _ _ _ _ B Hb) as (ls & Hls & Q). destruct (Forall2_in_r _ _ _ _ _ _ Q Hp) as (l & Hl & (ws & Hw & Hpw)).
    apply (proj2 (N e l He (proj2 (in_concat _ _) (ex_intro _ ls (conj Hls Hl)))) ws pl u v Hw Hpw U).
Qed.

(** ** Groups *)
Lemma nth_error_Some_lt : forall A (l : list A) i x, nth_error l i = Some x -> i < length l.
Proof. intros A l i x H. apply nth_error_Some. congruence. Qed.
Lemma nth_agrees : forall D arr, Forall2 agrees D arr -> forall i, match nth_error D i with Some e => exists x g, nth_error (bare arr) i = Some (x, g) /\ agrees e x | None => nth_error (bare arr) i = None end.
Proof.
  intros D arr F. induction F as [|e x D arr A F IH]; intros [|i]; try reflexivity; cbn [nth_error bare map]; [eauto|]. apply IH.
Qed.

Context (w : doc_entity) (others : doc) (arr : list (entity f32)) (F : Forall2 agrees (w :: others) arr).
Local Notation D := (w :: others).
Local Notation data := (bare arr).

Lemma prop_at : forall i e k, nth_error D i = Some e -> prop_of data i k = doc_value e k.
Proof.
  intros i e k H. pose proof (nth_agrees D arr F i) as X. rewrite H in X. destruct X as (x & g & E & (A & _)). unfold prop_of. rewrite E. apply A.
Qed.
Lemma length_at : length data = length D.
Proof. unfold bare. rewrite map_length. symmetry. exact (Forall2_length _ _ _ _ _ F). Qed.
Lemma some_at : forall i, i < length data -> exists e, nth_error D i = Some e.
Proof. intros i H. rewrite length_at in H. destruct (nth_error D i) as [e|] eqn:E; [eauto|]. apply nth_error_None in E. lia. Qed.
Lemma others_at : forall e, In e others -> exists i, 1 <= i < length data /\ nth_error D i = Some e.
Proof.
  intros e H. apply In_nth_error in H. destruct H as (i & H). exists (S i). split; [|exact H]. rewrite length_at. cbn [length]. apply nth_error_Some_lt in H. lia.
Qed.
Lemma at_others : forall i e, 1 <= i -> nth_error D i = Some e -> In e others.
Proof. intros [|i] e H E; [lia|]. cbn in E. now apply nth_error_In in E. Qed.
Lemma group_at : forall i j e e', nth_error D i = Some e -> nth_error D j = Some e' -> 1 <= j -> in_group data i j <-> member e e'.
Proof.
  intros i j e e' Hi Hj J. unfold in_group, group_of, id_of, member. rewrite (prop_at j e' _ Hj), (prop_at i e _ Hi). split; [intros (_ & g & X); eauto|intros (g & X)].
  split; [|eauto]. rewrite length_at. apply nth_error_Some_lt in Hj. lia.
Qed.
Lemma in_group_at : forall i j, in_group data i j -> exists e', nth_error D j = Some e' /\ In e' others.
Proof. intros i j ((J & L) & _). destruct (some_at j L) as (e' & E). exists e'. split; [exact E|]. now apply (at_others j). Qed.

Lemma reaches_placed : forall i, reaches data i -> exists e, nth_error D i = Some e /\ placed others w e.
Proof.
  intros i R. induction R as [i H|i j R (e & He & P) G].
  - unfold roots in H. rewrite length_at in H. cbn [length seq firstn] in H. apply in_app_or in H. destruct H as [[<-|[]]|H]; [exists w; split; [reflexivity|constructor]|].
    apply filter_In in H. destruct H as (S & U). apply in_seq in S. destruct (some_at i) as (e & E); [rewrite length_at; cbn [length]; lia|]. exists e. split; [exact E|].
    apply PlacedTop; [apply (at_others i); [lia|exact E]|]. unfold ungrouped, group_of in U. rewrite (prop_at i e _ E) in U. destruct (doc_value e (lit "_tb_group")); [discriminate U|reflexivity].
  - destruct (in_group_at i j G) as (e' & E' & I). exists e'. split; [exact E'|]. apply PlacedMember with (e := e); [exact P|exact I|]. apply (group_at i j e e' He E'); [apply G|exact G].
Qed.
Lemma placed_reaches : forall e, placed others w e -> exists i, nth_error D i = Some e /\ reaches data i.
Proof.
  intros e P. induction P as [|e I U|e e' P (i & Hi & R) I M].
  - exists 0. split; [reflexivity|]. apply ReachRoot. unfold roots. rewrite length_at. left. reflexivity.
  - destruct (others_at e I) as (i & J & E). exists i. split; [exact E|]. apply ReachRoot. unfold roots. apply in_or_app. right. apply filter_In. split; [apply in_seq; lia|].
    unfold ungrouped, group_of. rewrite (prop_at i e _ E), U. reflexivity.
  - destruct (others_at e' I) as (j & J & E). exists j. split; [exact E|]. apply ReachGroup with (i := i); [exact R|]. apply (group_at i j e e' Hi E); [apply J|exact M].
Qed.
Lemma usable_placed : all_usable fd data <-> forall e, placed others w e -> usable_entity fd e.
Proof.
  split.
  - intros U e P. destruct (placed_reaches e P) as (i & E & R). pose proof (nth_agrees D arr F i) as X. rewrite E in X. destruct X as (x & g & Ex & A). apply (usable_agrees e x A). exact (U i x g R Ex).
  - intros U i x g R E. destruct (reaches_placed i R) as (e & Ee & P). pose proof (nth_agrees D arr F i) as X. rewrite Ee in X. destruct X as (x' & g' & Ex & A). rewrite E in Ex. injection Ex as <- <-. apply (usable_agrees e x A). now apply U.
Qed.

Lemma walk_below : forall n i j e, walk data i (S n) j -> nth_error D i = Some e -> exists e', nth_error D j = Some e' /\ below others e e'.
Proof.
  intros n. induction n as [|n IH]; intros i j e W E; inversion W as [|i' k j' n' G W']; subst.
  - inversion W'; subst. destruct (in_group_at i j G) as (e' & E' & I). exists e'. split; [exact E'|]. apply BelowHere; [exact I|]. apply (group_at i j e e' E E'); [apply G|exact G].
  - destruct (in_group_at i k G) as (e1 & E1 & I). destruct (IH k j e1 W' E1) as (e' & E' & B). exists e'. split; [exact E'|].
    apply BelowDeep with (e' := e1); [exact I| |exact B]. apply (group_at i k e e1 E E1); [apply G|exact G].
Qed.
Lemma below_walk : forall e e', below others e e' -> forall i, nth_error D i = Some e -> exists n j, nth_error D j = Some e' /\ walk data i (S n) j.
Proof.
  intros e e' B. induction B as [e e' I M|e e' e'' I M B IH]; intros i E; destruct (others_at e' I) as (j & J & E'); pose proof (proj2 (group_at i j e e' E E' (proj1 J)) M) as G.
  - exists 0, j. split; [exact E'|]. apply WalkDown with (j := j); [exact G|constructor].
  - destruct (IH j E') as (n & k & Ek & W). exists (S n), k. split; [exact Ek|]. now apply WalkDown with (j := j).
Qed.
Lemma walk_reaches : forall n i j, reaches data i -> walk data i n j -> reaches data j.
Proof. intros n i j R W. induction W as [|i j k n G W IH]; [exact R|]. apply IH. now apply ReachGroup with (i := i). Qed.
Lemma cyclic_below : cyclic data <-> exists e, placed others w e /\ below others e e.
Proof.
  split.
  - intros (i & n & R & W). destruct (reaches_placed i R) as (e & E & P). exists e. split; [exact P|]. destruct (walk_below n i i e W E) as (e' & E' & B). rewrite E in E'. injection E' as <-. exact B.
  - intros (e & P & B). destruct (placed_reaches e P) as (i & E & R). destruct (below_walk e e B i E) as (n & j & Ej & W). exists j, n. split; [exact (walk_reaches _ _ _ R W)|].
    inversion W as [|i' k j' n' G W']; subst. apply WalkDown with (j := k); [|exact W']. destruct (in_group_at i k G) as (e1 & E1 & I). apply (group_at j k e e1 Ej E1); [apply G|]. now apply (group_at i k e e1 E E1); [apply G|].
Qed.
End Match.

(** ** Runs *)
Theorem run_buildable : forall p order, (forall m, Permutation (order m) m) -> forall c,
  (exists nodes n, forall fuel, n <= fuel -> run p order fuel c = Ok nodes) <->
  exists text d, file_text (cf_map c) text /\ open_document p text d /\ buildable p (cf_forge c) d.
Proof.
  intros p order Ho c. rewrite (run_success p order Ho c). split.
  - intros (bs & text & ps & es & arr & Em & En & El & Fn & Wf & Us & Cy). destruct (load_open p text ps es El) as (d & Od & R & A). exists text, d.
    split; [exists bs; auto|]. split; [exact Od|]. split; [now apply (normals_agree p d es A R)|]. destruct (world_agrees p d es A arr Wf) as (w & others & Dw & A').
    exists w, others. split; [exact Dw|]. split; [now apply (usable_placed p (cf_forge c) w others arr A')|]. intros e P B. apply Cy. apply (cyclic_below p w others arr A'). eauto.
  - intros (text & d & (bs & Em & En) & Od & Sp & w & others & Dw & Us & Cy). destruct (open_load p text d Od) as (ps & es & El & A); [intros e l He Hl; exact (proj1 (Sp e l He Hl))|].
    destruct (agrees_world p d es A w others Dw) as (arr & Wf & A'). exists bs, text, ps, es, arr. split; [exact Em|]. split; [exact En|]. split; [exact El|].
    split; [apply (normals_agree p d es A); [intros e l He Hl; exact (proj1 (Sp e l He Hl))|exact Sp]|]. split; [exact Wf|]. split; [now apply (usable_placed p (cf_forge c) w others arr A')|].
    intros C. apply (cyclic_below p w others arr A') in C. destruct C as (e & P & B). exact (Cy e P B).
Qed.

Lemma world_unique : forall d w others w' others', doc_world d others w -> doc_world d others' w' -> w = w' /\ others = others'.
Proof.
  intros d w others w' others' (pre & post & E & -> & W & N) (pre' & post' & E' & -> & W' & N'). subst d. revert pre' N N' E'.
  induction pre as [|x pre IH]; intros [|y pre'] N N' E'; simpl in *.
  - now injection E' as <- <-.
  - injection E' as <- E'. destruct (N' w (or_introl eq_refl) W).
  - injection E' as <- E'. destruct (N x (or_introl eq_refl) W').
  - injection E' as <- E'. destruct (IH pre') as (-> & I); auto. now rewrite I.
Qed.

Lemma scene_of : forall p order, (forall m, Permutation (order m) m) -> forall c text d, file_text (cf_map c) text -> open_document p text d -> sound_planes p d ->
  forall w others, doc_world d others w -> exists data layers, Forall2 (entity_agrees (reads_as p)) (w :: others) (map fst data)
    /\ (forall e g, In (e, g) data -> geometry_in_bounds g) /\ (forall t bs, In (t, bs) (order layers) -> geometry_in_bounds (EntityGeo (v3_zero (f32_num p)) bs))
    /\ forall fuel, run p order fuel c = build_scene (f32_num p) fuel (cf_game c) (cf_forge c) (cf_blacklist c) data (order layers).
Proof.
  intros p order Ho c text d (bs & Em & En) Od Sp w others Dw. destruct (open_load p text d Od) as (ps & es & El & A); [intros e l He Hl; exact (proj1 (Sp e l He Hl))|].
  assert (Fn : finite_normals p es) by (apply (normals_agree p d es A); [intros e l He Hl; exact (proj1 (Sp e l He Hl))|exact Sp]).
  destruct (agrees_world p d es A w others Dw) as (arr & Wf & A').
  destruct (proj2 (geometry_exact p (cf_textures c) es) Fn) as (gs & Eg). pose proof (geometry_lengths p _ _ _ Eg) as (Lg & _).
  destruct (arranged_filter es arr gs Lg Wf) as (data & layers & Ef & M). destruct (filtered_bounds p _ _ _ (built_bounds p _ _ _ Eg) Ef) as (B1 & B2).
  exists data, layers. rewrite M. split; [exact A'|]. split; [exact B1|]. split; [intros t b I; apply (B2 t); now apply (Permutation_in (l := order layers))|].
  intros fuel. rewrite run_split, (proj2 (read_ok (cf_map c) text)) by eauto. cbn [bind]. rewrite El. cbn [bind]. rewrite Eg. cbn [bind]. rewrite Ef. reflexivity.
Qed.

Theorem run_endless : forall p order, (forall m, Permutation (order m) m) -> forall c text d, file_text (cf_map c) text -> open_document p text d ->
  sound_planes p d -> usable_document (cf_forge c) d -> circular d -> forall fuel, run p order fuel c = OutOfFuel.
Proof.
  intros p order Ho c text d Ft Od Sp Us (w & others & e & Dw & P & B) fuel. destruct (scene_of p order Ho c text d Ft Od Sp w others Dw) as (data & layers & A & B1 & B3 & R). rewrite R.
  apply (scene_cyclic p (cf_game c) (cf_forge c) (cf_blacklist c) data B1 (order layers) B3).
  - apply (same_usable (cf_forge c) (bare (map fst data))); [now rewrite bare_fst|]. apply (usable_placed p (cf_forge c) w others _ A). intros e' P'. exact (Us w others e' Dw P').
  - apply (same_cyclic (bare (map fst data))); [now rewrite bare_fst|]. apply (cyclic_below p w others _ A). eauto.
Qed.

Theorem endless_circular : forall p order, (forall m, Permutation (order m) m) -> forall c, (forall fuel, run p order fuel c = OutOfFuel) ->
  exists text d, file_text (cf_map c) text /\ open_document p text d /\ sound_planes p d /\ circular d.
Proof.
  intros p order Ho c H. destruct (run_prefix p order c) as [(e & E)|[(w & E)|(bs & text & ps & es & gs & data & layers & Eb & En & El & Eg & Ef & R)]].
  - specialize (H 0). rewrite E in H. discriminate H.
  - specialize (H 0). rewrite E in H. discriminate H.
  - pose proof (geometry_lengths p _ _ _ Eg) as (Lg & _). pose proof (filter_arranged es gs data layers Lg Ef) as Wf. destruct (load_open p text ps es El) as (d & Od & Rd & A).
    exists text, d. split; [exists bs; auto|]. split; [exact Od|]. split; [apply (normals_agree p d es A Rd); unfold finite_normals; apply (proj1 (geometry_exact p (cf_textures c) es)); eauto|].
    destruct (world_agrees p d es A _ Wf) as (w & others & Dw & A'). specialize (H (length data)). rewrite R in H.
    destruct (filtered_bounds p _ _ _ (built_bounds p _ _ _ Eg) Ef) as (B1 & _).
    apply (stuck_scene p _ _ _ data B1) in H. apply (same_cyclic data (bare (map fst data))) in H; [|now rewrite bare_fst]. apply (cyclic_below p w others _ A') in H.
    destruct H as (e & P & B). exists w, others, e. auto.
Qed.

(** What is left is a panic. *)
Theorem run_panics : forall p order, (forall m, Permutation (order m) m) -> forall c text, file_text (cf_map c) text -> ~ map_rejected p text ->
  (forall d, open_document p text d -> ~ buildable p (cf_forge c) d /\ ~ circular d) -> exists w n, forall fuel, n <= fuel -> run p order fuel c = Panic w.
Proof.
  intros p order Ho c text (bs & Em & En) Nr H.
  assert (U : forall t, file_text (cf_map c) t -> t = text).
  { intros t (bs' & Em' & En'). rewrite Em in Em'. injection Em' as <-. apply decode_iff in En, En'. congruence. }
  destruct (run_outcomes p order c) as [(e & E)|[X|[X|X]]]; [| |exact X|].
  - destruct (proj1 (run_errors p order 0 c)) as [K|(bs' & K & [N|(t & En' & Rj)])]; [eauto|congruence| |].
    + rewrite Em in K. injection K as <-. destruct (N text En).
    + rewrite (U t) in Rj by (exists bs'; auto). contradiction.
  - apply (run_buildable p order Ho c) in X. destruct X as (t & d & Ft & Od & B). rewrite (U t Ft) in Od. destruct (proj1 (H d Od) B).
  - destruct (endless_circular p order Ho c X) as (t & d & Ft & Od & _ & B). rewrite (U t Ft) in Od. destruct (proj2 (H d Od) B).
Qed.
