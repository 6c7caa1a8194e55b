(** Whole runs (C58, C67 to C69). *)
From Coq Require Import Permutation.
From Verif Require Import Prelude F32 Text MapModel DiffModel GeoModel LayerModel GameDataModel SceneModel RunModel
  MapSpec GatherSpec GeoSpec LayerSpec SurfaceSpec TreeSpec PropertySpec Utf8Spec RunSpec
  BaseProofs TokenProofs PlaneProofs ParserProofs GatherProofs GeoProofs GeoFinal LayerProofs SurfaceProofs TreeProofs NodeProofs
  PropertyProofs Utf8Proofs FuelProofs DegenerateFinal OutcomeProofs.

(** ** Loading *)
Section Loading.
Context (p : platform).
Local Notation O := (f32_num p).
Local Notation number := (parse_f32 (p_modern_parse p)).
Local Notation lower := (to_lowercase p).

Lemma extra_err : forall ex, (exists e, parse_extra O ex = Err e) <-> length ex <> 1 /\ forall x, ~ extra_words number ex x.
Proof.
  intros ex. split.
  - intros (e & E). split.
    + intros L. destruct ex as [|a [|]]; simpl in L; try lia. unfold parse_extra in E. cbn [length] in E.
      apply bind_err in E. destruct E as [E|([x r] & _ & E)]; [|discriminate].
      destruct (next_num_cases O [a]) as [(w & x & rest & _ & _ & K)|(_ & m & K)]; congruence.
    + intros x X. apply (parse_extra_ok O) in X. congruence.
  - intros (L & X). destruct (in_dec Nat.eq_dec (length ex) [0; 1; 3; 6]) as [I|I].
    + destruct I as [I|[I|[I|[I|[]]]]]; [|congruence| |]; [|apply (parse_extra_bad O); auto..].
      destruct ex; [|discriminate]. exfalso. apply (X ExNone). constructor.
    + eexists. now apply (parse_extra_count O).
Qed.
Lemma extra_fuel : forall ex, parse_extra O ex <> OutOfFuel.
Proof.
  intros ex. unfold parse_extra, parse_quake2, parse_daikatana, next_num, parse_quake2.
  destruct ex as [|a [|b [|c [|d [|e [|f [|g ex]]]]]]]; cbn [length bind]; try discriminate;
  unfold unwrap;
  repeat (match goal with |- context [match ?o with Some _ => _ | None => _ end] => destruct o end; cbn [bind]; try discriminate).
Qed.

Lemma plane_cases : forall l,
  (exists pl, parse_plane O lower l = Ok pl) \/ (exists e, parse_plane O lower l = Err e) \/ (exists w, parse_plane O lower l = Panic w).
Proof.
  intros l. rewrite parse_plane_base. destruct (base O lower (split_whitespace l)) as [[pl rest]|e|w|] eqn:E; cbn [bind].
  - pose proof (extra_fuel rest). destruct (parse_extra O rest); cbn [bind]; eauto. congruence.
  - eauto.
  - eauto.
  - destruct (base_fail O lower (split_whitespace l)) as [m M]; [rewrite E; reflexivity|congruence].
Qed.
Lemma plane_err : forall l, (exists e, parse_plane O lower l = Err e) <-> plane_rejected p l.
Proof.
  intros l. split.
  - intros (e & E). rewrite parse_plane_base in E.
    destruct (base O lower (split_whitespace l)) as [[pl rest]|e'|w|] eqn:B; cbn [bind] in E; try discriminate.
    2: { destruct (base_fail O lower (split_whitespace l)) as [m M]; [rewrite B; reflexivity|congruence]. }
    apply base_ok in B. destruct B as (bw & W & P & X).
    assert (Er : exists e, parse_extra O rest = Err e) by (destruct (parse_extra O rest); cbn [bind] in E; try discriminate; eauto).
    apply extra_err in Er. destruct Er as (L & Xn).
    exists (split_whitespace l), bw, rest, pl. split; [now apply written_iff|]. repeat split; auto.
  - intros (ws & front & ex & pl & W & -> & P & X & L & Xn). apply written_iff in W.
    rewrite (parse_plane_extra O lower l front ex pl W P X).
    destruct (proj2 (extra_err ex) (conj L Xn)) as (e & ->). cbn. eauto.
Qed.
Lemma plane_ok : forall l, (exists pl, parse_plane O lower l = Ok pl) <-> plane_readable p l.
Proof.
  intros l. split.
  - intros (pl & E). apply parse_plane_ok in E. exists (split_whitespace l), pl. split; [now apply written_iff|exact E].
  - intros (ws & pl & W & P). apply written_iff in W. subst ws. exists pl. now apply parse_plane_ok.
Qed.
Lemma orderly_iff : forall ts, orderly p ts <-> well_scoped (parse_plane O lower) ts.
Proof.
  intros ts. split; intros H pre t post E; destruct (H pre t post E) as (L & R); (split; [exact L|]); intros l El;
    apply plane_ok; now apply R.
Qed.

Lemma parse_err : forall ts, (exists e, parse_tokens O lower ts = Err e) <->
  exists pre t post, ts = pre ++ t :: post /\ orderly p pre
    /\ (legal (depth_after pre) t = false \/ exists l, t = TPlane l /\ legal (depth_after pre) t = true /\ plane_rejected p l).
Proof.
  intros ts. split.
  - intros (e & E). destruct (scope_cases O lower ts) as [W|(pre & t & post & -> & W & C)].
    + apply parse_accepts in W. destruct W as (ps & es & W). congruence.
    + exists pre, t, post. split; [reflexivity|]. split; [now apply orderly_iff|].
      destruct C as [C|(l & -> & D & F)]; [now left|right]. exists l. split; [reflexivity|]. split; [simpl; rewrite D; reflexivity|].
      apply plane_err. rewrite (parse_plane_error O lower pre l post W D F) in E.
      destruct (parse_plane O lower l); try discriminate. eauto.
  - intros (pre & t & post & -> & W & C). apply orderly_iff in W. destruct C as [C|(l & -> & D & F)].
    + eexists. now apply parse_scope_error.
    + apply plane_err in F. destruct F as (e & F). exists e. rewrite parse_plane_error; auto.
      * rewrite F. reflexivity.
      * simpl in D. now apply Nat.eqb_eq.
      * rewrite F. reflexivity.
Qed.
Lemma parse_outcome : forall ts, (exists r, parse_tokens O lower ts = Ok r) \/ (exists e, parse_tokens O lower ts = Err e)
  \/ (exists w, parse_tokens O lower ts = Panic w).
Proof.
  intros ts. destruct (scope_cases O lower ts) as [W|(pre & t & post & -> & W & C)].
  - apply parse_accepts in W. destruct W as (ps & es & W). eauto.
  - destruct C as [C|(l & -> & D & F)].
    + right. left. eexists. now apply parse_scope_error.
    + rewrite (parse_plane_error O lower pre l post W D F). destruct (plane_cases l) as [(x & E)|[(x & E)|(x & E)]]; rewrite E in *; eauto.
      discriminate.
Qed.
Lemma load_err : forall text, (exists e, load p text = Err e) <-> map_rejected p text.
Proof.
  intros text. destruct (lines_unique (p_keep_bare_cr p) text) as (ls & Ls & Un). unfold load. split.
  - intros (e & E). apply bind_err in E. destruct E as [E|(ts & Et & E)].
    + destruct (tokenize_lines_panic p text ls Ls) as (_ & [(ts & T)|(w & T)]); congruence.
    + apply (tokenize_lines_ok p text ls ts Ls) in Et. destruct Et as (B & F).
      destruct (proj1 (parse_err ts) (ex_intro _ e E)) as (pre & t & post & -> & C). exists ls, (pre ++ t :: post), pre, t, post.
      split; [exact Ls|]. split; [exact B|]. split; [exact F|]. split; [reflexivity|exact C].
  - intros (ls' & ts & pre & t & post & Ls' & B & F & Et & C). assert (ls' = ls) by (symmetry; now apply Un). subst ls'.
    rewrite (proj2 (tokenize_lines_ok p text ls ts Ls) (conj B F)). cbn [bind]. apply parse_err. eauto.
Qed.
Lemma load_outcome : forall text, (exists r, load p text = Ok r) \/ (exists e, load p text = Err e) \/ (exists w, load p text = Panic w).
Proof.
  intros text. unfold load. destruct (tokenize_outcome p text) as [(ts & ->)|(w & ->)]; cbn [bind]; [apply parse_outcome|eauto].
Qed.
End Loading.

(** ** Group recursion *)
Section Groups.
Context (p : platform) (gd : game_data f32) (fd : forge_data f32) (bl : blacklist).
Local Notation O := (f32_num p).
Context (data : list (entity f32 * entity_geo f32)) (bounds : forall e g, In (e, g) data -> geometry_in_bounds g).
Local Notation build f o d := (build_entity O f gd fd bl data o d).

Lemma leads_group : forall i j d c, nth_error data i = Some d -> nth_error data j = Some c -> 1 <= j ->
  leads O gd fd bl data d c -> in_group data i j.
Proof.
  intros i j [e g] [e' g'] Hi Hj L (v & k & pre & post & _ & _ & F & _). apply in_group_bool. unfold members. apply filter_In. split.
  - assert (j < length data) by (apply nth_error_Some; congruence). apply in_seq. lia.
  - rewrite (is_child_spec data i j e g e' g' Hi Hj).
    assert (I : In (e', g') (filter (fun x => is_child (fst (e, g)) (fst x)) (tl data))) by (rewrite F; apply in_or_app; simpl; auto).
    apply filter_In in I. exact (proj2 I).
Qed.
Lemma trail_walk : forall i js d, trail O gd fd bl data i js d -> forall pre j rest, js = pre ++ j :: rest ->
  walk data i (S (length pre)) j /\ exists c, trail O gd fd bl data j rest c.
Proof.
  intros i js d H. induction H as [|i j' js d c Hi Tr IH L B]; intros pre j rest E; [now destruct pre|].
  assert (G : in_group data i j') by (eapply leads_group; eauto; eapply trail_start; eauto).
  destruct pre as [|j0 pre]; injection E as -> E.
  - subst rest. split; [|eauto]. simpl. apply WalkDown with j; [exact G|constructor].
  - destruct (IH pre j rest E) as (W & C). split; [|exact C]. simpl. apply WalkDown with j0; assumption.
Qed.
Lemma walk_reaches : forall i n j, walk data i n j -> reaches data i -> reaches data j.
Proof. intros i n j W. induction W as [|i j k n G W IH]; intros R; [exact R|]. apply IH. now apply ReachGroup with i. Qed.

Lemma stuck_cyclic : forall i d, reaches data i -> nth_error data i = Some d -> stuck O gd fd bl data (length data) d -> cyclic data.
Proof.
  intros i d R Hi Hs. destruct (stuck_trail O gd fd bl data _ i d Hi Hs) as (js & Lj & Tr).
  pose proof (trail_bounds _ _ _ _ _ _ _ _ Tr) as B.
  assert (D : ~ NoDup js).
  { intros N. assert (I : incl js (seq 1 (length data - 1))).
    { intros j Hj. rewrite Forall_forall in B. apply in_seq. specialize (B j Hj). lia. }
    pose proof (NoDup_incl_length N I) as L. rewrite seq_length, Lj in L.
    assert (0 < length data) by (apply Nat.le_lt_trans with i; [lia|apply nth_error_Some; congruence]). lia. }
  apply repeated in D. destruct D as (j & l1 & l2 & l3 & E).
  destruct (trail_walk _ _ _ Tr l1 j (l2 ++ j :: l3) E) as (W1 & c & Tc).
  destruct (trail_walk _ _ _ Tc l2 j l3 eq_refl) as (W2 & _).
  exists j, (length l2). split; [exact (walk_reaches i _ j W1 R)|exact W2].
Qed.

Lemma walk_down : forall i n j, walk data i n j -> forall f o d m c, nth_error data i = Some d -> nth_error data j = Some c ->
  build f o d = Ok m -> exists f' o' m', f = f' + n /\ build f' o' c = Ok m'.
Proof.
  intros i n j W. induction W as [i|i j k n G W IH]; intros f o d m c Hi Hk E.
  - assert (c = d) by congruence. subst. exists f, o, m. split; [lia|exact E].
  - destruct d as [e g]. apply build_entity_inv in E. destruct E as (f1 & cl & v & kk & ch & props & -> & _ & _ & _ & M & _ & _).
    apply in_group_bool in G. destruct (Forall2_in_l _ _ _ _ _ _ (members_children data i e g Hi) G) as (x & Hx & Nx).
    apply mapM_ok in M. destruct (Forall2_in_l _ _ _ _ _ _ M Hx) as (y & _ & Y).
    destruct (IH f1 _ x y c Nx Hk Y) as (f' & o' & m' & -> & B). exists f', o', m'. split; [lia|exact B].
Qed.
Lemma cycle_never : forall f i n o d m, walk data i (S n) i -> nth_error data i = Some d -> build f o d <> Ok m.
Proof.
  induction f as [f IH] using lt_wf_ind. intros i n o d m W Hi E.
  destruct (walk_down i (S n) i W f o d m d Hi Hi E) as (f' & o' & m' & -> & B). eapply (IH f'); eauto. lia.
Qed.

(** Unbounded recursion means a cycle. *)
Lemma stuck_scene : forall layers, build_scene O (length data) gd fd bl data layers = OutOfFuel -> cyclic data.
Proof.
  intros layers E. unfold build_scene in E.
  assert (St : forall l, (forall x, In x l -> exists i, reaches data i /\ nth_error data i = Some x) ->
    mapM (build_entity O (length data) gd fd bl data (v3_zero O)) l = OutOfFuel -> cyclic data).
  { intros l H M. apply mapM_stuck in M. destruct M as (pre & x & post & ys & -> & _ & X).
    destruct (H x) as (i & R & Hi); [apply in_or_app; simpl; auto|]. eapply stuck_cyclic; eauto. }
  destruct (mapM (build_entity O (length data) gd fd bl data (v3_zero O)) (firstn 1 data)) as [w| | |] eqn:M; try discriminate.
  - cbn [bind] in E. pose proof (mapM_not_fuel _ _ (build_layer O gd) layers (fun x _ => build_layer_not_fuel O gd x)) as NL.
    destruct (mapM (build_layer O gd) layers) as [ls| | |] eqn:Ly; try discriminate; [|congruence]. cbn [bind] in E.
    match type of E with bind ?m _ = _ => destruct m eqn:Eo; try discriminate end.
    apply St in Eo; [exact Eo|]. intros x Hx. destruct (Forall2_in_r _ _ _ _ _ _ (ungrouped_others data) Hx) as (j & Hj & Nj).
    exists j. split; [|exact Nj]. constructor. apply in_or_app. right. exact Hj.
  - apply St in M; [exact M|]. intros x Hx. exists 0. split; [|now apply first_root]. constructor. apply roots_spec. split; [|auto].
    destruct data; [contradiction|simpl; lia].
Qed.

(** For usable entities, unbounded recursion is a cycle. *)
Theorem scene_cyclic : forall layers, (forall t bs, In (t, bs) layers -> geometry_in_bounds (EntityGeo (v3_zero O) bs)) ->
  all_usable fd data ->
  (cyclic data -> forall fuel, build_scene O fuel gd fd bl data layers = OutOfFuel)
  /\ (~ cyclic data -> exists nodes, forall fuel, length data <= fuel -> build_scene O fuel gd fd bl data layers = Ok nodes).
Proof.
  intros layers LB U. split.
  - intros (i & n & R & W) fuel. destruct (scene_ok p gd fd bl data bounds layers LB U fuel) as [(nodes & E)|E]; [|exact E]. exfalso.
    assert (L : i < length data) by now apply reaches_bound.
    destruct (nth_error data i) as [[e g]|] eqn:Ei; [|apply nth_error_None in Ei; lia].
    destruct (scene_entity p gd fd bl data fuel layers nodes E i R (e, g) Ei) as (f & o & m & B).
    exact (cycle_never f i n o (e, g) m W Ei B).
  - intros NC. destruct (scene_ok p gd fd bl data bounds layers LB U (length data)) as [(nodes & E)|E].
    + exists nodes. intros fuel L. rewrite (build_scene_mono O gd fd bl data (length data) fuel); [exact E|exact L|congruence].
    + exfalso. apply NC. exact (stuck_scene layers E).
Qed.
End Groups.

(** ** Geometry and layers *)
Lemma in_combine_Forall2 : forall A B (R : A -> B -> Prop) la lb a b, Forall2 R la lb -> In (a, b) (combine la lb) -> R a b.
Proof. intros A B R la lb a b H. induction H; simpl; intros I; [contradiction|]. destruct I as [I|I]; [congruence|auto]. Qed.

Section Layers.
Context (p : platform).
Local Notation O := (f32_num p).

Lemma built_bounds : forall tx es gs, build_geometry O tx es = Ok gs -> forall e g, In (e, g) (combine es gs) -> geometry_in_bounds g.
Proof.
  intros tx es gs E e g I b f Hb Hf. apply geometry_shape in E. apply (in_combine_Forall2 _ _ _ _ _ _ _ E) in I.
  destruct I as (I & _). destruct (Forall2_in_r _ _ _ _ _ _ I Hb) as (br & _ & F & _).
  destruct (Forall2_in_r _ _ _ _ _ _ F Hf) as (pl & _ & B). apply face_fan in B. destruct B as (_ & B & _). exact B.
Qed.
Lemma subseq_in : forall A (a b : list A) x, DiffSpec.subseq a b -> In x a -> In x b.
Proof. intros A a b x H. induction H; simpl; intuition. Qed.

Lemma filtered_bounds : forall (data out : list (entity f32 * entity_geo f32)) layers,
  (forall e g, In (e, g) data -> geometry_in_bounds g) -> layer_filter data = Ok (out, layers) ->
  (forall e g, In (e, g) out -> geometry_in_bounds g)
  /\ (forall t bs, In (t, bs) layers -> geometry_in_bounds (EntityGeo (v3_zero O) bs)).
Proof.
  intros data out layers B E. destruct (layer_filter_single data _ E) as (we & wg & others & S).
  rewrite (layer_filter_ok data we wg others S) in E. injection E as <- <-.
  destruct S as (pre & post & -> & -> & _ & _).
  assert (W : geometry_in_bounds wg) by (apply (B we); apply in_or_app; simpl; auto). split.
  - intros e g [I|I].
    + injection I as <- <-. intros b f Hb Hf. simpl in Hb. apply filter_In in Hb. destruct Hb as [Hb _]. apply filter_In in Hb. apply (W b f); tauto.
    + apply (B e). apply in_app_or in I. apply in_or_app. simpl. tauto.
  - intros t bs [I|[I|[]]]; injection I as <- <-; intros b f Hb Hf; simpl in Hb; apply filter_In in Hb; destruct Hb as [Hb _].
    + apply (W b f); auto.
    + apply filter_In in Hb. apply (W b f); tauto.
Qed.
End Layers.

(** ** Group links do not depend on geometry *)
Section Links.
Context (d1 d2 : list (entity f32 * entity_geo f32)) (same : map fst d1 = map fst d2).
Lemma same_prop : forall i k, prop_of d1 i k = prop_of d2 i k.
Proof.
  intros i k. unfold prop_of. assert (E : nth_error (map fst d1) i = nth_error (map fst d2) i) by now rewrite same.
  rewrite !nth_error_map in E. destruct (nth_error d1 i) as [[e g]|], (nth_error d2 i) as [[e' g']|]; simpl in E; congruence.
Qed.
Lemma same_len : length d1 = length d2.
Proof. rewrite <- (map_length fst d1), <- (map_length fst d2). now rewrite same. Qed.
Lemma same_group : forall i j, in_group d1 i j -> in_group d2 i j.
Proof. intros i j. unfold in_group, group_of, id_of. now rewrite !same_prop, same_len. Qed.
Lemma same_roots : forall i, In i (roots d1) -> In i (roots d2).
Proof. intros i. rewrite !roots_spec. unfold group_of. now rewrite same_prop, same_len. Qed.
Lemma same_reaches : forall i, reaches d1 i -> reaches d2 i.
Proof.
  intros i H. induction H as [i Hi|i j R IH G]; [constructor; now apply same_roots|]. apply ReachGroup with i; [exact IH|now apply same_group].
Qed.
Lemma same_walk : forall i n j, walk d1 i n j -> walk d2 i n j.
Proof. intros i n j H. induction H as [|i j k n G W IH]; [constructor|]. apply WalkDown with j; [now apply same_group|exact IH]. Qed.
Lemma same_cyclic : cyclic d1 -> cyclic d2.
Proof. intros (i & n & R & W). exists i, n. split; [now apply same_reaches|now apply same_walk]. Qed.
End Links.
Lemma same_usable : forall fd d1 d2, map fst d1 = map fst d2 -> all_usable fd d1 -> all_usable fd d2.
Proof.
  intros fd d1 d2 S U i e g R H.
  assert (E : nth_error (map fst d1) i = nth_error (map fst d2) i) by now rewrite S. rewrite !nth_error_map, H in E.
  destruct (nth_error d1 i) as [[e' g']|] eqn:N; [|discriminate]. simpl in E. injection E as ->.
  apply (U i e g'); [|exact N]. now apply (same_reaches d2 d1 (eq_sym S)).
Qed.

(** ** Runs *)
Section Run.
Context (p : platform) (order : hmap (list (brush_geo f32)) -> list (str * list (brush_geo f32))).
Local Notation O := (f32_num p).

(** A run after loading. *)
Lemma run_split : forall fuel c, run p order fuel c =
  (text <- read_to_string (cf_map c) ;;
   '(_, es) <- load p text ;;
   gs <- build_geometry O (cf_textures c) es ;;
   '(data, layers) <- layer_filter (combine es gs) ;;
   build_scene O fuel (cf_game c) (cf_forge c) (cf_blacklist c) data (order layers)).
Proof.
  intros fuel c. unfold run, load. destruct (read_to_string (cf_map c)) as [text| | |]; cbn [bind]; auto.
  destruct (tokenize p text); reflexivity.
Qed.

Lemma read_ok : forall f text, read_to_string f = Ok text <-> exists bs, f = Contents bs /\ encodes bs text.
Proof.
  intros f text. destruct f as [|bs]; simpl; [split; [discriminate|intros (bs & H & _); discriminate]|]. split.
  - intros E. destruct (utf8_decode bs) eqn:D; [|discriminate]. exists bs. split; [reflexivity|]. apply decode_iff. congruence.
  - intros (bs' & H & E). injection H as <-. apply decode_iff in E. now rewrite E.
Qed.
Lemma read_err : forall f, (exists e, read_to_string f = Err e) <->
  f = Unreadable \/ exists bs, f = Contents bs /\ forall text, ~ encodes bs text.
Proof.
  intros [|bs]; simpl; (split; [intros (e & E)|intros [H|(bs' & H & N)]]).
  - now left.
  - eauto.
  - discriminate.
  - right. exists bs. split; [reflexivity|]. intros text H. apply decode_iff in H. rewrite H in E. discriminate.
  - discriminate.
  - injection H as <-. destruct (utf8_decode bs) eqn:D; [|eauto]. exfalso. apply (N s). now apply decode_iff.
Qed.
Lemma read_outcome : forall f, (exists text, read_to_string f = Ok text) \/ (exists e, read_to_string f = Err e).
Proof. intros [|bs]; simpl; [eauto|]. destruct (utf8_decode bs); eauto. Qed.

Lemma filter_outcome : forall (data : list (entity f32 * entity_geo f32)), (exists r, layer_filter data = Ok r) \/ (exists w, layer_filter data = Panic w).
Proof.
  intros data. unfold layer_filter. destruct (partition is_worldspawn data) as [ws os]. destruct ws as [|[we wg] [|? ?]]; eauto.
  destruct (split_layers layer_textures (eg_brushes wg) []). eauto.
Qed.

Theorem run_errors : forall fuel c, (exists e, run p order fuel c = Err e) <->
  cf_map c = Unreadable
  \/ exists bs, cf_map c = Contents bs
     /\ ((forall text, ~ encodes bs text) \/ exists text, encodes bs text /\ map_rejected p text).
Proof.
  intros fuel c. rewrite run_split. split.
  - intros (e & E). apply bind_err in E. destruct E as [E|(text & Et & E)].
    + destruct (proj1 (read_err _) (ex_intro _ e E)) as [->|(bs & -> & N)]; [now left|right; eauto].
    + apply read_ok in Et. destruct Et as (bs & -> & En). right. exists bs. split; [reflexivity|]. right. exists text. split; [exact En|].
      apply load_err. apply bind_err in E. destruct E as [E|([ps es] & _ & E)]; [eauto|exfalso].
      apply bind_err in E. destruct E as [E|(gs & _ & E)].
      * destruct (geometry_outcome p (cf_textures c) es) as [(g & G)|(w & G)]; congruence.
      * apply bind_err in E. destruct E as [E|([data layers] & _ & E)].
        -- destruct (filter_outcome (combine es gs)) as [(r & R)|(w & R)]; congruence.
        -- revert E. apply build_scene_no_err.
  - intros [H|(bs & H & [N|(text & En & R)])].
    + rewrite H. simpl. eauto.
    + destruct (proj2 (read_err (cf_map c))) as (e & ->); [right; eauto|]. cbn. eauto.
    + rewrite (proj2 (read_ok (cf_map c) text)) by eauto. cbn [bind]. apply load_err in R. destruct R as (e & ->). cbn. eauto.
Qed.

(** Everything up to the scene does not depend on the depth limit. *)
Lemma run_prefix : forall c,
  (exists e, forall fuel, run p order fuel c = Err e) \/ (exists w, forall fuel, run p order fuel c = Panic w)
  \/ exists bs text ps es gs data layers, cf_map c = Contents bs /\ encodes bs text /\ load p text = Ok (ps, es)
       /\ build_geometry O (cf_textures c) es = Ok gs /\ layer_filter (combine es gs) = Ok (data, layers)
       /\ forall fuel, run p order fuel c = build_scene O fuel (cf_game c) (cf_forge c) (cf_blacklist c) data (order layers).
Proof.
  intros c. pose proof (fun fuel => run_split fuel c) as R.
  destruct (read_outcome (cf_map c)) as [(text & Et)|(e & Et)]; rewrite Et in R; cbn [bind] in R; [|eauto].
  apply read_ok in Et. destruct Et as (bs & Eb & En).
  destruct (load_outcome p text) as [([ps es] & El)|[(e & El)|(w & El)]]; rewrite El in R; cbn [bind] in R; [|eauto..].
  destruct (geometry_outcome p (cf_textures c) es) as [(gs & Eg)|(w & Eg)]; rewrite Eg in R; cbn [bind] in R; [|eauto].
  destruct (filter_outcome (combine es gs)) as [([data layers] & Ef)|(w & Ef)]; rewrite Ef in R; cbn [bind] in R; [|eauto].
  right. right. exists bs, text, ps, es, gs, data, layers. auto 10.
Qed.

Theorem run_outcomes : forall c,
  (exists e, forall fuel, run p order fuel c = Err e)
  \/ (exists nodes n, forall fuel, n <= fuel -> run p order fuel c = Ok nodes)
  \/ (exists w n, forall fuel, n <= fuel -> run p order fuel c = Panic w)
  \/ (forall fuel, run p order fuel c = OutOfFuel).
Proof.
  intros c. destruct (run_prefix c) as [H|[(w & H)|(bs & text & ps & es & gs & data & layers & _ & _ & _ & _ & _ & R)]]; [auto| |].
  - right. right. left. exists w, 0. auto.
  - pose proof (build_scene_no_err O (cf_game c) (cf_forge c) (cf_blacklist c) data (length data) (order layers)) as NE.
    pose proof (fun fuel L => build_scene_mono O (cf_game c) (cf_forge c) (cf_blacklist c) data (length data) fuel (order layers) L) as M.
    pose proof (scene_stuck O (cf_game c) (cf_forge c) (cf_blacklist c) data (order layers)) as St.
    destruct (build_scene O (length data) (cf_game c) (cf_forge c) (cf_blacklist c) data (order layers)) as [nodes|e|w|].
    + right. left. exists nodes, (length data). intros fuel L. rewrite R. apply M; [exact L|congruence].
    + destruct (NE e eq_refl).
    + right. right. left. exists w, (length data). intros fuel L. rewrite R. apply M; [exact L|congruence].
    + right. right. right. intros fuel. rewrite R. now apply St.
Qed.

(** What is left of the map after loading: the entities with the worldspawn first. *)
Lemma filter_arranged : forall (es : list (entity f32)) gs data layers, length gs = length es ->
  layer_filter (combine es gs) = Ok (data, layers) -> world_first es (map fst data).
Proof.
  intros es gs data layers L E. destruct (layer_filter_single _ _ E) as (we & wg & others & S).
  rewrite (layer_filter_ok _ we wg others S) in E. injection E as <- _.
  destruct S as (pre & post & D & -> & W & N).
  assert (F : map fst (combine es gs) = es).
  { clear - L. revert gs L. induction es as [|e es IH]; intros [|g gs] L; simpl in *; try discriminate; [reflexivity|]. rewrite IH; auto. }
  exists (map fst pre), we, (map fst post). simpl. rewrite <- F, D, !map_app. simpl. repeat split; auto.
  intros e He. apply in_app_or in He. rewrite !in_map_iff in He.
  destruct He as [(d & <- & Hd)|(d & <- & Hd)]; apply N; apply in_or_app; auto.
Qed.
Lemma arranged_filter : forall (es arr : list (entity f32)) gs, length gs = length es -> world_first es arr ->
  exists data layers, layer_filter (combine es gs) = Ok (data, layers) /\ map fst data = arr.
Proof.
  intros es arr gs L (pre & w & post & -> & -> & W & N).
  assert (S : exists pre' wg post', combine (pre ++ w :: post) gs = pre' ++ (w, wg) :: post' /\ map fst pre' = pre /\ map fst post' = post).
  { clear - L. revert gs L. induction pre as [|e pre IH]; intros [|g gs] L; simpl in *; try discriminate.
    - exists [], g, (combine post gs). repeat split. injection L as L. revert gs L. induction post as [|x post IH]; intros [|y gs] L; simpl in *; try discriminate; [reflexivity|].
      rewrite IH; auto.
    - destruct (IH gs) as (pre' & wg & post' & -> & <- & <-); [lia|]. exists ((e, g) :: pre'), wg, post'. auto. }
  destruct S as (pre' & wg & post' & E & <- & <-).
  assert (SW : single_world (combine (map fst pre' ++ w :: map fst post') gs) w wg (pre' ++ post')).
  { exists pre', post'. rewrite E. repeat split; auto. intros d Hd. apply N. rewrite <- map_app. now apply in_map. }
  rewrite (layer_filter_ok _ _ _ _ SW). do 2 eexists. split; [reflexivity|]. simpl. now rewrite map_app.
Qed.
Lemma world_first_unique : forall es a b, world_first es a -> world_first es b -> a = b.
Proof.
  intros es a b (pre & w & post & E & -> & W & N) (pre' & w' & post' & E' & -> & W' & N'). subst es. revert pre' N N' E'.
  induction pre as [|x pre IH]; intros [|y pre'] N N' E'; simpl in *.
  - now injection E' as <- <-.
  - injection E' as <- E'. destruct (N' w (or_introl eq_refl) W).
  - injection E' as <- E'. destruct (N x (or_introl eq_refl) W').
  - injection E' as <- E'. assert (I : w :: pre ++ post = w' :: pre' ++ post') by (apply IH; auto). injection I as <- I. now rewrite I.
Qed.
Lemma bare_fst : forall es, map fst (bare es) = es.
Proof. intros es. unfold bare. rewrite map_map. apply map_id. Qed.
End Run.

Section Success.
Context (p : platform) (order : hmap (list (brush_geo f32)) -> list (str * list (brush_geo f32)))
  (permutes : forall m, Permutation (order m) m).
Local Notation O := (f32_num p).

Theorem run_success : forall c,
  (exists nodes n, forall fuel, n <= fuel -> run p order fuel c = Ok nodes) <->
  exists bs text ps es arr, cf_map c = Contents bs /\ encodes bs text /\ load p text = Ok (ps, es)
    /\ finite_normals p es /\ world_first es arr /\ all_usable (cf_forge c) (bare arr) /\ ~ cyclic (bare arr).
Proof.
  intros c. split.
  - intros (nodes & n & H). destruct (run_prefix p order c) as [(e & E)|[(w & E)|(bs & text & ps & es & gs & data & layers & Eb & En & El & Eg & Ef & R)]].
    + specialize (H n (le_n n)). rewrite E in H. discriminate.
    + specialize (H n (le_n n)). rewrite E in H. discriminate.
    + pose proof (geometry_lengths p _ _ _ Eg) as (Lg & _). pose proof (filter_arranged es gs data layers Lg Ef) as A.
      specialize (H n (le_n n)). rewrite R in H.
      destruct (filtered_bounds p _ _ _ (built_bounds p _ _ _ Eg) Ef) as (B1 & B2).
      assert (B3 : forall t bs, In (t, bs) (order layers) -> geometry_in_bounds (EntityGeo (v3_zero O) bs)).
      { intros t b I. apply (B2 t). now apply (Permutation_in (l := order layers)). }
      assert (U : all_usable (cf_forge c) data) by (eapply scene_usable; eauto).
      exists bs, text, ps, es, (map fst data). repeat (split; [assumption|]). split.
      { unfold finite_normals. now apply (proj1 (geometry_exact p (cf_textures c) es)); eauto. }
      split; [exact A|]. split.
      * apply (same_usable (cf_forge c) data); [now rewrite bare_fst|exact U].
      * intros C. apply (same_cyclic _ data) in C; [|now rewrite bare_fst].
        destruct (scene_cyclic p (cf_game c) (cf_forge c) (cf_blacklist c) data B1 (order layers) B3 U) as (K & _). rewrite (K C) in H. discriminate.
  - intros (bs & text & ps & es & arr & Eb & En & El & F & A & U & C).
    destruct (proj2 (geometry_exact p (cf_textures c) es) F) as (gs & Eg). pose proof (geometry_lengths p _ _ _ Eg) as (Lg & _).
    destruct (arranged_filter es arr gs Lg A) as (data & layers & Ef & M).
    destruct (filtered_bounds p _ _ _ (built_bounds p _ _ _ Eg) Ef) as (B1 & B2).
    assert (B3 : forall t bs, In (t, bs) (order layers) -> geometry_in_bounds (EntityGeo (v3_zero O) bs)).
    { intros t b I. apply (B2 t). now apply (Permutation_in (l := order layers)). }
    destruct (scene_cyclic p (cf_game c) (cf_forge c) (cf_blacklist c) data B1 (order layers) B3) as (_ & K).
    { apply (same_usable (cf_forge c) (bare arr)); [now rewrite bare_fst|exact U]. }
    destruct K as (nodes & K).
    { intros X. apply C. apply (same_cyclic data); [now rewrite bare_fst|exact X]. }
    exists nodes, (length data). intros fuel L. rewrite run_split, (proj2 (read_ok (cf_map c) text)) by eauto. cbn [bind].
    rewrite El. cbn [bind]. rewrite Eg. cbn [bind]. rewrite Ef. cbn [bind]. now apply K.
Qed.
End Success.
