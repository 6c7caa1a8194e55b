(** Plane lines: lemmas for C07 and C08. *)
From Verif Require Import Prelude F32 Text MapModel MapSpec BaseProofs DecimalProofs TextProofs.

(** ** Words *)
Lemma words_from_white : forall s t, forallb white s = true -> words_from [] (s ++ t) = words_from [] t.
Proof.
  induction s as [|c s IH]; intros t H; [reflexivity|]. simpl in *.
  apply andb_true_iff in H as [Hc H]. rewrite white_iff, Hc. apply IH. exact H.
Qed.

Lemma words_from_word : forall w acc t, forallb (fun c => negb (white c)) w = true ->
  words_from acc (w ++ t) = words_from (rev w ++ acc) t.
Proof.
  induction w as [|c w IH]; intros acc t H; [reflexivity|]. simpl in *.
  apply andb_true_iff in H as [Hc H]. apply negb_true_iff in Hc. rewrite white_iff, Hc, IH by exact H.
  rewrite <- app_assoc. reflexivity.
Qed.

Lemma words_from_end : forall w s t, w <> [] -> separator s -> words_from (rev w) (s ++ t) = w :: words_from [] t.
Proof.
  intros w s t Hw [Hne Hs]. destruct s as [|c s]; [contradiction|]. simpl in *.
  apply andb_true_iff in Hs as [Hc Hs]. rewrite white_iff, Hc.
  destruct (rev w) eqn:E.
  - exfalso. apply Hw. rewrite <- (rev_involutive w), E. reflexivity.
  - rewrite <- E, rev_involutive, words_from_white by exact Hs. reflexivity.
Qed.

Lemma written_words : forall ws s, written ws s -> split_whitespace s = ws.
Proof.
  unfold split_whitespace. intros ws s H. induction H as [s Hs|lead w trail Hl [Hne Hw] Ht|lead w s ws rest Hl [Hne Hw] Hs H IH Hws].
  - rewrite <- (app_nil_r s), words_from_white by exact Hs. reflexivity.
  - rewrite words_from_white, words_from_word by assumption. rewrite app_nil_r.
    destruct trail as [|c trail].
    + simpl. destruct (rev w) eqn:E.
      * exfalso. apply Hne. rewrite <- (rev_involutive w), E. reflexivity.
      * rewrite <- E, rev_involutive. reflexivity.
    + rewrite <- (app_nil_r (c :: trail)), words_from_end; [reflexivity|exact Hne|split; [discriminate|exact Ht]].
  - rewrite words_from_white, words_from_word by assumption. rewrite app_nil_r, words_from_end by assumption.
    rewrite IH. reflexivity.
Qed.

(** Leading white space and words split off any text. *)
Lemma take_class : forall (f : N -> bool) s, exists a b, s = a ++ b /\ forallb f a = true /\
  match b with [] => True | c :: _ => f c = false end.
Proof.
  intros f s. induction s as [|c s (a & b & -> & Ha & Hb)]; [exists [], []; auto|].
  destruct (f c) eqn:Hc.
  - exists (c :: a), b. simpl. rewrite Hc. auto.
  - exists [], (c :: a ++ b). simpl. auto.
Qed.

Lemma words_written : forall s, exists ws, written ws s.
Proof.
  intros s. induction s as [s IH] using (well_founded_induction (Wf_nat.well_founded_ltof _ (@length N))).
  destruct (take_class white s) as (lead & b & -> & Hlead & Hb).
  destruct b as [|c b]; [exists []; rewrite app_nil_r; constructor; exact Hlead|].
  destruct (take_class (fun c => negb (white c)) (c :: b)) as (w & r & E & Hw & Hr).
  assert (Hwne : w <> []) by (intros ->; simpl in E; subst r; rewrite Hb in Hr; discriminate).
  rewrite E. destruct r as [|d r].
  - exists [w]. apply WOne; [exact Hlead|split; assumption|reflexivity].
  - destruct (take_class white (d :: r)) as (sep & rest & E2 & Hsep & Hrest).
    apply negb_false_iff in Hr.
    assert (Hsne : sep <> []) by (intros ->; simpl in E2; subst rest; congruence).
    rewrite E2. destruct rest as [|x rest].
    + exists [w]. rewrite app_nil_r. apply WOne; [exact Hlead|split; assumption|exact Hsep].
    + destruct (IH (x :: rest)) as [ws Hws].
      * unfold Wf_nat.ltof. rewrite app_length, E, app_length, E2, app_length.
        destruct w; [contradiction|]. simpl. lia.
      * exists (w :: ws). apply WCons; [exact Hlead|split; assumption|split; assumption|exact Hws|].
        intros ->. inv Hws. simpl in H. rewrite Hrest in H. discriminate.
Qed.

Lemma written_iff : forall ws s, written ws s <-> split_whitespace s = ws.
Proof.
  intros ws s. split; [apply written_words|]. intros <-.
  destruct (words_written s) as [ws H]. pose proof (written_words _ _ H) as E. rewrite E. exact H.
Qed.

(** ** Planes *)
Section Plane.
  Context {T : Type} (O : num T) (lower : str -> str).
  Notation number := (n_parse O).

  Lemma next_num_cases : forall comps,
    (exists w x rest, comps = w :: rest /\ number w = Some x /\ next_num O comps = Ok (x, rest)) \/
    ((forall w rest, comps = w :: rest -> number w = None) /\ exists m, next_num O comps = Panic m).
  Proof.
    intros [|w rest]; simpl.
    - right. split; [intros; discriminate|eauto].
    - destruct (number w) as [x|] eqn:E; simpl; [left; eauto 7|].
      right. split; [intros w' r' H; inv H; exact E|eauto].
  Qed.

  Lemma next_num_ok : forall comps x rest, next_num O comps = Ok (x, rest) <->
    exists w, comps = w :: rest /\ number w = Some x.
  Proof.
    intros comps x rest. destruct comps as [|w t]; simpl.
    - split; [discriminate|intros (w & H & _); discriminate].
    - destruct (number w) as [y|] eqn:E; simpl; split; intros H.
      + inv H. eauto.
      + destruct H as (w' & Hw & Hx). inv Hw. rewrite E in Hx. inv Hx. reflexivity.
      + discriminate.
      + destruct H as (w' & Hw & Hx). inv Hw. congruence.
  Qed.

  Lemma next_num_fail : forall comps, is_ok (next_num O comps) = false -> exists m, next_num O comps = Panic m.
  Proof.
    intros [|w t]; simpl; [eauto|]. destruct (number w); simpl; [discriminate|eauto].
  Qed.

  Lemma next_point_ok : forall comps v rest, next_point O comps = Ok (v, rest) ->
    exists o x y z tail, comps = o :: x :: y :: z :: tail /\ rest = tl tail /\
      number x = Some (vx v) /\ number y = Some (vy v) /\ number z = Some (vz v).
  Proof.
    intros comps v rest H. unfold next_point in H.
    apply bind_ok in H as ([x c1] & Hx & H). apply bind_ok in H as ([y c2] & Hy & H).
    apply bind_ok in H as ([z c3] & Hz & H). inv H.
    apply next_num_ok in Hx as (wx & E1 & Hx). apply next_num_ok in Hy as (wy & -> & Hy).
    apply next_num_ok in Hz as (wz & -> & Hz).
    destruct comps as [|o comps]; simpl in E1; [discriminate|]. subst comps.
    exists o, wx, wy, wz, c3. auto 6.
  Qed.

  Ltac fails :=
    repeat match goal with
    | |- context [bind (next_num O ?c) _] =>
      let H := fresh in destruct (next_num_cases c) as [(? & ? & ? & ? & ? & H)|(? & ? & H)];
      rewrite H; cbn [bind]; [|eauto]
    end.

  Lemma next_point_fail : forall comps, is_ok (next_point O comps) = false -> exists m, next_point O comps = Panic m.
  Proof.
    intros comps. unfold next_point. intros H.
    destruct (next_num O (tl comps)) as [[x c1]| | |] eqn:E1; simpl in *;
      try (destruct (next_num_fail (tl comps)) as [m Em]; [rewrite E1; reflexivity|rewrite Em in E1; inv E1; eauto]).
    destruct (next_num O c1) as [[y c2]| | |] eqn:E2; simpl in *;
      try (destruct (next_num_fail c1) as [m Em]; [rewrite E2; reflexivity|rewrite Em in E2; inv E2; eauto]).
    destruct (next_num O c2) as [[z c3]| | |] eqn:E3; simpl in *;
      try (destruct (next_num_fail c2) as [m Em]; [rewrite E3; reflexivity|rewrite Em in E3; inv E3; eauto]).
    discriminate.
  Qed.

  (** Everything up to the extra data. *)
  Definition base (comps : list str) : res (brush_plane T * list str) :=
    '(p0, comps) <- next_point O comps ;;
    '(p1, comps) <- next_point O comps ;;
    '(p2, comps) <- next_point O comps ;;
    tex <- unwrap (lit "missing texture") (hd_error comps) ;;
    let comps := tl comps in
    '(uv, comps) <- parse_uv O comps ;;
    '(rotation, comps) <- next_num O comps ;;
    '(sx, comps) <- next_num O comps ;;
    '(sy, comps) <- next_num O comps ;;
    Ok (BrushPlane p0 p1 p2 (lower tex) uv rotation (V2 sx sy) ExNone, comps).

  Definition with_extra (pl : brush_plane T) (x : extra_data T) : brush_plane T :=
    BrushPlane (bp_v0 pl) (bp_v1 pl) (bp_v2 pl) (bp_texture pl) (bp_uv pl) (bp_rotation pl) (bp_scale pl) x.

  Lemma parse_plane_base : forall s,
    parse_plane O lower s =
    ('(pl, comps) <- base (split_whitespace s) ;; x <- parse_extra O comps ;; Ok (with_extra pl x)).
  Proof.
    intros s. unfold parse_plane, base. generalize (split_whitespace s). intros ws.
    repeat match goal with
    | |- bind ?r _ = bind (bind ?r _) _ => destruct r as [?| | |]; cbn [bind]; try reflexivity
    | p : (_ * _)%type |- _ => destruct p; cbn [bind]
    end.
    destruct (parse_extra O l5); reflexivity.
  Qed.

  Lemma parse_uv_ok : forall comps u rest, parse_uv O comps = Ok (u, rest) -> rest <> [] ->
    exists w, comps = w ++ rest /\ uv_words number w u.
  Proof.
    intros [|c comps] u rest H Hne; simpl in H; [discriminate|].
    destruct (number c) as [a|] eqn:Ec.
    - apply bind_ok in H as ([b c1] & Hb & H). inv H. apply next_num_ok in Hb as (wb & -> & Hb).
      exists [c; wb]. split; [reflexivity|]. constructor; assumption.
    - apply bind_ok in H as ([x1 c1] & H1 & H). apply bind_ok in H as ([y1 c2] & H2 & H).
      apply bind_ok in H as ([z1 c3] & H3 & H). apply bind_ok in H as ([o1 c4] & H4 & H).
      apply bind_ok in H as ([x2 c5] & H5 & H). apply bind_ok in H as ([y2 c6] & H6 & H).
      apply bind_ok in H as ([z2 c7] & H7 & H). apply bind_ok in H as ([o2 c8] & H8 & H).
      inv H.
      apply next_num_ok in H1 as (w1 & -> & H1). apply next_num_ok in H2 as (w2 & -> & H2).
      apply next_num_ok in H3 as (w3 & -> & H3). apply next_num_ok in H4 as (w4 & -> & H4).
      apply next_num_ok in H5 as (w5 & E5 & H5). apply next_num_ok in H6 as (w6 & -> & H6).
      apply next_num_ok in H7 as (w7 & -> & H7). apply next_num_ok in H8 as (w8 & -> & H8).
      destruct c4 as [|k1 [|k2 c4]]; simpl in E5; try discriminate. subst c4.
      destruct c8 as [|k3 c8]; [contradiction|]. simpl.
      exists [c; w1; w2; w3; w4; k1; k2; w5; w6; w7; w8; k3]. split; [reflexivity|]. constructor; assumption.
  Qed.

  Lemma parse_uv_complete : forall w u rest, uv_words number w u -> parse_uv O (w ++ rest) = Ok (u, rest).
  Proof.
    intros w u rest H. inv H; simpl.
    - rewrite H0. unfold next_num. rewrite H1. reflexivity.
    - rewrite H0, H1. simpl. rewrite H2. simpl. rewrite H3. simpl. rewrite H4. simpl.
      rewrite H5. simpl. rewrite H6. simpl. rewrite H7. simpl. rewrite H8. reflexivity.
  Qed.

  Ltac nn_fail E c :=
    let m := fresh "m" in let Em := fresh in
    destruct (next_num_fail c) as [m Em]; [rewrite E; reflexivity|rewrite Em in E; inv E; eauto].

  Lemma parse_uv_fail : forall comps, is_ok (parse_uv O comps) = false -> exists m, parse_uv O comps = Panic m.
  Proof.
    intros [|c comps] H; simpl in *; [eauto|].
    destruct (number c) as [a|].
    - destruct (next_num O comps) as [[y c2]| | |] eqn:E; simpl in *; try nn_fail E comps. discriminate.
    - destruct (next_num O comps) as [[x1 c1]| | |] eqn:E1; simpl in *; try nn_fail E1 comps.
      destruct (next_num O c1) as [[x2 c2]| | |] eqn:E2; simpl in *; try nn_fail E2 c1.
      destruct (next_num O c2) as [[x3 c3]| | |] eqn:E3; simpl in *; try nn_fail E3 c2.
      destruct (next_num O c3) as [[x4 c4]| | |] eqn:E4; simpl in *; try nn_fail E4 c3.
      destruct (next_num O (tl (tl c4))) as [[x5 c5]| | |] eqn:E5; simpl in *; try nn_fail E5 (tl (tl c4)).
      destruct (next_num O c5) as [[x6 c6]| | |] eqn:E6; simpl in *; try nn_fail E6 c5.
      destruct (next_num O c6) as [[x7 c7]| | |] eqn:E7; simpl in *; try nn_fail E7 c6.
      destruct (next_num O c7) as [[x8 c8]| | |] eqn:E8; simpl in *; try nn_fail E8 c7.
      discriminate.
  Qed.

  Lemma base_ok : forall ws pl rest, base ws = Ok (pl, rest) ->
    exists bw, ws = bw ++ rest /\ plane_words number lower bw pl /\ bp_extra pl = ExNone.
  Proof.
    intros ws pl rest H. unfold base in H.
    apply bind_ok in H as ([p0 c0] & H0 & H). apply bind_ok in H as ([p1 c1] & H1 & H).
    apply bind_ok in H as ([p2 c2] & H2 & H). apply bind_ok in H as (tex & Ht & H).
    apply bind_ok in H as ([u c3] & Hu & H). apply bind_ok in H as ([r c4] & Hr & H).
    apply bind_ok in H as ([sx c5] & Hsx & H). apply bind_ok in H as ([sy c6] & Hsy & H). inv H.
    apply unwrap_ok in Ht. destruct c2 as [|t c2]; simpl in Ht; inv Ht. simpl in Hu.
    apply next_num_ok in Hr as (wr & -> & Hr). apply next_num_ok in Hsx as (wsx & -> & Hsx).
    apply next_num_ok in Hsy as (wsy & -> & Hsy).
    apply parse_uv_ok in Hu as (uw & -> & Hu); [|discriminate].
    apply next_point_ok in H2 as (o2 & x2 & y2 & z2 & t2 & -> & E2 & Hx2 & Hy2 & Hz2).
    destruct t2 as [|k2 t2]; simpl in E2; [discriminate|]. subst t2.
    apply next_point_ok in H1 as (o1 & x1 & y1 & z1 & t1 & -> & E1 & Hx1 & Hy1 & Hz1).
    destruct t1 as [|k1 t1]; simpl in E1; [discriminate|]. subst t1.
    apply next_point_ok in H0 as (o0 & x0 & y0 & z0 & t0 & -> & E0 & Hx0 & Hy0 & Hz0).
    destruct t0 as [|k0 t0]; simpl in E0; [discriminate|]. subst t0.
    exists ([o0; x0; y0; z0; k0] ++ [o1; x1; y1; z1; k1] ++ [o2; x2; y2; z2; k2] ++ [tex] ++ uw ++ [wr; wsx; wsy] ++ []).
    split; [simpl; rewrite <- !app_assoc; reflexivity|]. split; [|reflexivity].
    constructor; try assumption.
    - destruct p0. simpl in *. constructor; assumption.
    - destruct p1. simpl in *. constructor; assumption.
    - destruct p2. simpl in *. constructor; assumption.
    - constructor.
  Qed.

  Lemma next_point_complete : forall w v rest, point_words number w v -> next_point O (w ++ rest) = Ok (v, rest).
  Proof.
    intros w v rest H. inv H. unfold next_point. simpl. rewrite H0. simpl. rewrite H1. simpl. rewrite H2. reflexivity.
  Qed.

  Lemma base_complete : forall bw pl rest, plane_words number lower bw pl -> bp_extra pl = ExNone ->
    base (bw ++ rest) = Ok (pl, rest).
  Proof.
    intros bw pl rest H Hx. inv H. simpl in Hx. subst extra. inv H7. unfold base.
    rewrite <- !app_assoc.
    rewrite (next_point_complete _ _ _ H0). cbn [bind]. rewrite (next_point_complete _ _ _ H1). cbn [bind].
    rewrite (next_point_complete _ _ _ H2). cbn [bind]. simpl hd_error. cbn [unwrap bind app tl].
    rewrite (parse_uv_complete _ _ _ H3). simpl. rewrite H4. simpl. rewrite H5. simpl. rewrite H6. reflexivity.
  Qed.

  Lemma base_fail : forall ws, is_ok (base ws) = false -> exists m, base ws = Panic m.
  Proof.
    intros ws H. unfold base in *.
    destruct (next_point O ws) as [[p0 c0]| | |] eqn:E0; simpl in *;
      try (destruct (next_point_fail ws) as [m Em]; [rewrite E0; reflexivity|rewrite Em in E0; inv E0; eauto]).
    destruct (next_point O c0) as [[p1 c1]| | |] eqn:E1; simpl in *;
      try (destruct (next_point_fail c0) as [m Em]; [rewrite E1; reflexivity|rewrite Em in E1; inv E1; eauto]).
    destruct (next_point O c1) as [[p2 c2]| | |] eqn:E2; simpl in *;
      try (destruct (next_point_fail c1) as [m Em]; [rewrite E2; reflexivity|rewrite Em in E2; inv E2; eauto]).
    destruct (hd_error c2); simpl in *; [|eauto].
    destruct (parse_uv O (tl c2)) as [[u c3]| | |] eqn:E3; simpl in *;
      try (destruct (parse_uv_fail (tl c2)) as [m Em]; [rewrite E3; reflexivity|rewrite Em in E3; inv E3; eauto]).
    destruct (next_num O c3) as [[x4 c4]| | |] eqn:E4; simpl in *; try nn_fail E4 c3.
    destruct (next_num O c4) as [[x5 c5]| | |] eqn:E5; simpl in *; try nn_fail E5 c4.
    destruct (next_num O c5) as [[x6 c6]| | |] eqn:E6; simpl in *; try nn_fail E6 c5.
    discriminate.
  Qed.

  (** Extra data *)
  Lemma parse_extra_ok : forall ex x, parse_extra O ex = Ok x <-> extra_words number ex x.
  Proof.
    intros ex x. split.
    - unfold parse_extra.
      destruct ex as [|a [|b [|c [|d [|e [|f [|g ex]]]]]]]; simpl; intros H; try discriminate.
      + inv H. constructor.
      + destruct (number a) as [y|] eqn:E; simpl in H; [|discriminate]. inv H. constructor. exact E.
      + destruct (parse_i32 a) eqn:Ea; [|discriminate]. destruct (parse_i32 b) eqn:Eb; [|discriminate].
        destruct (number c) eqn:Ec; [|discriminate]. inv H. constructor; try assumption; now apply parse_i32_iff.
      + unfold parse_daikatana in H. simpl in H.
        destruct (parse_i32 a) eqn:Ea; [|discriminate]. destruct (parse_i32 b) eqn:Eb; [|discriminate].
        destruct (number c) eqn:Ec; [|discriminate]. simpl in H. destruct (number d) eqn:Ed; [|discriminate].
        destruct (number e) eqn:Ee; [|discriminate]. destruct (number f) eqn:Ef; [|discriminate].
        inv H. constructor; try assumption; now apply parse_i32_iff.
    - intros H. inv H; unfold parse_extra; simpl; repeat match goal with K : integer_text _ _ |- _ => apply parse_i32_iff in K end.
      + reflexivity.
      + rewrite H0. reflexivity.
      + rewrite H0, H1, H2. reflexivity.
      + unfold parse_daikatana. simpl. rewrite H0, H1, H2. simpl. rewrite H3, H4, H5. reflexivity.
  Qed.

  Lemma parse_extra_count : forall ex, ~ In (length ex) [0; 1; 3; 6] ->
    parse_extra O ex = Err (lit "Unrecognized extra data").
  Proof.
    intros ex H. unfold parse_extra.
    destruct ex as [|a [|b [|c [|d [|e [|f [|g ex]]]]]]]; try reflexivity; exfalso; apply H; simpl; auto.
  Qed.

  Lemma parse_extra_bad : forall ex, length ex = 3 \/ length ex = 6 -> (forall x, ~ extra_words number ex x) ->
    exists e, parse_extra O ex = Err e.
  Proof.
    intros ex Hlen Hno. unfold parse_extra.
    destruct ex as [|a [|b [|c [|d [|e [|f [|g ex]]]]]]]; simpl in Hlen; try (exfalso; lia); simpl.
    - destruct (parse_i32 a) eqn:Ea; simpl; [|eauto]. destruct (parse_i32 b) eqn:Eb; simpl; [|eauto].
      destruct (number c) eqn:Ec; simpl; [|eauto]. exfalso. eapply Hno. constructor; (eassumption || (apply parse_i32_iff; eassumption)).
    - unfold parse_daikatana. simpl.
      destruct (parse_i32 a) eqn:Ea; simpl; [|eauto]. destruct (parse_i32 b) eqn:Eb; simpl; [|eauto].
      destruct (number c) eqn:Ec; simpl; [|eauto]. destruct (number d) eqn:Ed; simpl; [|eauto].
      destruct (number e) eqn:Ee; simpl; [|eauto]. destruct (number f) eqn:Ef; simpl; [|eauto].
      exfalso. eapply Hno. constructor; (eassumption || (apply parse_i32_iff; eassumption)).
  Qed.

  (** ** C08 *)
  Lemma plane_split : forall ws pl, plane_words number lower ws pl ->
    exists bw ex pl0, ws = bw ++ ex /\ plane_words number lower bw pl0 /\ bp_extra pl0 = ExNone /\
      extra_words number ex (bp_extra pl) /\ pl = with_extra pl0 (bp_extra pl).
  Proof.
    intros ws pl H. inv H.
    exists (p0 ++ p1 ++ p2 ++ [tex] ++ uvw ++ [wr; wsx; wsy] ++ []), ex,
      (BrushPlane v0 v1 v2 (lower tex) uv r (V2 sx sy) ExNone).
    split; [|split; [|split; [|split]]]; try reflexivity; try assumption.
    - rewrite <- !app_assoc. reflexivity.
    - constructor; try assumption. constructor.
  Qed.

  Lemma plane_join : forall bw ex pl0 x, plane_words number lower bw pl0 -> bp_extra pl0 = ExNone ->
    extra_words number ex x -> plane_words number lower (bw ++ ex) (with_extra pl0 x).
  Proof.
    intros bw ex pl0 x H Hx Hex. inv H. simpl in Hx. subst extra. inv H7.
    rewrite <- !app_assoc. apply (PlWords number lower p0 p1 p2 tex uvw wr wsx wsy ex); assumption.
  Qed.

  Lemma parse_plane_ok : forall s pl, parse_plane O lower s = Ok pl <-> plane_words number lower (split_whitespace s) pl.
  Proof.
    intros s pl. rewrite parse_plane_base. split.
    - intros H. apply bind_ok in H as ([pl0 rest] & Hb & H). apply bind_ok in H as (x & Hx & H). inv H.
      apply base_ok in Hb as (bw & -> & Hp & He). apply parse_extra_ok in Hx. apply plane_join; assumption.
    - intros H. apply plane_split in H as (bw & ex & pl0 & -> & Hp & He & Hex & ->).
      rewrite (base_complete _ _ _ Hp He). cbn [bind]. apply parse_extra_ok in Hex.
      cbn [bp_extra with_extra] in *. rewrite Hex. reflexivity.
  Qed.

  Lemma parse_plane_no_base : forall s,
    (forall bw ex pl, split_whitespace s = bw ++ ex -> plane_words number lower bw pl -> bp_extra pl = ExNone -> False) ->
    exists m, parse_plane O lower s = Panic m.
  Proof.
    intros s H. rewrite parse_plane_base. destruct (base (split_whitespace s)) as [[pl rest]| | |] eqn:E.
    - exfalso. apply base_ok in E as (bw & E & Hp & He). eapply H; eassumption.
    - destruct (base_fail (split_whitespace s)) as [m Em]; [rewrite E; reflexivity|congruence].
    - simpl. eauto.
    - destruct (base_fail (split_whitespace s)) as [m Em]; [rewrite E; reflexivity|congruence].
  Qed.

  Lemma parse_plane_extra : forall s bw ex pl, split_whitespace s = bw ++ ex ->
    plane_words number lower bw pl -> bp_extra pl = ExNone ->
    parse_plane O lower s = (x <- parse_extra O ex ;; Ok (with_extra pl x)).
  Proof. intros s bw ex pl E Hp He. rewrite parse_plane_base, E, (base_complete _ _ _ Hp He). reflexivity. Qed.

  Lemma uv_words_length : forall w u, uv_words number w u -> 2 <= length w.
  Proof. intros w u H. inv H; simpl; lia. Qed.
  Lemma point_words_length : forall w u, point_words number w u -> length w = 5.
  Proof. intros w u H. inv H; reflexivity. Qed.

  Lemma plane_words_length : forall w pl, plane_words number lower w pl -> 21 <= length w.
  Proof.
    intros w pl H. inv H. rewrite !app_length. apply uv_words_length in H3.
    apply point_words_length in H0, H1, H2. simpl. lia.
  Qed.

  Lemma parse_plane_short : forall s, length (split_whitespace s) < 21 -> exists m, parse_plane O lower s = Panic m.
  Proof.
    intros s H. apply parse_plane_no_base. intros bw ex pl E Hp _. apply plane_words_length in Hp.
    rewrite E, app_length in H. lia.
  Qed.

  Lemma parse_plane_coordinate : forall s i w, In i [1; 2; 3; 6; 7; 8; 11; 12; 13] ->
    nth_error (split_whitespace s) i = Some w -> number w = None -> exists m, parse_plane O lower s = Panic m.
  Proof.
    intros s i w Hi Hn Hw. apply parse_plane_no_base. intros bw ex pl E Hp _. inv Hp.
    rewrite E in Hn. inv H; inv H0; inv H1.
    simpl in Hi. repeat (destruct Hi as [<-|Hi]; [simpl in Hn; inv Hn; congruence|]). destruct Hi.
  Qed.

  (** A standard line needs 21 words, a Valve line 31. *)
  Lemma parse_plane_valve_short : forall s w, nth_error (split_whitespace s) 16 = Some w -> number w = None ->
    length (split_whitespace s) < 31 -> exists m, parse_plane O lower s = Panic m.
  Proof.
    intros s w Hn Hw Hlen. apply parse_plane_no_base. intros bw ex pl E Hp _. inv Hp.
    rewrite E in *. inv H; inv H0; inv H1. inv H2; simpl in *.
    - inv Hn. congruence.
    - lia.
  Qed.

  (** ** C07 *)
  Section RoundTrip.
    Context (show : T -> str) (good : T -> Prop).
    Context (show_read : forall x, good x -> number (show x) = Some x)
      (bracket : number (lit "[") = None)
      (int_read : forall z, i32_range z -> integer_text (show_Z z) z).

    Lemma show_point_words : forall v, good_v3 good v -> point_words number (show_point show v) v.
    Proof. intros [x y z] (H1 & H2 & H3). simpl in *. constructor; auto. Qed.

    Lemma show_plane_words : forall p, good_plane good p ->
      plane_words number lower (show_plane show p)
        (BrushPlane (bp_v0 p) (bp_v1 p) (bp_v2 p) (lower (bp_texture p)) (bp_uv p) (bp_rotation p) (bp_scale p) (bp_extra p)).
    Proof.
      intros [v0 v1 v2 tex u r [sx sy] x] (H0 & H1 & H2 & Hu & Hr & Hsx & Hsy & Hx). simpl in *.
      unfold show_plane. cbn [bp_v0 bp_v1 bp_v2 bp_texture bp_uv bp_rotation bp_scale bp_extra ux uy].
      apply (PlWords number lower); try (apply show_point_words; assumption); try (apply show_read; assumption).
      - destruct u as [a b|ua uo va vo]; simpl in *.
        + constructor; apply show_read; apply Hu.
        + destruct Hu as ((? & ? & ?) & ? & (? & ? & ?) & ?). destruct ua, va. simpl in *. constructor; auto.
      - destruct x as [|a|d|d c]; simpl in *.
        + constructor.
        + constructor. auto.
        + destruct Hx as (? & ? & ?). destruct d. simpl in *. constructor; auto.
        + destruct Hx as ((? & ? & ?) & ? & ? & ?). destruct d, c. simpl in *. constructor; auto.
    Qed.
  End RoundTrip.
End Plane.
