(** Final forms of C03, C06 to C09. *)
From Coq Require Import SpecFloat.
From Verif Require Import Prelude F32 Text MapModel MapSpec BaseProofs TokenProofs ParserProofs PlaneProofs DecimalProofs TextProofs.

Lemma load_doc : forall p text ls ts (d : doc),
  lines_spec (p_keep_bare_cr p) text ls -> Forall2 token_spec ls ts -> significant ts = doc_tokens d ->
  (forall e b l, In e d -> In b (doc_brushes e) -> In l b ->
     exists ws pl, written ws l /\ plane_words (parse_f32 (p_modern_parse p)) (to_lowercase p) ws pl) ->
  exists paths es, load p text = Ok (paths, es) /\
    Forall2 (entity_agrees (fun l pl => exists ws, written ws l /\
      plane_words (parse_f32 (p_modern_parse p)) (to_lowercase p) ws pl)) d es.
Proof.
  intros p text ls ts d Hl Ht Hs Hp. apply lines_spec_iff in Hl. subst ls.
  assert (Etok : tokenize p text = Ok ts).
  { apply tokenize_ok. split; [|exact Ht].
    clear -Ht. induction Ht as [|l t ls ts Hlt Ht IH]; [intros l []|].
    intros l' [<-|Hl']; [|apply IH; exact Hl'].
    intros Hb. destruct (tokenize_line_spec l) as [[_ (w & E)]|[H _]]; [|contradiction].
    apply token_spec_line in Hlt. congruence. }
  destruct (parse_doc (f32_num p) (to_lowercase p) d ts Hs) as (paths & es & E & Ha).
  { intros e b l He Hb Hl. destruct (Hp e b l He Hb Hl) as (ws & pl & Hw & Hpl). exists pl.
    apply parse_plane_ok. apply written_iff in Hw. rewrite Hw. exact Hpl. }
  exists paths, es. split; [unfold load; rewrite Etok; exact E|].
  clear -Ha. induction Ha as [|e x d es [H1 H2] Ha IH]; constructor; [|exact IH].
  split; [exact H1|]. clear -H2. induction H2 as [|ls pls lss plss H H2 IH]; constructor; [|exact IH].
  clear -H. induction H as [|l pl ls pls H Hs IH]; constructor; [|exact IH].
  exists (split_whitespace l). split; [apply written_iff; reflexivity|]. apply parse_plane_ok in H. exact H.
Qed.

Lemma parse_same_significant : forall T (O : num T) lower ts1 ts2,
  significant ts1 = significant ts2 -> parse_tokens O lower ts1 = parse_tokens O lower ts2.
Proof. intros T O lower ts1 ts2 H. rewrite (parse_significant O lower ts1), (parse_significant O lower ts2), H. reflexivity. Qed.

Lemma load_same : forall p t1 t2 ls1 ls2,
  lines_spec (p_keep_bare_cr p) t1 ls1 -> lines_spec (p_keep_bare_cr p) t2 ls2 ->
  filter (fun l => negb (inert_line l)) ls1 = filter (fun l => negb (inert_line l)) ls2 ->
  load p t1 = load p t2.
Proof.
  intros p t1 t2 ls1 ls2 H1 H2 H. apply lines_spec_iff in H1, H2. subst. apply load_same_lines. exact H.
Qed.

Lemma plane_round_trip : forall T (O : num T) lower (show : T -> str) (good : T -> Prop) pl line,
  (forall x, good x -> n_parse O (show x) = Some x) -> n_parse O (lit "[") = None ->
  good_plane good pl -> written (show_plane show pl) line ->
  parse_plane O lower line =
  Ok (BrushPlane (bp_v0 pl) (bp_v1 pl) (bp_v2 pl) (lower (bp_texture pl)) (bp_uv pl) (bp_rotation pl)
        (bp_scale pl) (bp_extra pl)).
Proof.
  intros T O lower show good pl line Hs Hb Hg Hw. apply parse_plane_ok. apply written_iff in Hw. rewrite Hw.
  apply (show_plane_words O lower show good Hs Hb (fun z H => proj1 (parse_i32_iff _ _) (parse_i32_show z H))). exact Hg.
Qed.

Lemma float_round_trip : forall modern neg_zero x,
  f32_valid x = true -> f32_finite x = true -> (x = S754_zero true -> neg_zero = true) ->
  parse_f32 modern (show_f32 neg_zero x) = Some x.
Proof.
  intros modern neg_zero x Hv Hf Hz. rewrite parse_show_f32 by assumption.
  destruct x as [[|]| | |]; try reflexivity. rewrite Hz by reflexivity. reflexivity.
Qed.

Lemma float_negative_zero : forall modern, parse_f32 modern (show_f32 false (S754_zero true)) = Some (S754_zero false).
Proof. intros [|]; reflexivity. Qed.

Lemma plane_round_trip_f32 : forall p pl line,
  good_plane (fun x => f32_valid x = true /\ f32_finite x = true /\ (x = S754_zero true -> p_neg_zero p = true)) pl ->
  written (show_plane (show_f32 (p_neg_zero p)) pl) line ->
  parse_plane (f32_num p) (to_lowercase p) line =
  Ok (BrushPlane (bp_v0 pl) (bp_v1 pl) (bp_v2 pl) (to_lowercase p (bp_texture pl)) (bp_uv pl) (bp_rotation pl)
        (bp_scale pl) (bp_extra pl)).
Proof.
  intros p pl line Hg Hw. eapply plane_round_trip; [| |exact Hg|exact Hw].
  - intros x (Hv & Hf & Hz). apply float_round_trip; assumption.
  - apply parse_bracket.
Qed.

Section Malformed.
  Context (T : Type) (O : num T) (lower : str -> str).

  Lemma plane_read_iff : forall line ws pl, written ws line ->
    (parse_plane O lower line = Ok pl <-> plane_words (n_parse O) lower ws pl).
  Proof. intros line ws pl Hw. apply written_iff in Hw. subst ws. apply parse_plane_ok. Qed.

  Lemma plane_no_front : forall line ws, written ws line ->
    (~ exists front extra pl, ws = front ++ extra /\ plane_words (n_parse O) lower front pl /\ bp_extra pl = ExNone) ->
    exists w, parse_plane O lower line = Panic w.
  Proof.
    intros line ws Hw H. apply written_iff in Hw. subst ws. apply parse_plane_no_base.
    intros bw ex pl E Hp He. apply H. eauto 6.
  Qed.

  Lemma plane_fields : forall line ws, written ws line ->
    length ws < 21 \/
    (exists w, nth_error ws 16 = Some w /\ n_parse O w = None /\ length ws < 31) \/
    (exists i w, In i [1; 2; 3; 6; 7; 8; 11; 12; 13] /\ nth_error ws i = Some w /\ n_parse O w = None) ->
    exists w, parse_plane O lower line = Panic w.
  Proof.
    intros line ws Hw H. apply written_iff in Hw. subst ws. destruct H as [H|[(w & H1 & H2 & H3)|(i & w & H1 & H2 & H3)]].
    - apply parse_plane_short. exact H.
    - eapply parse_plane_valve_short; eassumption.
    - eapply parse_plane_coordinate; eassumption.
  Qed.

  Lemma plane_extra_count : forall line ws front extra pl, written ws line ->
    ws = front ++ extra -> plane_words (n_parse O) lower front pl -> bp_extra pl = ExNone ->
    ~ In (length extra) [0; 1; 3; 6] ->
    parse_plane O lower line = Err (lit "Unrecognized extra data").
  Proof.
    intros line ws front extra pl Hw E Hp He Hc. apply written_iff in Hw. subst ws.
    rewrite (parse_plane_extra O lower line front extra pl E Hp He), parse_extra_count by exact Hc. reflexivity.
  Qed.

  Lemma plane_extra_unreadable : forall line ws front extra pl, written ws line ->
    ws = front ++ extra -> plane_words (n_parse O) lower front pl -> bp_extra pl = ExNone ->
    (~ exists x, extra_words (n_parse O) extra x) ->
    (length extra = 3 \/ length extra = 6 -> exists e, parse_plane O lower line = Err e) /\
    (length extra = 1 -> exists w, parse_plane O lower line = Panic w).
  Proof.
    intros line ws front extra pl Hw E Hp He Hno. apply written_iff in Hw. subst ws.
    rewrite (parse_plane_extra O lower line front extra pl E Hp He). split.
    - intros Hlen. destruct (parse_extra_bad O lower extra Hlen) as [e Ee]; [intros x Hx; apply Hno; eauto|].
      rewrite Ee. simpl. eauto.
    - intros Hlen. destruct extra as [|w [|w' t]]; try discriminate. unfold parse_extra, next_num. simpl.
      destruct (n_parse O w) as [x|] eqn:Ew; simpl; [|eauto].
      exfalso. apply Hno. exists (ExHexen2 x). constructor. exact Ew.
  Qed.
End Malformed.
