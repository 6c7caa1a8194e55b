(** Printed maps are documents (C59). *)
From Coq Require Import Permutation SpecFloat.
From Verif Require Import Prelude F32 Text MapModel DiffModel GeoModel LayerModel GameDataModel SceneModel RunModel
  MapSpec GatherSpec GeoSpec LayerSpec SurfaceSpec TreeSpec GameDataSpec PropertySpec Utf8Spec RunSpec
  BaseProofs TokenProofs DecimalProofs TextProofs PlaneProofs ParserProofs MapProofs GameDataProofs RunProofs DocumentProofs.

(** ** Words *)
Lemma joined_written : forall ws, ws <> [] -> Forall word ws -> written ws (joined ws).
Proof.
  intros ws N F. induction F as [|w ws W F IH]; [congruence|]. destruct ws as [|w' ws].
  - simpl. replace w with ([] ++ w ++ []) at 2 by (simpl; apply app_nil_r). constructor; auto.
  - change (joined (w :: w' :: ws)) with ([] ++ w ++ lit " " ++ joined (w' :: ws)). constructor; auto; [split; [discriminate|reflexivity]| |discriminate].
    apply IH. discriminate.
Qed.
Lemma joined_chars : forall (P : N -> Prop) ws, P 32%N -> Forall (Forall P) ws -> Forall P (joined ws).
Proof.
  intros P ws S F. induction F as [|w ws W F IH]; [constructor|]. destruct ws as [|w' ws]; [exact W|].
  change (joined (w :: w' :: ws)) with (w ++ lit " " ++ joined (w' :: ws)). apply Forall_app. split; [exact W|].
  apply Forall_app. split; [constructor; [exact S|constructor]|exact IH].
Qed.

Section Plane.
Context (p : platform).
Local Notation show := (show_f32 (p_neg_zero p)).

Definition clean (c : N) : Prop := white c = false /\ scalar c.
Lemma number_clean : forall c, number_char c -> clean c.
Proof.
  intros c H. unfold number_char in H. unfold clean, scalar. rewrite <- white_iff. unfold is_whitespace.
  split; [|lia]. repeat (rewrite orb_false_iff || rewrite andb_false_iff); repeat split; lia.
Qed.
Definition clean_word (w : str) : Prop := w <> [] /\ Forall clean w.
Lemma show_clean : forall x, clean_word (show x).
Proof. intros x. split; [apply show_f32_nonempty|]. apply Forall_forall. intros c H. eapply number_clean, show_f32_chars, H. Qed.
Lemma show_Z_clean : forall x, clean_word (show_Z x).
Proof. intros x. split; [apply show_Z_nonempty|]. apply Forall_forall. intros c H. eapply number_clean, show_Z_chars, H. Qed.
Lemma bracket_clean : forall c, In c [40; 41; 91; 93]%N -> clean_word [c].
Proof. intros c H. split; [discriminate|]. constructor; [|constructor]. unfold clean, scalar. rewrite <- white_iff. unfold is_whitespace. simpl in H.
  split; [|lia]. repeat (destruct H as [<-|H]; [reflexivity|]). destruct H. Qed.
Lemma clean_is_word : forall w, clean_word w -> word w.
Proof. intros w (N & F). split; [exact N|]. apply forallb_forall. intros c H. rewrite Forall_forall in F. destruct (F c H) as [E _]. now rewrite E. Qed.
Lemma texture_clean : forall t, word t -> Forall scalar t -> clean_word t.
Proof. intros t (N & W) S. split; [exact N|]. rewrite forallb_forall in W. rewrite Forall_forall in *. intros c H. split; [|auto].
  specialize (W c H). now apply negb_true_iff in W. Qed.

Lemma plane_words_clean : forall pl, word (bp_texture pl) -> Forall scalar (bp_texture pl) -> Forall clean_word (show_plane show pl).
Proof.
  intros pl W S. unfold show_plane.
  assert (P : forall v, Forall clean_word (show_point show v)).
  { intros v. unfold show_point. repeat (constructor; [first [apply show_clean|apply bracket_clean; simpl; tauto]|]). constructor. }
  assert (T : clean_word (bp_texture pl)) by now apply texture_clean.
  repeat (apply Forall_app; split); try apply P.
  - repeat constructor; apply T.
  - destruct (bp_uv pl); cbn [show_uv]; repeat (constructor; [first [apply show_clean|apply bracket_clean; simpl; tauto]|]); constructor.
  - repeat (constructor; [apply show_clean|]); constructor.
  - destruct (bp_extra pl); cbn [show_extra]; repeat (constructor; [first [apply show_clean|apply show_Z_clean]|]); constructor.
Qed.

Lemma plane_line_written : forall pl, word (bp_texture pl) -> Forall scalar (bp_texture pl) ->
  written (show_plane show pl) (plane_line p pl).
Proof.
  intros pl W S. apply joined_written; [unfold show_plane, show_point; discriminate|].
  eapply Forall_impl; [|now apply plane_words_clean]. apply clean_is_word.
Qed.
Lemma plane_line_starts : forall pl, starts 40 (plane_line p pl).
Proof. intros pl. eexists. reflexivity. Qed.
Lemma space_scalar : scalar 32.
Proof. unfold scalar. lia. Qed.
Lemma plane_line_chars : forall pl, word (bp_texture pl) -> Forall scalar (bp_texture pl) ->
  Forall (fun c => scalar c /\ c <> 10%N /\ c <> 13%N) (plane_line p pl).
Proof.
  intros pl W S. apply joined_chars; [split; [apply space_scalar|lia]|].
  eapply Forall_impl; [|now apply plane_words_clean]. intros w (_ & F). eapply Forall_impl; [|exact F].
  intros c (Wc & Sc). split; [exact Sc|]. split; intros ->; discriminate.
Qed.

(** ** Lines *)
Definition good_line (l : str) : Prop := Forall scalar l /\ ~ In 10%N l /\ ~ ends_with_cr l.
Lemma ends_last : forall l c, c <> 13%N -> ~ ends_with_cr (l ++ [c]).
Proof. intros l c N (l' & E). apply app_inj_tail in E. destruct E as [_ E]. congruence. Qed.

Definition char_ok (c : N) : Prop := scalar c /\ c <> 10%N.
Lemma plain_ok : forall s, plain s -> Forall char_ok s.
Proof. intros s (S & _ & N). rewrite Forall_forall in *. intros c H. split; [auto|congruence]. Qed.
Lemma ok_line : forall l, Forall char_ok l -> ~ ends_with_cr l -> good_line l.
Proof.
  intros l F E. rewrite Forall_forall in F. split; [|split; [|exact E]].
  - apply Forall_forall. intros c H. apply (F c H).
  - intros H. destruct (F _ H) as [_ K]. congruence.
Qed.

Lemma prop_line_good : forall k v, plain k -> plain v -> good_line (quote k ++ lit " " ++ quote v).
Proof.
  intros k v K V. unfold quote. apply ok_line.
  - assert (Q : Forall char_ok [34%N]) by (constructor; [unfold char_ok, scalar; lia|constructor]).
    assert (S : Forall char_ok (lit " ")) by (change (lit " ") with [32%N]; constructor; [unfold char_ok, scalar; lia|constructor]).
    repeat (apply Forall_app; split); auto using plain_ok.
  - rewrite !app_assoc. apply ends_last. lia.
Qed.
Lemma prop_line_token : forall k v, plain k -> plain v -> token_spec (quote k ++ lit " " ++ quote v) (TProperty k v).
Proof.
  intros k v (_ & K & _) (_ & V & _). apply SpecProperty with (lit " ") [34%N]; auto.
  - unfold quote. now rewrite <- !app_assoc.
  - simpl. lia.
  - right. eexists. reflexivity.
Qed.
Lemma brace_good : good_line (lit "{") /\ good_line (lit "}").
Proof.
  change (lit "{") with [123%N]. change (lit "}") with [125%N].
  split; (split; [constructor; [unfold scalar; lia|constructor]|split; [simpl; lia|]]);
  intros (l' & E); destruct l' as [|? [|]]; discriminate.
Qed.

Lemma item_ok : forall i, printable_item p i -> Forall good_line (item_lines p i) /\ Forall2 token_spec (item_lines p i) (item_tokens (item_doc p i)).
Proof.
  intros [k v|b] H; simpl in H.
  - destruct H as [K V]. split; (constructor; [|constructor]); [now apply prop_line_good|now apply prop_line_token].
  - cbn [item_lines item_doc item_tokens].
    assert (B : Forall good_line (map (plane_line p) b) /\ Forall2 token_spec (map (plane_line p) b) (map TPlane (map (plane_line p) b))).
    { induction b as [|pl b IH]; [split; constructor|]. destruct (H pl (or_introl eq_refl)) as (_ & W & S).
      destruct IH as (I1 & I2); [intros; apply H; simpl; auto|]. simpl. split; (constructor; [|assumption]).
      - pose proof (plane_line_chars pl W S) as F. rewrite Forall_forall in F. apply ok_line.
        + apply Forall_forall. intros c Hc. destruct (F c Hc) as (A & B & _). split; assumption.
        + intros (l' & E). destruct (F 13%N) as (_ & _ & N); [rewrite E; apply in_or_app; simpl; auto|congruence].
      - constructor. apply plane_line_starts. }
    destruct B as (B1 & B2). split.
    + apply Forall_app. split; [constructor; [apply brace_good|constructor]|]. apply Forall_app. split; [exact B1|].
      constructor; [apply brace_good|constructor].
    + change (TOpen :: ?x) with ([TOpen] ++ x). apply Forall2_app; [constructor; [constructor; eexists; reflexivity|constructor]|].
      apply Forall2_app; [exact B2|]. constructor; [constructor; eexists; reflexivity|constructor].
Qed.

Lemma lines_ok : forall m, printable p m -> Forall good_line (map_lines p m) /\ Forall2 token_spec (map_lines p m) (doc_tokens (source_doc p m)).
Proof.
  induction m as [|e m IH]; intros H; [split; constructor|]. destruct IH as (I1 & I2); [intros x i Hx; apply H; simpl; auto|].
  assert (E : Forall good_line (flat_map (item_lines p) e) /\ Forall2 token_spec (flat_map (item_lines p) e) (flat_map item_tokens (map (item_doc p) e))).
  { assert (He : forall i, In i e -> printable_item p i) by (intros; eapply H; simpl; eauto). clear - He.
    induction e as [|i e IH]; [split; constructor|]. destruct IH as (A & B); [intros; apply He; simpl; auto|].
    destruct (item_ok i) as (C & D); [apply He; simpl; auto|]. simpl. split; [apply Forall_app; auto|apply Forall2_app; auto]. }
  destruct E as (E1 & E2). unfold map_lines in *. cbn [flat_map source_doc map doc_tokens] in *. unfold entity_tokens at 1. split.
  - repeat (apply Forall_app; split); auto; (constructor; [apply brace_good|constructor]).
  - apply Forall2_app; [|exact I2]. change (TOpen :: ?x) with ([TOpen] ++ x).
    apply Forall2_app; [constructor; [constructor; eexists; reflexivity|constructor]|].
    apply Forall2_app; [exact E2|]. constructor; [constructor; eexists; reflexivity|constructor].
Qed.

Lemma doc_significant : forall d, significant (doc_tokens d) = doc_tokens d.
Proof.
  assert (A : forall l, (forall t, In t l -> ignorable t = false) -> significant l = l).
  { induction l as [|t l IH]; intros H; [reflexivity|]. unfold significant in *. simpl. rewrite (H t (or_introl eq_refl)). simpl. f_equal. apply IH. intros; apply H; simpl; auto. }
  intros d. apply A. intros t H. unfold doc_tokens in H. apply in_flat_map in H. destruct H as (e & _ & H). unfold entity_tokens in H.
  destruct H as [<-|H]; [reflexivity|]. apply in_app_or in H. destruct H as [H|[<-|[]]]; [|reflexivity].
  apply in_flat_map in H. destruct H as ([k v|ps] & _ & H); simpl in H.
  - destruct H as [<-|[]]. reflexivity.
  - destruct H as [<-|H]; [reflexivity|]. apply in_app_or in H. destruct H as [H|[<-|[]]]; [|reflexivity].
    apply in_map_iff in H. destruct H as (x & <- & _). reflexivity.
Qed.

Theorem printed_document : forall m, printable p m -> text_document p (map_text p m) (source_doc p m).
Proof.
  intros m H. destruct (lines_ok m H) as (G & T). exists (map_lines p m), (doc_tokens (source_doc p m)).
  split; [|split; [exact T|apply doc_significant]].
  assert (E : map_lines p m = map fst (map (fun l => (l, LF)) (map_lines p m)) ++ []).
  { rewrite app_nil_r, map_map. simpl. now rewrite map_id. }
  rewrite E at 1. apply LinesSpec with (rest := []).
  - apply Forall_forall. intros [l en] Hl. apply in_map_iff in Hl. destruct Hl as (l' & K & Hl). injection K as <- <-.
    rewrite Forall_forall in G. destruct (G l' Hl) as (_ & N & C). split; [exact N|]. intros _. exact C.
  - intros [].
  - constructor.
  - unfold map_text, render. rewrite app_nil_r. generalize (map_lines p m). clear. induction l as [|l ls IH]; [reflexivity|]. simpl. rewrite IH. reflexivity.
Qed.
Theorem printed_encodes : forall m, printable p m -> encodes (map_bytes p m) (map_text p m).
Proof.
  intros m H. destruct (lines_ok m H) as (G & _). split; [|reflexivity]. unfold map_text. apply Forall_forall. intros c Hc.
  apply in_flat_map in Hc. destruct Hc as (l & Hl & Hc). apply in_app_or in Hc. rewrite Forall_forall in G.
  destruct Hc as [Hc|[<-|[]]]; [|unfold scalar; lia]. destruct (G l Hl) as (S & _). rewrite Forall_forall in S. auto.
Qed.

Lemma source_planes : forall m e l, In e (source_doc p m) -> In l (doc_planes e) ->
  exists x b pl, In x m /\ In (MBrush b) x /\ In pl b /\ l = plane_line p pl.
Proof.
  intros m e l He Hl. unfold source_doc in He. apply in_map_iff in He. destruct He as (x & <- & Hx). exists x.
  unfold doc_planes in Hl. apply in_concat in Hl. destruct Hl as (ps & Hps & Hl).
  assert (B : exists b, In (MBrush b) x /\ ps = map (plane_line p) b).
  { clear - Hps. induction x as [|[k v|b] x IH]; simpl in Hps; [contradiction| |].
    - destruct (IH Hps) as (b & Hb & E). exists b. simpl. auto.
    - destruct Hps as [<-|Hps]; [exists b; simpl; auto|]. destruct (IH Hps) as (b' & Hb & E). exists b'. simpl. auto. }
  destruct B as (b & Hb & ->). apply in_map_iff in Hl. destruct Hl as (pl & <- & Hp). eauto 10.
Qed.

Lemma exact_good : forall pl, exact_plane p pl ->
  good_plane (fun x => f32_valid x = true /\ f32_finite x = true /\ (x = S754_zero true -> p_neg_zero p = true)) pl.
Proof.
  intros pl (H0 & H1 & H2 & Hu & Hr & Hx & Hy & He). unfold good_plane. do 3 (split; [assumption|]).
  split; [destruct (bp_uv pl); exact Hu|]. do 3 (split; [assumption|]).
  destruct (bp_extra pl); try exact He. destruct He as (A & B & C & D). exact (conj (conj A (conj B C)) D).
Qed.

Theorem printed_sound : forall m, printable p m ->
  (forall e b pl u v, In e m -> In (MBrush b) e -> In pl b -> bp_uv pl = UVQuake u v -> finite_vec (plane_normal (f32_num p) pl)) ->
  sound_planes p (source_doc p m).
Proof.
  intros m H N e l He Hl. destruct (source_planes m e l He Hl) as (x & b & pl & Hx & Hb & Hp & ->).
  pose proof (H x (MBrush b) Hx Hb pl Hp) as (G & W & S). pose proof (plane_line_written pl W S) as Wr.
  assert (R : parse_plane (f32_num p) (to_lowercase p) (plane_line p pl)
    = Ok (BrushPlane (bp_v0 pl) (bp_v1 pl) (bp_v2 pl) (to_lowercase p (bp_texture pl)) (bp_uv pl) (bp_rotation pl) (bp_scale pl) (bp_extra pl)))
    by (apply plane_round_trip_f32; [now apply exact_good|exact Wr]).
  split; [apply plane_ok; eauto|].
  intros ws q u v Wq Pq Eu. apply written_iff in Wq. subst ws. apply (parse_plane_ok (f32_num p)) in Pq. rewrite R in Pq. injection Pq as <-.
  cbn [bp_uv] in Eu. exact (N x b pl u v Hx Hb Hp Eu).
Qed.
End Plane.

Section Printed.
Context (p : platform) (order : hmap (list (brush_geo f32)) -> list (str * list (brush_geo f32)))
  (permutes : forall m, Permutation (order m) m).

Theorem printed_tree : forall c m w others, cf_map c = Contents (map_bytes p m) -> printable p m ->
  source_normals p m ->
  doc_world (source_doc p m) others w -> doc_classes (source_doc p m) -> doc_distinct (source_doc p m) ->
  doc_integral (cf_forge c) (source_doc p m) ->
  exists world layers rest, (forall fuel, length m <= fuel -> run p order fuel c = Ok (world :: layers ++ rest))
    /\ actor_named world (Some (lit "worldspawn")) /\ Forall (layer_actor (cf_game c)) layers /\ length layers <= 2
    /\ Forall2 actor_named rest (ungrouped_classes others).
Proof.
  intros c m w others F P N W C D I.
  destruct (document_tree p order permutes c (map_bytes p m) (map_text p m) (source_doc p m) w others F
    (printed_encodes p m P) (printed_document p m P) W C D I (printed_sound p m P N)) as (world & layers & rest & R & H).
  exists world, layers, rest. split; [|exact H]. intros fuel L. apply R. unfold source_doc. rewrite map_length. exact L.
Qed.
End Printed.
