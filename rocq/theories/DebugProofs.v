(** Proofs about the printed diff. *)
From Coq Require Import ZifyBool ZifyNat ZifyN.
From Verif Require Import Prelude F32 Text MapModel DiffModel RunModel DebugModel DebugSpec BaseProofs.
Local Open Scope N_scope.
Ltac Zify.zify_post_hook ::= Z.div_mod_to_equations.

(** ** Hexadecimal numerals *)
Lemma hex_digit_table : forall d, d < 16 -> In (hex_digit d) hex_digits /\ index_of (hex_digit d) hex_digits = d /\ (hex_digit d = 48 -> d = 0).
Proof.
  intros d H. assert (K : (fix all (n : nat) : bool := match n with O => true | S k =>
      let d := N.of_nat k in existsb (N.eqb (hex_digit d)) hex_digits && (index_of (hex_digit d) hex_digits =? d) && (negb (hex_digit d =? 48) || (d =? 0)) && all k end) 16%nat = true) by (vm_compute; reflexivity).
  assert (G : forall n, (fix all (n : nat) : bool := match n with O => true | S k =>
      let d := N.of_nat k in existsb (N.eqb (hex_digit d)) hex_digits && (index_of (hex_digit d) hex_digits =? d) && (negb (hex_digit d =? 48) || (d =? 0)) && all k end) n = true ->
      forall d, d < N.of_nat n -> existsb (N.eqb (hex_digit d)) hex_digits && (index_of (hex_digit d) hex_digits =? d) && (negb (hex_digit d =? 48) || (d =? 0)) = true).
  { induction n as [|n IH]; intros A e L; [lia|]. cbv zeta in A. apply andb_prop in A. destruct A as [A B].
    destruct (N.eq_dec e (N.of_nat n)) as [->|Q]; [exact A|]. apply IH; [exact B|lia]. }
  specialize (G 16%nat K d H). apply andb_prop in G. destruct G as [G G3]. apply andb_prop in G. destruct G as [G1 G2].
  apply existsb_exists in G1. destruct G1 as (x & I & E). apply N.eqb_eq in E, G2. subst x. split; [exact I|split; [exact G2|]].
  intros Z. apply orb_prop in G3. destruct G3 as [G3|G3]; [|now apply N.eqb_eq]. rewrite Z in G3. discriminate.
Qed.

Lemma hex_fuel_spec : forall f n acc, n < 2 ^ N.of_nat f -> (f <> 0)%nat ->
  exists h, hex_fuel f n acc = h ++ acc /\ hex_text h n.
Proof.
  induction f as [|f IH]; intros n acc H F; [lia|]. cbn [hex_fuel]. cbv zeta.
  destruct (hex_digit_table (n mod 16)) as (T1 & T2 & T3); [apply N.mod_lt; discriminate|].
  destruct (n / 16 =? 0) eqn:E.
  - exists [hex_digit (n mod 16)]. split; [reflexivity|]. split; [discriminate|]. split; [intros c [<-|[]]; exact T1|]. split.
    + cbn [hex_value length]. rewrite T2. change (16 ^ N.of_nat 0) with 1. lia.
    + cbn [hd]. intros Z. now rewrite Z.
  - assert (L : n / 16 < 2 ^ N.of_nat f). { rewrite Nat2N.inj_succ, N.pow_succ_r' in H. lia. }
    destruct f as [|f]; [change (2 ^ N.of_nat 0) with 1 in L; lia|].
    destruct (IH (n / 16) (hex_digit (n mod 16) :: acc) L ltac:(discriminate)) as (h & -> & N1 & N2 & N3 & N4).
    exists (h ++ [hex_digit (n mod 16)]). rewrite <- app_assoc. split; [reflexivity|]. split; [now destruct h|]. split; [|split].
    + intros c I. apply in_app_or in I. destruct I as [I|[<-|[]]]; auto.
    + assert (V : forall h d, hex_value (h ++ [d]) = hex_value h * 16 + index_of d hex_digits).
      { clear. induction h as [|c t IH]; intros d; [cbn [app hex_value length]; change (16 ^ N.of_nat 0) with 1; lia|].
        cbn [app hex_value]. rewrite IH, app_length. cbn [length]. rewrite Nat.add_1_r, Nat2N.inj_succ, N.pow_succ_r'. lia. }
      rewrite V, N3, T2. lia.
    + destruct h as [|c t]; [contradiction|]. cbn [hd app] in *. intros Z. specialize (N4 Z). injection N4 as -> ->.
      exfalso. change (hex_value [48]) with 0 in N3. lia.
Qed.

Lemma size_nat_size : forall n, N.of_nat (N.size_nat n) = N.size n.
Proof.
  intros [|q]; [reflexivity|]. cbn [N.size_nat N.size]. induction q; [| |reflexivity]; cbn [Pos.size_nat Pos.size]; rewrite Nat2N.inj_succ, IHq; reflexivity.
Qed.
Lemma show_hex_spec : forall n, hex_text (show_hex n) n.
Proof.
  intros n. unfold show_hex. destruct (hex_fuel_spec (S (N.size_nat n)) n []) as (h & -> & H); [|discriminate|now rewrite app_nil_r].
  rewrite Nat2N.inj_succ, N.pow_succ_r'. pose proof (N.size_gt n) as G.
  rewrite size_nat_size. lia.
Qed.
Lemma hex_text_inj : forall h n m, hex_text h n -> hex_text h m -> n = m.
Proof. intros h n m (_ & _ & <- & _) (_ & _ & <- & _). reflexivity. Qed.
Lemma show_hex_inj : forall a b, show_hex a = show_hex b -> a = b.
Proof. intros a b E. apply (hex_text_inj (show_hex a)); [|rewrite E]; apply show_hex_spec. Qed.
Lemma show_hex_chars : forall n c, In c (show_hex n) -> In c hex_digits.
Proof. intros n. destruct (show_hex_spec n) as (_ & H & _). exact H. Qed.

(** ** Strings *)
Section Style.
Variable st : debug_style.

Lemma escape_written : proper st -> forall c, written_char c (escape st c).
Proof.
  intros P c. destruct (P c) as [P1 P2]. unfold escape.
  destruct ((c =? 0) && ds_nul st) eqn:E0; [apply WNul; lia|].
  destruct (c =? 9) eqn:E1; [apply WTab; lia|].
  destruct (c =? 13) eqn:E2; [apply WReturn; lia|].
  destruct (c =? 10) eqn:E3; [apply WNewline; lia|].
  destruct ((c =? 34) || (c =? 92)) eqn:E4; [apply WBackslash; lia|].
  destruct ((c =? 39) && ds_single st) eqn:E5; [apply WBackslash; lia|].
  destruct (ds_plain st c) eqn:E6.
  - assert (~ (c < 32 \/ c = 127)) by (intros X; specialize (P2 X); congruence). apply WSelf; lia.
  - assert (~ (32 <= c < 127)) by (intros X; specialize (P1 X); congruence).
    apply (WCode c (show_hex c)); [lia|apply show_hex_spec].
Qed.

Lemma debug_str_text : proper st -> forall s, string_text s (debug_str st s).
Proof.
  intros P s. exists (map (escape st) s). split; [|unfold debug_str; now rewrite flat_map_concat_map].
  induction s as [|c s IH]; simpl; constructor; [now apply escape_written|exact IH].
Qed.

Ltac tests := repeat match goal with
  | |- context [if ?b then _ else _] => let E := fresh "E" in destruct b eqn:E
  | H : context [if ?b then _ else _] |- _ => let E := fresh "E" in destruct b eqn:E
  end.

Lemma until_brace : forall a b x y, (forall c, In c a -> In c hex_digits) -> (forall c, In c b -> In c hex_digits) ->
  a ++ 125 :: x = b ++ 125 :: y -> a = b /\ x = y.
Proof.
  induction a as [|c a IH]; intros [|c' b] x y Ha Hb E; simpl in E; [injection E as ->; auto|..]; injection E as E1 E.
  - exfalso. subst c'. specialize (Hb 125 (or_introl eq_refl)). repeat (destruct Hb as [Hb|Hb]; [discriminate|]). exact Hb.
  - exfalso. subst c. specialize (Ha 125 (or_introl eq_refl)). repeat (destruct Ha as [Ha|Ha]; [discriminate|]). exact Ha.
  - subst c'. destruct (IH b x y) as [-> ->]; auto; intros; [apply Ha|apply Hb]; simpl; auto.
Qed.

(** No two characters have escapes of which one begins the other. *)
Lemma escape_prefix : forall c d x y, escape st c ++ x = escape st d ++ y -> c = d /\ x = y.
Proof.
  intros c d x y E. unfold escape in E. tests; cbn [app] in E.
  all: repeat match goal with
    | H : _ :: _ = _ :: _ |- _ => first [discriminate H | let E1 := fresh "Q" in injection H as E1 H]
    | H : _ && _ = true |- _ => apply andb_prop in H; destruct H
    | H : _ || _ = true |- _ => apply orb_prop in H; destruct H
    | H : (_ =? _) = true |- _ => apply N.eqb_eq in H; subst
    end; try discriminate; try (split; congruence).
  all: try (injection E as E; rewrite <- !app_assoc in E; cbn [app] in E; apply until_brace in E; [|apply show_hex_chars..]; destruct E as [E ->];
            apply show_hex_inj in E; auto).
  all: try (exfalso; subst; repeat match goal with H : context [?a =? ?a] |- _ => rewrite N.eqb_refl in H end; simpl in *; lia).
Qed.

Lemma escape_head : forall c, exists a t, escape st c = a :: t /\ a <> 34.
Proof.
  intros c. unfold escape. tests; eexists _, _; (split; [reflexivity|]); try discriminate. lia.
Qed.

Lemma escape_no_newline : forall c, ~ In 10 (escape st c).
Proof.
  intros c. unfold escape. tests; simpl; try lia. intros I. repeat (destruct I as [I|I]; [discriminate|]).
  apply in_app_or in I. destruct I as [I|[I|[]]]; [|discriminate]. apply show_hex_chars in I. repeat (destruct I as [I|I]; [discriminate|]). exact I.
Qed.

Lemma body_prefix : forall s t x y, flat_map (escape st) s ++ 34 :: x = flat_map (escape st) t ++ 34 :: y -> s = t /\ x = y.
Proof.
  induction s as [|c s IH]; intros [|d t] x y E; cbn [flat_map app] in E.
  - now injection E as ->.
  - destruct (escape_head d) as (a & l & Q & A). rewrite Q in E. cbn [app] in E. injection E as E _. congruence.
  - destruct (escape_head c) as (a & l & Q & A). rewrite Q in E. cbn [app] in E. injection E as E _. congruence.
  - rewrite <- !app_assoc in E. apply escape_prefix in E. destruct E as [<- E]. destruct (IH t x y E) as [-> ->]. auto.
Qed.

Lemma debug_str_inj : forall s t, debug_str st s = debug_str st t -> s = t.
Proof. intros s t E. unfold debug_str in E. cbn [app] in E. injection E as E. apply (body_prefix s t [] []) in E. tauto. Qed.

Lemma debug_str_no_newline : forall s, ~ In 10 (debug_str st s).
Proof.
  intros s I. unfold debug_str in I. apply in_app_or in I. destruct I as [[I|[]]|I]; [discriminate|]. apply in_app_or in I.
  destruct I as [I|[I|[]]]; [|discriminate]. apply in_flat_map in I. destruct I as (c & _ & I). now apply escape_no_newline in I.
Qed.

(** ** Layout *)
Lemma pad_line : forall b l s, ~ In 10 l -> pad b (l ++ 10 :: s) = (if b then lit "    " else []) ++ l ++ 10 :: pad true s.
Proof.
  intros b l. revert b. induction l as [|c l IH]; intros b s N; [destruct b; reflexivity|].
  cbn [app pad]. f_equal. f_equal. replace (c =? 10) with false.
  - rewrite IH; [reflexivity|]. intros I. apply N. simpl; auto.
  - symmetry. apply N.eqb_neq. intros ->. apply N. simpl; auto.
Qed.

Definition no_newline (ls : list str) : Prop := Forall (fun l => ~ In 10 l) ls.

Lemma pad_unlines : forall ls, no_newline ls -> pad true (unlines ls) = unlines (map (indent 1) ls).
Proof.
  intros ls H. induction H as [|l ls N H IH]; [reflexivity|]. unfold unlines in *. cbn [flat_map map]. rewrite <- app_assoc. cbn [app].
  rewrite pad_line by exact N. rewrite IH. unfold indent. rewrite <- !app_assoc. reflexivity.
Qed.

Lemma unlines_app : forall a b, unlines (a ++ b) = unlines a ++ unlines b.
Proof. intros. apply flat_map_app. Qed.

Lemma indent_add : forall n m l, indent n (indent m l) = indent (n + m) l.
Proof. intros. unfold indent. rewrite app_assoc, <- repeat_app. f_equal. f_equal. lia. Qed.

Lemma tuple_lines : forall name v ls, no_newline ls -> v ++ lit "," ++ [10] = unlines ls ->
  debug_tuple name v ++ lit "," ++ [10] = unlines ((name ++ lit "(") :: map (indent 1) ls ++ [lit "),"]).
Proof.
  intros name v ls H E. unfold debug_tuple. rewrite E, pad_unlines by exact H.
  change ((name ++ lit "(") :: map (indent 1) ls ++ [lit "),"]) with ([name ++ lit "("] ++ map (indent 1) ls ++ [lit "),"]).
  rewrite !unlines_app. unfold unlines at 2 4. cbn [flat_map]. rewrite <- !app_assoc, ?app_nil_r. reflexivity.
Qed.

Lemma no_nl_app : forall a b, ~ In 10 a -> ~ In 10 b -> ~ In 10 (a ++ b).
Proof. intros a b A B I. apply in_app_or in I. tauto. Qed.
Lemma no_nl_lit : forall s, forallb (fun c => negb (c =? 10)) s = true -> ~ In 10 s.
Proof. intros s H I. rewrite forallb_forall in H. specialize (H 10 I). discriminate. Qed.
Lemma no_nl_indent : forall n s, ~ In 10 s -> ~ In 10 (indent n s).
Proof. intros n s H. unfold indent. apply no_nl_app; [|exact H]. intros I. apply repeat_spec in I. discriminate. Qed.
Local Hint Resolve no_nl_app no_nl_indent debug_str_no_newline : nl.
Local Hint Extern 1 (~ In _ _) => (apply no_nl_lit; reflexivity) : nl.

Notation shown := (debug_str st).

Lemma token_no_newline : forall t, no_newline (token_lines shown t).
Proof. intros [s| | |k v|s|s]; cbn [token_lines]; unfold one; repeat (constructor; [auto 8 with nl|]); constructor. Qed.

Lemma string_lines : forall s, shown s ++ lit "," ++ [10] = unlines [shown s ++ lit ","].
Proof. intros. unfold unlines. cbn [flat_map]. rewrite app_nil_r, <- app_assoc. reflexivity. Qed.

Lemma debug_token_lines : forall t, debug_token st t ++ lit "," ++ [10] = unlines (token_lines shown t).
Proof.
  intros t. assert (One : forall name s, debug_tuple name (shown s) ++ lit "," ++ [10] = unlines (one shown name s)).
  { intros name s. rewrite (tuple_lines name (shown s) [shown s ++ lit ","]); [reflexivity| |apply string_lines].
    constructor; [auto with nl|constructor]. }
  destruct t as [s| | |k v|s|s]; cbn [debug_token token_lines]; try apply One; try reflexivity.
  rewrite (tuple_lines _ _ [lit "Property {"; indent 1 (lit "key: " ++ shown k ++ lit ","); indent 1 (lit "value: " ++ shown v ++ lit ","); lit "},"]).
  - cbn [map app]. rewrite !indent_add. reflexivity.
  - repeat (constructor; [auto 8 with nl|]); constructor.
  - unfold debug_struct. cbn [flat_map fst snd].
    assert (F : forall n s, ~ In 10 n -> pad true (n ++ lit ": " ++ shown s ++ lit "," ++ [10]) = indent 1 (n ++ lit ": " ++ shown s ++ lit ",") ++ [10]).
    { intros n s Nn. replace (n ++ lit ": " ++ shown s ++ lit "," ++ [10]) with ((n ++ lit ": " ++ shown s ++ lit ",") ++ 10 :: []) by (rewrite <- !app_assoc; reflexivity).
      rewrite pad_line by auto with nl. unfold indent. rewrite <- !app_assoc. reflexivity. }
    rewrite !F by auto with nl. rewrite app_nil_r, <- !app_assoc. unfold unlines. cbn [flat_map]. rewrite <- ?app_assoc, ?app_nil_r. reflexivity.
Qed.

Lemma list_no_newline : forall name ts, ~ In 10 name -> no_newline (list_lines shown name ts).
Proof.
  intros name ts N. unfold list_lines. destruct ts as [|t ts]; [constructor; [auto with nl|constructor]|].
  constructor; [auto with nl|]. apply Forall_app. split; [|constructor; [auto with nl|constructor]]. apply Forall_forall. intros l I.
  apply in_map_iff in I. destruct I as (l' & <- & I). apply no_nl_indent. apply in_flat_map in I. destruct I as (t' & _ & I).
  pose proof (token_no_newline t') as F. unfold no_newline in F. rewrite Forall_forall in F. auto.
Qed.

Lemma values_lines : forall ts, flat_map (fun v => pad true (v ++ lit "," ++ [10])) (map (debug_token st) ts) =
  unlines (map (indent 1) (flat_map (token_lines shown) ts)).
Proof.
  induction ts as [|t ts IH]; [reflexivity|]. cbn [map flat_map]. rewrite IH, map_app, unlines_app. f_equal.
  rewrite debug_token_lines. apply pad_unlines, token_no_newline.
Qed.

Lemma field_lines : forall name ts, ~ In 10 name ->
  pad true (name ++ lit ": " ++ debug_list (map (debug_token st) ts) ++ lit "," ++ [10]) = unlines (list_lines shown name ts).
Proof.
  intros name ts N. unfold debug_list, list_lines. destruct ts as [|t ts].
  - cbn [map]. replace (name ++ lit ": " ++ (lit "[" ++ [] ++ lit "]") ++ lit "," ++ [10]) with ((name ++ lit ": [],") ++ 10 :: []) by (rewrite <- app_assoc; reflexivity).
    rewrite pad_line by auto with nl. unfold unlines, indent. cbn [flat_map]. rewrite app_nil_r, <- !app_assoc. reflexivity.
  - cbn [map]. rewrite <- (map_cons (debug_token st)). rewrite values_lines.
    set (ls := map (indent 1) (flat_map (token_lines shown) (t :: ts))).
    replace (name ++ lit ": " ++ (lit "[" ++ ([10] ++ unlines ls) ++ lit "]") ++ lit "," ++ [10])
      with (unlines ([name ++ lit ": ["] ++ ls ++ [lit "],"])).
    + rewrite pad_unlines.
      * cbn [app map]. rewrite map_app. unfold ls. rewrite map_map. rewrite (map_ext _ (indent 2)) by (intros; apply indent_add). reflexivity.
      * constructor; [auto with nl|]. apply Forall_app. split; [|constructor; [auto with nl|constructor]]. apply Forall_forall. intros l I.
        apply in_map_iff in I. destruct I as (l' & <- & I). apply no_nl_indent. apply in_flat_map in I. destruct I as (t' & _ & I).
        pose proof (token_no_newline t') as F. unfold no_newline in F. rewrite Forall_forall in F. auto.
    + rewrite !unlines_app. unfold unlines at 1 3. cbn [flat_map]. rewrite <- !app_assoc. reflexivity.
Qed.

Theorem diff_layout : forall d, debug_diff st d ++ [10] = unlines (diff_lines shown d).
Proof.
  intros [a r]. unfold debug_diff, debug_struct, diff_lines. cbn [flat_map fst snd d_added d_removed].
  rewrite !field_lines by auto with nl.
  change (lit "Diff {" :: list_lines shown (lit "added") a ++ list_lines shown (lit "removed") r ++ [lit "}"])
    with ([lit "Diff {"] ++ list_lines shown (lit "added") a ++ list_lines shown (lit "removed") r ++ [lit "}"]).
  rewrite !unlines_app, app_nil_r, <- !app_assoc. reflexivity.
Qed.

(** ** Different diffs print differently *)
Lemma unlines_inj : forall a b, no_newline a -> no_newline b -> unlines a = unlines b -> a = b.
Proof.
  assert (U : forall l m x y, ~ In 10 l -> ~ In 10 m -> l ++ 10 :: x = m ++ 10 :: y -> l = m /\ x = y).
  { induction l as [|c l IH]; intros [|d m] x y A B E; simpl in E; [injection E as ->; auto|..]; injection E as E1 E.
    - subst d. exfalso. apply B. simpl; auto.
    - subst c. exfalso. apply A. simpl; auto.
    - subst d. destruct (IH m x y) as [-> ->]; auto; intros I; [apply A|apply B]; simpl; auto. }
  intros a b A. revert b. induction A as [|l a N A IH]; intros b B E; destruct B as [|m b M B]; [reflexivity| | |].
  - destruct m; discriminate.
  - destruct l; discriminate.
  - unfold unlines in E. cbn [flat_map] in E. rewrite <- !app_assoc in E. cbn [app] in E. apply U in E; auto. destruct E as [-> E].
    f_equal. now apply IH.
Qed.

Lemma shown_comma : forall s t, shown s ++ lit "," = shown t ++ lit "," -> s = t.
Proof. intros s t E. apply app_inv_tail in E. now apply debug_str_inj. Qed.

Lemma token_prefix : forall t t' x y, map (indent 2) (token_lines shown t) ++ x = map (indent 2) (token_lines shown t') ++ y ->
  t = t' /\ x = y.
Proof.
  intros t t' x y E. assert (C : forall s t, shown s ++ [44] = shown t ++ [44] -> s = t) by exact shown_comma.
  revert C E. generalize shown. intros w C E.
  destruct t, t'; cbn [token_lines one map app indent repeat Nat.mul Nat.add lit] in E; try discriminate E.
  all: try (injection E as ->; auto; fail).
  all: injection E; intros; repeat match goal with H : _ ++ _ = _ ++ _ |- _ => apply C in H end; subst; auto.
Qed.

Lemma tokens_prefix : forall ts ts' x y,
  map (indent 2) (flat_map (token_lines shown) ts) ++ indent 1 (lit "],") :: x =
  map (indent 2) (flat_map (token_lines shown) ts') ++ indent 1 (lit "],") :: y -> ts = ts' /\ x = y.
Proof.
  assert (H : forall t, exists l r, map (indent 2) (token_lines shown t) = l :: r /\ l <> indent 1 (lit "],")).
  { intros []; cbn [token_lines one map]; eexists _, _; (split; [reflexivity|]); discriminate. }
  induction ts as [|t ts IH]; intros [|t' ts'] x y E; cbn [flat_map] in E.
  - now injection E as ->.
  - destruct (H t') as (l & r & Q & N). rewrite map_app, Q in E. cbn [app map] in E. injection E as E _. exfalso. apply N. now symmetry.
  - destruct (H t) as (l & r & Q & N). rewrite map_app, Q in E. cbn [app map] in E. injection E as E _. now exfalso.
  - rewrite !map_app, <- !app_assoc in E. apply token_prefix in E. destruct E as [-> E]. destruct (IH ts' x y E) as [-> ->]. auto.
Qed.

Lemma list_prefix : forall name ts ts' x y, list_lines shown name ts ++ x = list_lines shown name ts' ++ y -> ts = ts' /\ x = y.
Proof.
  intros name ts ts' x y E. unfold list_lines in E. destruct ts as [|t ts], ts' as [|t' ts'].
  - cbn [app] in E. now injection E as ->.
  - cbn [app] in E. injection E as E _. apply app_inv_head in E. discriminate.
  - cbn [app] in E. injection E as E _. apply app_inv_head in E. discriminate.
  - cbn [app] in E. injection E as E. rewrite <- !app_assoc in E. cbn [app] in E. now apply (tokens_prefix (t :: ts) (t' :: ts') x y) in E.
Qed.

Theorem diff_inj : forall d d', debug_diff st d = debug_diff st d' -> d = d'.
Proof.
  intros d d' E. assert (L : diff_lines shown d = diff_lines shown d').
  { assert (N : forall d, no_newline (diff_lines shown d)).
    { intros e. unfold diff_lines. constructor; [auto with nl|]. apply Forall_app. split; [apply list_no_newline; auto with nl|].
      apply Forall_app. split; [apply list_no_newline; auto with nl|constructor; [auto with nl|constructor]]. }
    apply unlines_inj; [apply N..|]. rewrite <- !diff_layout, E. reflexivity. }
  unfold diff_lines in L. injection L as L. apply list_prefix in L. destruct L as [A L]. apply list_prefix in L. destruct L as [R _].
  destruct d, d'; simpl in *. congruence.
Qed.

Theorem layout : proper st -> exists w, (forall s, string_text s (w s)) /\ (forall d, debug_diff st d ++ [10] = unlines (diff_lines w d))
  /\ (forall s, ~ In 10 (w s)).
Proof. intros P. exists shown. split; [now apply debug_str_text|]. split; [apply diff_layout|apply debug_str_no_newline]. Qed.
End Style.

Theorem output_iff : forall st p a b out, run_diff_output st p a b = Ok out <->
  exists d, run_diff p a b = Ok d /\ out = debug_diff st d ++ [10].
Proof.
  intros. unfold run_diff_output, bind. destruct (run_diff p a b) as [d|?|?|]; split; intros E; try discriminate.
  - injection E as <-. eauto.
  - destruct E as (d' & E & ->). now injection E as ->.
  - destruct E as (d & E & _). discriminate.
  - destruct E as (d & E & _). discriminate.
  - destruct E as (d & E & _). discriminate.
Qed.
