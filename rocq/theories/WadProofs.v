(** WAD archives: lemmas for C41 to C49. *)
From Coq Require Import Permutation ZifyN ZifyBool ZifyNat.
From Verif Require Import Prelude F32 Text TextSpec WadModel WadSpec DiffSpec BaseProofs TextProofs DiffProofs.
Local Open Scope N_scope.
Ltac Zify.zify_post_hook ::= Z.div_mod_to_equations.

(** ** Little-endian numbers *)
Fixpoint lev (bs : bytes) : N := match bs with [] => 0 | b :: t => b + 256 * lev t end.

Lemma le_length : forall k n, length (le k n) = k.
Proof. induction k as [|k IH]; intros n; simpl; [reflexivity|]. rewrite IH. reflexivity. Qed.

Lemma le_lev : forall bs, Forall byte bs -> le (length bs) (lev bs) = bs.
Proof.
  intros bs H. induction H as [|b t Hb Ht IH]; [reflexivity|].
  cbn [length le lev]. unfold byte in Hb. f_equal; [lia|].
  replace ((b + 256 * lev t) / 256) with (lev t) by lia. exact IH.
Qed.

Lemma lev_bound : forall bs, Forall byte bs -> lev bs < 256 ^ N.of_nat (length bs).
Proof.
  intros bs H. induction H as [|b t Hb Ht IH]; [reflexivity|].
  cbn [length lev]. unfold byte in Hb. rewrite Nat2N.inj_succ, N.pow_succ_r'. lia.
Qed.

Lemma lev_le : forall k n, n < 256 ^ N.of_nat k -> lev (le k n) = n.
Proof.
  induction k as [|k IH]; intros n H.
  - simpl in *. lia.
  - cbn [le lev]. rewrite Nat2N.inj_succ, N.pow_succ_r' in H. rewrite IH; lia.
Qed.

Local Opaque le.

(** ** Decoders *)
Definition decodes {A} (p : parser A) (R : A -> bytes -> Prop) : Prop :=
  forall i rest x, Forall byte i -> (p i = Some (rest, x) <-> exists bs, i = bs ++ rest /\ R x bs).

Lemma decodes_iff : forall A (p : parser A) R R', (forall x bs, Forall byte bs -> (R x bs <-> R' x bs)) -> decodes p R -> decodes p R'.
Proof.
  intros A p R R' H Hd i rest x Hi. rewrite (Hd i rest x Hi). split; intros (bs & -> & Hr); exists bs; split; auto;
    apply Forall_app in Hi; apply H; tauto.
Qed.

Lemma decodes_ret : forall A (x : A), decodes (pret x) (fun y bs => y = x /\ bs = []).
Proof.
  intros A x i rest y _. unfold pret. split.
  - intros H. injection H as -> <-. exists []. auto.
  - intros (bs & -> & -> & ->). reflexivity.
Qed.

Lemma decodes_bind : forall A B (p : parser A) (f : A -> parser B) R S,
  decodes p R -> (forall x, decodes (f x) (S x)) ->
  decodes (pbind p f) (fun y bs => exists x b1 b2, bs = b1 ++ b2 /\ R x b1 /\ S x y b2).
Proof.
  intros A B p f R S Hp Hf i rest y Hi. unfold pbind. split.
  - destruct (p i) as [[i' x]|] eqn:E; [|discriminate]. intros H.
    apply Hp in E as (b1 & -> & H1); [|exact Hi]. apply Forall_app in Hi as [_ Hi].
    apply Hf in H as (b2 & -> & H2); [|exact Hi]. exists (b1 ++ b2). rewrite app_assoc. split; [reflexivity|].
    exists x, b1, b2. auto.
  - intros (bs & -> & x & b1 & b2 & -> & H1 & H2). rewrite <- app_assoc in *.
    assert (E : p (b1 ++ b2 ++ rest) = Some (b2 ++ rest, x)) by (apply Hp; eauto).
    rewrite E. apply Forall_app in Hi as [_ Hi]. apply Hf; eauto.
Qed.

Lemma decodes_u8 : decodes le_u8 (fun x bs => bs = [x]).
Proof.
  intros [|b i] rest x Hi; simpl.
  - split; [discriminate|]. intros (bs & H & ->). discriminate.
  - split; [intros H; injection H as -> ->; exists [x]; auto|]. intros (bs & H & ->). injection H as -> ->. reflexivity.
Qed.

Lemma decodes_u16 : decodes le_u16 (fun x bs => length bs = 2%nat /\ x = lev bs).
Proof.
  intros [|a [|b i]] rest x Hi; simpl.
  - split; [discriminate|]. intros ([|? [|? ?]] & H & Hl & _); discriminate.
  - split; [discriminate|]. intros ([|? [|? ?]] & H & Hl & _); discriminate.
  - split.
    + intros H. injection H as -> <-. exists [a; b]. repeat split. cbn [lev]. lia.
    + intros ([|? [|? [|? ?]]] & H & Hl & ->); try discriminate. injection H as -> -> ->. cbn [lev]. do 2 f_equal. lia.
Qed.

Lemma decodes_u32 : decodes le_u32 (fun x bs => u32 x /\ bs = le 4 x).
Proof.
  intros [|a [|b [|c [|d i]]]] rest x Hi.
  1-4: cbn [le_u32]; split; [discriminate|]; intros (bs & H & _ & ->); apply (f_equal (@length N)) in H;
       rewrite app_length, le_length in H; cbn [length] in H; lia.
  repeat match goal with H : Forall byte (_ :: _) |- _ => apply Forall_cons_iff in H as [? H] end.
  assert (Hb : Forall byte [a; b; c; d]) by (repeat constructor; assumption).
  assert (Ev : a + b * 256 + c * 65536 + d * 16777216 = lev [a; b; c; d]) by (cbn [lev]; lia).
  cbn [le_u32]. rewrite Ev. split.
  - intros E. injection E as -> <-. exists [a; b; c; d]. split; [reflexivity|]. split.
    + apply (lev_bound _ Hb).
    + symmetry. apply (le_lev _ Hb).
  - intros (bs & E & Hx & ->). pose proof (le_length 4 x) as Hl.
    destruct (le 4 x) as [|a' [|b' [|c' [|d' [|? ?]]]]] eqn:El; try discriminate.
    simpl in E. injection E as -> -> -> -> ->. rewrite <- El. rewrite lev_le by exact Hx. reflexivity.
Qed.

Lemma decodes_count : forall A (p : parser A) R n, decodes p R ->
  decodes (count p n) (fun xs bs => exists bss, bs = concat bss /\ length xs = n /\ Forall2 R xs bss).
Proof.
  intros A p R n Hp. induction n as [|n IH]; intros i rest xs Hi.
  - simpl. split.
    + intros H. injection H as -> <-. exists []. split; [reflexivity|]. exists []. repeat split; constructor.
    + intros (bs & -> & bss & -> & Hl & H). destruct xs; [|discriminate]. inv H. reflexivity.
  - cbn [count]. split.
    + destruct (p i) as [[i' x]|] eqn:E; [|discriminate]. apply Hp in E as (b1 & -> & H1); [|exact Hi].
      apply Forall_app in Hi as [_ Hi]. destruct (count p n i') as [[i2 ys]|] eqn:E2; [|discriminate].
      intros H. injection H as -> <-. apply IH in E2 as (b2 & -> & bss & -> & Hl & H2); [|exact Hi].
      exists (b1 ++ concat bss). rewrite app_assoc. split; [reflexivity|]. exists (b1 :: bss). simpl. repeat split; [lia|].
      constructor; assumption.
    + intros (bs & -> & bss & -> & Hl & H). destruct xs as [|x xs]; [discriminate|]. inv H. simpl in *.
      rewrite <- app_assoc in *.
      match goal with |- context [p (?b ++ ?r)] => assert (E : p (b ++ r) = Some (r, x)) by (apply Hp; eauto); rewrite E end.
      apply Forall_app in Hi as [_ Hi].
      match goal with |- context [count p n ?i] => assert (E2 : count p n i = Some (rest, xs)) end.
      { apply IH; [exact Hi|]. eexists. split; [reflexivity|]. eexists. split; [reflexivity|]. split; [lia|assumption]. }
      rewrite E2. reflexivity.
Qed.

Lemma concat_single : forall (xs : bytes) bss, Forall2 (fun x bs => bs = [x]) xs bss <-> bss = map (fun x => [x]) xs.
Proof.
  intros xs bss. split.
  - intros H. induction H as [|x b xs bss Hb H IH]; simpl; [reflexivity|]. subst. reflexivity.
  - intros ->. induction xs as [|x xs IH]; simpl; constructor; auto.
Qed.

Lemma concat_map_single : forall (xs : bytes), concat (map (fun x => [x]) xs) = xs.
Proof. induction xs as [|x xs IH]; simpl; congruence. Qed.

Lemma decodes_bytes : forall n, decodes (count le_u8 n) (fun xs bs => bs = xs /\ length xs = n).
Proof.
  intros n. eapply decodes_iff; [|apply decodes_count, decodes_u8]. intros xs bs _. simpl. split.
  - intros (bss & -> & Hl & H). apply concat_single in H. subst. rewrite concat_map_single. auto.
  - intros (-> & Hl). exists (map (fun x => [x]) xs). rewrite concat_map_single, concat_single. auto.
Qed.

Lemma until_nul_spec : forall field name, until_nul field = name <-> cut_at_nul name field.
Proof.
  unfold cut_at_nul. induction field as [|c t IH]; intros name; simpl.
  - split.
    + intros <-. split; [intros []|auto].
    + intros [_ [<-|[junk H]]]; [reflexivity|]. destruct name; discriminate.
  - destruct (c =? 0) eqn:E.
    + apply N.eqb_eq in E. subst c. split.
      * intros <-. split; [intros []|]. right. exists t. reflexivity.
      * intros [Hn [<-|[junk H]]]; [exfalso; apply Hn; left; reflexivity|].
        destruct name as [|x name]; [reflexivity|]. simpl in H. injection H as <- _. exfalso. apply Hn. left. reflexivity.
    + apply N.eqb_neq in E. split.
      * intros <-. destruct (proj1 (IH (until_nul t)) eq_refl) as [H1 H2]. split.
        -- intros [H|H]; contradiction.
        -- destruct H2 as [H2|[junk H2]]; [left|right; exists junk]; simpl; congruence.
      * intros [Hn H]. destruct name as [|x name].
        -- destruct H as [H|[junk H]]; [discriminate|]. injection H as -> _. contradiction.
        -- assert (x = c) by (destruct H as [H|[junk H]]; simpl in H; injection H; auto). subst x. f_equal. apply IH.
           split; [intros Hi; apply Hn; right; exact Hi|].
           destruct H as [H|[junk H]]; simpl in H; injection H as H; [left|right; exists junk]; exact H.
Qed.

Ltac dest :=
  repeat match goal with
  | H : exists _, _ |- _ => destruct H
  | H : _ /\ _ |- _ => destruct H
  end.

Lemma decode_header : decodes header_parser header_bytes.
Proof.
  unfold header_parser. eapply decodes_iff.
  2:{ repeat (eapply decodes_bind; [first [apply decodes_bytes|apply decodes_u32]|intros ?]). apply decodes_ret. }
  intros x bs _. simpl. unfold header_bytes. split; intros H; dest; subst; simpl.
  - rewrite app_nil_r. auto.
  - destruct x as [mg n d]; simpl in *. exists mg, mg, (le 4 n ++ le 4 d). split; [reflexivity|]. split; [auto|].
    exists n, (le 4 n), (le 4 d). repeat split; auto. exists d, (le 4 d), []. rewrite app_nil_r. auto.
Qed.

Lemma decode_entry : decodes entry_parser entry_bytes.
Proof.
  unfold entry_parser. eapply decodes_iff.
  2:{ repeat (eapply decodes_bind; [first [apply decodes_bytes|apply decodes_u32|apply decodes_u16|apply decodes_u8]|intros ?]).
      apply decodes_ret. }
  intros x bs Hb. simpl. unfold entry_bytes. split; intros H; dest; subst; simpl.
  - repeat split; auto. do 2 eexists. repeat match goal with |- _ /\ _ => split end; try eassumption.
    + apply until_nul_spec. reflexivity.
    + rewrite app_nil_r. reflexivity.
  - destruct x as [o ds sz ty cm nm]; simpl in *.
    match goal with H : cut_at_nul _ _ |- _ => apply until_nul_spec in H end. subst.
    do 3 eexists. split; [reflexivity|]. split; [eauto|].
    do 3 eexists. split; [reflexivity|]. split; [eauto|].
    do 3 eexists. split; [reflexivity|]. split; [eauto|].
    do 3 eexists. split; [|split; [reflexivity|]]; [reflexivity|].
    do 3 eexists. split; [|split; [reflexivity|]]; [reflexivity|].
    do 3 eexists. split; [reflexivity|]. split; [split; [eassumption|reflexivity]|].
    do 3 eexists. split; [symmetry; apply app_nil_r|]. split; [split; [reflexivity|eassumption]|].
    split; reflexivity.
Qed.

Lemma decode_miptex : decodes mip_texture_parser miptex_bytes.
Proof.
  unfold mip_texture_parser. eapply decodes_iff.
  2:{ repeat (eapply decodes_bind; [first [apply decodes_bytes|apply decodes_u32]|intros ?]). apply decodes_ret. }
  intros x bs Hb. simpl. unfold miptex_bytes. setoid_rewrite <- small_map. split; intros H; dest; subst; simpl.
  - repeat split; auto. do 2 eexists. repeat match goal with |- _ /\ _ => split end; try eassumption.
    + apply until_nul_spec. reflexivity.
    + reflexivity.
    + rewrite app_nil_r. reflexivity.
  - destruct x as [nm w h o1 o2 o4 o8]; simpl in *.
    match goal with H : cut_at_nul _ _ |- _ => apply until_nul_spec in H end. subst.
    do 3 eexists. split; [reflexivity|]. split; [eauto|].
    do 3 eexists. split; [reflexivity|]. split; [eauto|].
    do 3 eexists. split; [reflexivity|]. split; [eauto|].
    do 3 eexists. split; [reflexivity|]. split; [eauto|].
    do 3 eexists. split; [reflexivity|]. split; [eauto|].
    do 3 eexists. split; [reflexivity|]. split; [eauto|].
    do 3 eexists. split; [symmetry; apply app_nil_r|]. split; [eauto|].
    split; reflexivity.
Qed.

Lemma decode_color : decodes color_parser (fun c bs => bs = [r_r c; r_g c; r_b c]).
Proof.
  unfold color_parser. eapply decodes_iff.
  2:{ repeat (eapply decodes_bind; [apply decodes_u8|intros ?]). apply decodes_ret. }
  intros x bs _. simpl. split; intros H; dest; subst; simpl; [reflexivity|].
  destruct x as [r g b]. simpl. exists r, [r], [g; b]. repeat split. exists g, [g], [b]. repeat split. exists b, [b], []. auto.
Qed.

Lemma decode_palette : decodes palette_parser palette_bytes.
Proof.
  unfold palette_parser. eapply decodes_iff; [|apply decodes_count, decode_color].
  intros p bs _. unfold palette_bytes. simpl. rewrite flat_map_concat_map. split.
  - intros (bss & -> & Hl & H). split; [exact Hl|]. f_equal.
    clear Hl. induction H as [|c b p bss Hb H IH]; simpl; [reflexivity|]; subst b; f_equal; exact IH.
  - intros (Hl & ->). eexists. split; [reflexivity|]. split; [exact Hl|].
    clear Hl. induction p as [|c p IH]; simpl; constructor; auto.
Qed.

(** ** Reading at an offset *)
Lemma skipn_app_exact : forall A (a b : list A), skipn (length a) (a ++ b) = b.
Proof. induction a; simpl; auto. Qed.
Lemma firstn_app_exact : forall A (a b : list A), firstn (length a) (a ++ b) = a.
Proof. induction a as [|x a IH]; intros b; simpl; [destruct b; reflexivity|]. rewrite IH. reflexivity. Qed.

Lemma read_at_spec : forall file off n b,
  read_at file off n = Some b <-> N.of_nat (length b) = n /\ stored file off b.
Proof.
  intros file off n b. unfold read_at, stored. destruct (N.eqb_spec n 0) as [->|Hn].
  - split.
    + intros H. injection H as <-. auto.
    + intros [H _]. destruct b; [reflexivity|]. simpl in H. lia.
  - destruct (N.leb_spec (off + n) (N.of_nat (length file))) as [Hle|Hlt].
    + split.
      * intros H. injection H as <-. split.
        -- rewrite firstn_length, skipn_length. lia.
        -- right. exists (firstn (N.to_nat off) file), (skipn (N.to_nat n) (skipn (N.to_nat off) file)).
           rewrite !firstn_skipn. split; [reflexivity|]. rewrite firstn_length. lia.
      * intros [Hl [->|(pre & post & -> & Hp)]]; [simpl in Hl; lia|].
        f_equal. replace (N.to_nat off) with (length pre) by lia. rewrite skipn_app_exact.
        replace (N.to_nat n) with (length b) by lia. apply firstn_app_exact.
    + split; [discriminate|]. intros [Hl [->|(pre & post & -> & Hp)]]; [simpl in Hl; lia|].
      rewrite !app_length in Hlt. lia.
Qed.

Lemma stored_byte : forall file off b, Forall byte file -> stored file off b -> Forall byte b.
Proof.
  intros file off b H [->|(pre & post & -> & _)]; [constructor|].
  apply Forall_app in H as [_ H]. apply Forall_app in H. tauto.
Qed.

Definition exact_size {A} (R : A -> bytes -> Prop) (n : nat) : Prop := forall x bs, R x bs -> length bs = n.

Lemma header_size : exact_size header_bytes 12.
Proof. intros h bs (H & _ & _ & ->). rewrite !app_length, !le_length, H. reflexivity. Qed.
Lemma entry_size : exact_size entry_bytes 32.
Proof. intros e bs (_ & _ & _ & pad & field & H1 & H2 & _ & ->). rewrite !app_length, !le_length, H1, H2. reflexivity. Qed.
Lemma miptex_size : exact_size miptex_bytes 40.
Proof. intros m bs (_ & _ & _ & _ & _ & _ & name & field & H1 & _ & _ & ->). rewrite !app_length, !le_length, H1. reflexivity. Qed.
Lemma palette_size : exact_size palette_bytes 768.
Proof.
  intros p bs (H & ->). assert (E : length (flat_map (fun c => [r_r c; r_g c; r_b c]) p) = (3 * length p)%nat).
  { clear H. induction p as [|c p IH]; simpl; [reflexivity|]. simpl in IH. rewrite IH. lia. }
  rewrite E, H. reflexivity.
Qed.

(** Reading a fixed-size record. *)
Lemma read_record : forall A (p : parser A) R n file off x, Forall byte file -> decodes p R -> exact_size R (N.to_nat n) ->
  (exists b rest, read_at file off n = Some b /\ p b = Some (rest, x)) <-> (exists bs, R x bs /\ stored file off bs).
Proof.
  intros A p R n file off x Hf Hd Hn. split.
  - intros (b & rest & Hr & Hp). apply read_at_spec in Hr as [Hl Hs].
    assert (Hb : Forall byte b) by (eapply stored_byte; eassumption).
    apply Hd in Hp as (bs & -> & HR); [|exact Hb]. pose proof (Hn _ _ HR) as Hlen.
    assert (rest = []) by (destruct rest; [reflexivity|]; rewrite app_length in Hl; simpl in Hl; lia).
    subst rest. rewrite app_nil_r in *. eauto.
  - intros (bs & HR & Hs). pose proof (Hn _ _ HR) as Hlen.
    assert (Hb : Forall byte bs) by (eapply stored_byte; eassumption).
    exists bs, []. split; [apply read_at_spec; split; [lia|exact Hs]|]. apply Hd; [exact Hb|]. exists bs.
    rewrite app_nil_r. auto.
Qed.

(** ** Collecting results *)
Lemma task_panic_none : forall A (l : list (res A)), task_panic l = None <-> forall w, ~ In (Panic w) l.
Proof.
  induction l as [|r l IH]; simpl; [split; auto|]. unfold task_panic in *. simpl.
  assert (Hs : (forall w, r <> Panic w) ->
    ((forall w, ~ In (Panic w) l) <-> (forall w, ~ (r = Panic w \/ In (Panic w) l)))).
  { intros Hr. split.
    - intros H w [E|Hi]; [exact (Hr w E)|exact (H w Hi)].
    - intros H w Hi. apply (H w). right. exact Hi. }
  destruct r as [a|e|w|].
  - rewrite IH. apply Hs. discriminate.
  - rewrite IH. apply Hs. discriminate.
  - split; [discriminate|]. intros H. exfalso. apply (H w). left. reflexivity.
  - rewrite IH. apply Hs. discriminate.
Qed.

Lemma task_panic_some : forall A (l : list (res A)) r, task_panic l = Some r -> exists w, r = Panic w /\ In (Panic w) l.
Proof.
  induction l as [|r0 l IH]; simpl; intros r H; [discriminate|]. unfold task_panic in *. simpl in H.
  destruct r0 as [a|e|w|].
  1,2,4: apply IH in H as (w & -> & Hi); eauto.
  injection H as <-. eauto.
Qed.

Lemma mapM_id_ok : forall A (l : list (res A)) xs, mapM (fun r => r) l = Ok xs <-> l = map Ok xs.
Proof.
  intros A l xs. rewrite mapM_ok. split.
  - intros H. induction H; simpl; congruence.
  - intros ->. induction xs; simpl; constructor; auto.
Qed.

Lemma collect_ok : forall A (l : list (res A)) xs, collect_results l = Ok xs <-> l = map Ok xs.
Proof.
  intros A l xs. unfold collect_results. destruct (task_panic l) as [r|] eqn:E.
  - apply task_panic_some in E as (w & -> & Hi). split; [discriminate|]. intros ->.
    apply in_map_iff in Hi as (x & H & _). discriminate.
  - apply mapM_id_ok.
Qed.

Lemma collect_map_ok : forall A B (f : A -> res B) l xs,
  collect_results (map f l) = Ok xs <-> Forall2 (fun x y => f x = Ok y) l xs.
Proof.
  intros A B f l xs. rewrite collect_ok. split.
  - revert xs. induction l as [|x l IH]; intros [|y xs] H; try discriminate; constructor; simpl in H; injection H; auto.
  - intros H. induction H; simpl; congruence.
Qed.

Lemma collect_no_panic : forall A (l : list (res A)),
  (forall r, In r l -> (exists x, r = Ok x) \/ (exists e, r = Err e)) ->
  (exists xs, collect_results l = Ok xs) \/ (exists e, collect_results l = Err e).
Proof.
  intros A l H. unfold collect_results. rewrite (proj2 (task_panic_none _ l)).
  2:{ intros w Hi. destruct (H _ Hi) as [[? E]|[? E]]; discriminate. }
  induction l as [|r l IH]; simpl; [eauto|].
  destruct (H r (or_introl eq_refl)) as [[x ->]|[e ->]]; simpl; [|eauto].
  destruct IH as [[xs ->]|[e ->]]; [intros; apply H; right; assumption| |]; simpl; eauto.
Qed.

Lemma collect_panic : forall A (l : list (res A)) w, In (Panic w) l -> exists w', collect_results l = Panic w' /\ In (Panic w') l.
Proof.
  intros A l w H. unfold collect_results. destruct (task_panic l) as [r|] eqn:E.
  - apply task_panic_some in E as (w' & -> & Hi). eauto.
  - exfalso. apply (proj1 (task_panic_none _ l) E w H).
Qed.

(** ** Addresses *)
Lemma u32_fit_spec : forall checks x a, u32_fit checks x = Ok a <-> address checks x a.
Proof.
  intros checks x a. unfold u32_fit, address, u32_modulus. change 4294967296 with (2 ^ 32).
  destruct (N.ltb_spec x (2 ^ 32)) as [H|H].
  - destruct checks.
    + split; [intros E; injection E as <-; auto|intros [_ ->]; reflexivity].
    + rewrite N.mod_small by exact H. split; congruence.
  - destruct checks.
    + split; [discriminate|]. intros [Hx _]. lia.
    + split; congruence.
Qed.

Lemma address_fun : forall checks x a b, address checks x a -> address checks x b -> a = b.
Proof. intros [|] x a b; simpl; [intros [_ ->] [_ ->]|intros -> ->]; reflexivity. Qed.

Lemma address_add : forall checks x y a, (exists a0, address checks x a0 /\ address checks (a0 + y) a) <-> address checks (x + y) a.
Proof.
  intros [|] x y a; unfold address.
  - split.
    + intros (a0 & [H1 ->] & H2). exact H2.
    + intros [H ->]. exists x. split; [split; [lia|reflexivity]|auto].
  - split.
    + intros (a0 & -> & ->). rewrite N.add_mod_idemp_l by discriminate. reflexivity.
    + intros ->. eexists. split; [reflexivity|]. rewrite N.add_mod_idemp_l by discriminate. reflexivity.
Qed.

Lemma address_idem : forall checks x a, address checks x a -> a < 2 ^ 32.
Proof. intros [|] x a; unfold address; [intros [H ->]; exact H|intros ->; apply N.mod_lt; discriminate]. Qed.

(** ** Directory *)
Lemma read_header_ok : forall file h, Forall byte file ->
  (read_header file = Ok h <-> exists hb, header_bytes h hb /\ stored file 0 hb).
Proof.
  intros file h Hf. rewrite <- (read_record _ _ _ 12 file 0 h Hf decode_header header_size). unfold read_header. split.
  - destruct (read_at file 0 12) as [b|]; [|discriminate]. destruct (header_parser b) as [[rest h']|] eqn:E; [|discriminate].
    intros H. injection H as ->. eauto.
  - intros (b & rest & -> & ->). reflexivity.
Qed.

Lemma wad_type_ok : forall m ty, wad_type_of m = Ok ty <-> m = magic_of ty.
Proof.
  intros m ty. unfold wad_type_of, magic_of.
  destruct (str_eqb m (lit "WAD2")) eqn:E2.
  - apply str_eqb_eq in E2. subst. destruct ty; split; try reflexivity; discriminate.
  - apply str_eqb_neq in E2. destruct (str_eqb m (lit "WAD3")) eqn:E3.
    + apply str_eqb_eq in E3. subst. destruct ty; split; try reflexivity; discriminate.
    + apply str_eqb_neq in E3. destruct ty; split; try discriminate; intros; contradiction.
Qed.

Lemma wanted_spec : forall wl e, wanted wl e = true <-> selected_entry wl e.
Proof.
  intros wl e. unfold wanted, selected_entry. rewrite andb_true_iff, orb_true_iff, !N.eqb_eq.
  destruct wl as [l|].
  - rewrite existsb_exists. split.
    + intros [Ht (x & Hx & E)]. apply str_eqb_eq in E. subst x. split; [exact Ht|]. intros l' H. injection H as <-. exact Hx.
    + intros [Ht H]. split; [exact Ht|]. exists (en_name e). split; [apply H; reflexivity|apply str_eqb_refl].
  - split; intros [Ht H]; split; auto. discriminate.
Qed.

Definition entry_at (checks : bool) (file : bytes) (d i : N) (e : entry) : Prop :=
  exists a bs, address checks (d + 32 * i) a /\ entry_bytes e bs /\ stored file a bs.

Lemma address_entry : forall checks d i a, (exists s, address checks (i * 32) s /\ address checks (d + s) a) <-> address checks (d + 32 * i) a.
Proof.
  intros checks d i a. replace (d + 32 * i) with (i * 32 + d) by lia. rewrite <- address_add.
  split; intros (s & H1 & H2); exists s; split; auto; [replace (s + d) with (d + s) by lia|replace (d + s) with (s + d) by lia]; exact H2.
Qed.

Lemma read_entry_ok : forall checks file d wl i o, Forall byte file ->
  (read_entry checks file d wl i = Ok o <-> exists e, entry_at checks file d i e /\ o = if wanted wl e then Some e else None).
Proof.
  intros checks file d wl i o Hf. unfold read_entry, entry_at, u32_mul, u32_add. rewrite bind_ok. split.
  - intros (s & Hs & H). apply bind_ok in H as (a & Ha & H). apply u32_fit_spec in Hs, Ha.
    destruct (read_at file a 32) as [b|] eqn:Eb; [|discriminate].
    destruct (entry_parser b) as [[rest e]|] eqn:Ee; [|discriminate]. injection H as <-.
    exists e. split; [|reflexivity].
    destruct (proj1 (read_record _ _ _ 32 file a e Hf decode_entry entry_size)) as (bs & HR & Hst); [eauto|].
    exists a, bs. split; [apply address_entry; eauto|auto].
  - intros (e & (a & bs & Ha & HR & Hst) & ->). apply address_entry in Ha as (s & Hs & Ha).
    exists s. split; [apply u32_fit_spec; exact Hs|]. rewrite (proj2 (u32_fit_spec _ _ _) Ha). simpl.
    destruct (proj2 (read_record _ _ _ 32 file a e Hf decode_entry entry_size)) as (b & rest & -> & ->); [eauto|]. reflexivity.
Qed.

Lemma range_length : forall n, length (range n) = N.to_nat n.
Proof. intros n. unfold range. rewrite map_length, seq_length. reflexivity. Qed.

Lemma range_nth : forall n i, (i < N.to_nat n)%nat -> nth_error (range n) i = Some (N.of_nat i).
Proof.
  intros n i H. unfold range. rewrite nth_error_map. 
  rewrite (nth_error_nth' _ 0%nat) by (rewrite seq_length; exact H). rewrite seq_nth by exact H. reflexivity.
Qed.

Lemma filter_map_wanted : forall wl es os,
  Forall2 (fun e o => o = if wanted wl e then Some e else None) es os ->
  filter_map (fun o : option entry => o) os = filter (wanted wl) es.
Proof.
  intros wl es os H. induction H as [|e o es os Ho H IH]; [reflexivity|]. subst. simpl.
  destruct (wanted wl e); simpl; congruence.
Qed.

Lemma read_directory_ok : forall checks file h wl sel, Forall byte file -> u32 (h_num_entries h) ->
  (read_directory checks file h wl = Ok sel <->
   exists es, N.of_nat (length es) = h_num_entries h /\
     (forall i e, nth_error es i = Some e -> entry_at checks file (h_dir_offset h) (N.of_nat i) e) /\
     sel = filter (wanted wl) es).
Proof.
  intros checks file h wl sel Hf _. unfold read_directory. rewrite bind_ok. split.
  - intros (os & Hos & H). injection H as <-. apply collect_map_ok in Hos.
    assert (Hes : exists es, Forall2 (fun i e => entry_at checks file (h_dir_offset h) i e) (range (h_num_entries h)) es /\
                    Forall2 (fun e o => o = if wanted wl e then Some e else None) es os).
    { induction Hos as [|i o is os Ho H IH].
      - exists []. split; constructor.
      - destruct IH as (es & H1 & H2). apply read_entry_ok in Ho as (e & He & ->); [|exact Hf].
        exists (e :: es). split; constructor; auto. }
    destruct Hes as (es & H1 & H2). exists es. apply Forall2_nth in H1 as [Hl Hn]. rewrite range_length in Hl.
    split; [lia|]. split.
    + intros i e He. apply Hn with i; [|exact He]. apply range_nth.
      rewrite Hl. apply nth_error_Some. congruence.
    + apply filter_map_wanted. exact H2.
  - intros (es & Hl & Hn & ->).
    exists (map (fun e => if wanted wl e then Some e else None) es). split.
    + apply collect_map_ok. apply Forall2_nth. rewrite range_length, map_length. split; [lia|].
      intros i x y Hx Hy. rewrite nth_error_map in Hy. destruct (nth_error es i) as [e|] eqn:E; [|discriminate].
      injection Hy as <-. assert (Hi : (i < length es)%nat) by (apply nth_error_Some; congruence).
      rewrite range_nth in Hx by lia. injection Hx as <-. apply read_entry_ok; [exact Hf|]. eauto.
    + f_equal. apply filter_map_wanted. clear. induction es; simpl; constructor; auto.
Qed.

Lemma read_mip_texture_ok : forall file e m, Forall byte file ->
  (read_mip_texture file e = Ok m <-> exists hb, miptex_bytes m hb /\ stored file (en_offset e) hb).
Proof.
  intros file e m Hf. rewrite <- (read_record _ _ _ 40 file _ m Hf decode_miptex miptex_size). unfold read_mip_texture. split.
  - destruct (read_at file (en_offset e) 40) as [b|]; [|discriminate].
    destruct (mip_texture_parser b) as [[rest m']|] eqn:E; [|discriminate]. intros H. injection H as ->. eauto.
  - intros (b & rest & -> & ->). reflexivity.
Qed.

(** ** Pixels and palette *)
Lemma slice_all : forall buf n, N.of_nat (length buf) = n -> slice buf 0 n = Ok buf.
Proof.
  intros buf n H. unfold slice. destruct (N.leb_spec 0 n); [|lia]. destruct (N.leb_spec n (N.of_nat (length buf))); [|lia].
  simpl. rewrite N.sub_0_r. replace (N.to_nat n) with (length buf) by lia. rewrite firstn_all. reflexivity.
Qed.

Lemma mip_level_all : forall buf n, N.of_nat (length buf) = n -> mip_level_parser n buf = Some ([], buf).
Proof.
  intros buf n H. unfold mip_level_parser. replace (N.to_nat n) with (length buf) by lia. clear H.
  induction buf as [|b buf IH]; [reflexivity|]. cbn [length count le_u8]. rewrite IH. reflexivity.
Qed.

Lemma quarters : forall n, n / 4 / 4 / 4 = n / 64.
Proof. intros n. rewrite !N.div_div by discriminate. reflexivity. Qed.

Definition palette_at (checks : bool) (file : bytes) (ty : wad_type) (e : entry) (m : mip_texture) (size : N) (po : option palette) : Prop :=
  match ty with
  | WAD2 => po = None
  | WAD3 => exists p pa pb, po = Some p /\ palette_bytes p pb /\
              address checks (en_offset e + mt_offset8 m + size / 64 + 2) pa /\ stored file pa pb
  end.

Definition read_pal (checks : bool) (file : bytes) (ty : wad_type) (e : entry) (m : mip_texture) (size3 : N) : res (option palette) :=
  match ty with
  | WAD2 => Ok None
  | WAD3 =>
    o <- u32_add checks (en_offset e) (mt_offset8 m) ;;
    o <- u32_add checks o (size3 mod u32_modulus) ;;
    o <- u32_add checks o 2 ;;
    match read_at file o 768 with
    | None => Err (lit "Error reading texture palette")
    | Some b =>
      match palette_parser b with
      | Some (_, p) => Ok (Some p)
      | None => Err (lit "Error parsing texture palette")
      end
    end
  end.

Lemma read_pal_ok : forall checks file ty e m size po, Forall byte file -> size < 2 ^ 32 ->
  (read_pal checks file ty e m (size / 4 / 4 / 4) = Ok po <-> palette_at checks file ty e m size po).
Proof.
  intros checks file ty e m size po Hf Hs. unfold read_pal, palette_at. destruct ty.
  - split; congruence.
  - rewrite quarters. unfold u32_modulus. rewrite (N.mod_small (size / 64)) by (change 4294967296 with (2 ^ 32); lia).
    unfold u32_add. rewrite bind_ok. split.
    + intros (o1 & H1 & H). apply bind_ok in H as (o2 & H2 & H). apply bind_ok in H as (o3 & H3 & H).
      apply u32_fit_spec in H1, H2, H3.
      destruct (read_at file o3 768) as [b|] eqn:Eb; [|discriminate].
      destruct (palette_parser b) as [[rest p]|] eqn:Ep; [|discriminate]. injection H as <-.
      destruct (proj1 (read_record _ _ _ 768 file o3 p Hf decode_palette palette_size)) as (bs & HR & Hst); [eauto|].
      exists p, o3, bs. split; [reflexivity|]. split; [exact HR|]. split; [|exact Hst].
      apply address_add. exists o2. split; [|exact H3]. apply address_add. eauto.
    + intros (p & pa & pb & -> & HR & Ha & Hst). apply address_add in Ha as (o2 & Ha & H3). apply address_add in Ha as (o1 & H1 & H2).
      exists o1. split; [apply u32_fit_spec; exact H1|].
      rewrite (proj2 (u32_fit_spec _ _ _) H2). simpl. rewrite (proj2 (u32_fit_spec _ _ _) H3). simpl.
      destruct (proj2 (read_record _ _ _ 768 file pa p Hf decode_palette palette_size)) as (b & rest & -> & ->); [eauto|]. reflexivity.
Qed.

(** The body of [read_mip] with the palette part named. *)
Lemma read_mip_eq : forall checks file ty levels e m,
  read_mip checks file ty levels (e, m) =
  (offset <- u32_add checks (en_offset e) (mt_offset1 m) ;;
   size0 <- u32_mul checks (mt_width m) (mt_height m) ;;
   match read_at file offset (fold_right N.add 0 (firstn (N.to_nat levels) [size0; size0 / 4; size0 / 4 / 4; size0 / 4 / 4 / 4])) with
   | None => Err (lit "Error reading mipdata")
   | Some buf =>
     b0 <- slice buf 0 size0 ;;
     match mip_level_parser size0 b0 with
     | None => Err (lit "Error parsing mip level")
     | Some (_, m0) =>
       m1 <- extra_level (1 <? levels) buf size0 (size0 / 4) (size0 / 4) ;;
       m2 <- extra_level (2 <? levels) buf (size0 + size0 / 4) (size0 / 4 / 4) (size0 / 4 / 4) ;;
       m3 <- extra_level (3 <? levels) buf (size0 + size0 / 4 + size0 / 4 / 4) (size0 / 4 / 4 / 4) (size0 / 4 / 4 / 4) ;;
       pal <- read_pal checks file ty e m (size0 / 4 / 4 / 4) ;;
       Ok (MipData m0 m1 m2 m3, pal)
     end
   end).
Proof. reflexivity. Qed.

Lemma fold_first : forall a b c d, fold_right N.add 0 (firstn (N.to_nat 1) [a; b; c; d]) = a.
Proof. intros. simpl. lia. Qed.

Definition pixels_at (checks : bool) (file : bytes) (e : entry) (m : mip_texture) (px : bytes) : Prop :=
  exists a size, address checks (en_offset e + mt_offset1 m) a /\ address checks (mt_width m * mt_height m) size /\
    N.of_nat (length px) = size /\ stored file a px.

Lemma read_mip_one : forall checks file ty e m d po, Forall byte file ->
  (read_mip checks file ty 1 (e, m) = Ok (d, po) <->
   exists a size, address checks (en_offset e + mt_offset1 m) a /\ address checks (mt_width m * mt_height m) size /\
     N.of_nat (length (mip0 d)) = size /\ stored file a (mip0 d) /\
     mip1 d = None /\ mip2 d = None /\ mip3 d = None /\ palette_at checks file ty e m size po).
Proof.
  intros checks file ty e m d po Hf. rewrite read_mip_eq. unfold u32_add at 1, u32_mul. rewrite bind_ok. split.
  - intros (a & Ha & H). apply bind_ok in H as (size & Hs & H). apply u32_fit_spec in Ha, Hs. rewrite fold_first in H.
    destruct (read_at file a size) as [buf|] eqn:Eb; [|discriminate]. apply read_at_spec in Eb as [Hl Hst].
    rewrite (slice_all _ _ Hl) in H. simpl in H. rewrite (mip_level_all _ _ Hl) in H. simpl in H.
    apply bind_ok in H as (pal & Hp & H). injection H as <- <-.
    apply read_pal_ok in Hp; [|exact Hf|eapply address_idem; exact Hs].
    exists a, size. simpl. auto 10.
  - intros (a & size & Ha & Hs & Hl & Hst & H1 & H2 & H3 & Hp). exists a. split; [apply u32_fit_spec; exact Ha|].
    rewrite (proj2 (u32_fit_spec _ _ _) Hs). cbn [bind]. rewrite fold_first.
    rewrite (proj2 (read_at_spec file a size (mip0 d)) (conj Hl Hst)).
    rewrite (slice_all _ _ Hl). cbn [bind]. rewrite (mip_level_all _ _ Hl). simpl.
    apply read_pal_ok in Hp; [|exact Hf|eapply address_idem; exact Hs]. rewrite Hp. simpl.
    destruct d; simpl in *; subst. reflexivity.
Qed.

(** ** The whole read *)
Lemma texture_at_unfold : forall checks file ty e m d po,
  texture_at checks file ty e (Texture m d po) <->
  (exists hb, miptex_bytes m hb /\ stored file (en_offset e) hb) /\
  (exists a size, address checks (en_offset e + mt_offset1 m) a /\ address checks (mt_width m * mt_height m) size /\
     N.of_nat (length (mip0 d)) = size /\ stored file a (mip0 d) /\
     mip1 d = None /\ mip2 d = None /\ mip3 d = None /\ palette_at checks file ty e m size po).
Proof.
  intros. unfold texture_at, palette_at. simpl. split.
  - intros (hb & a & size & H). split; [exists hb; tauto|]. exists a, size. tauto.
  - intros ((hb & H1) & a & size & H2). exists hb, a, size. tauto.
Qed.

Lemma read_stages : forall checks file wl levels ts, 1 <= levels <= 4 ->
  (read_textures checks (Some file) wl levels = Ok ts <->
   exists h ty dir mts data, read_header file = Ok h /\ wad_type_of (h_magic h) = Ok ty /\
     read_directory checks file h wl = Ok dir /\ read_mip_textures file dir = Ok mts /\
     collect_results (map (read_mip checks file ty levels) (combine dir mts)) = Ok data /\
     ts = map (fun x => Texture (fst x) (fst (snd x)) (snd (snd x))) (combine mts data)).
Proof.
  intros checks file wl levels ts Hl. unfold read_textures, read_mip_data.
  replace ((1 <=? levels) && (levels <=? 4))%bool with true by (symmetry; apply andb_true_iff; lia).
  split.
  - intros H. apply bind_ok in H as (h & Hh & H). apply bind_ok in H as (ty & Ht & H).
    apply bind_ok in H as (dir & Hd & H). apply bind_ok in H as (mts & Hm & H). apply bind_ok in H as (data & Hda & H).
    injection H as <-. exists h, ty, dir, mts, data. auto 10.
  - intros (h & ty & dir & mts & data & -> & Ht & Hd & Hm & Hda & ->). simpl. rewrite Ht. simpl. rewrite Hd. simpl.
    rewrite Hm. simpl. rewrite Hda. reflexivity.
Qed.

Lemma directory_stage : forall checks file ty wl sel, Forall byte file ->
  ((exists h, read_header file = Ok h /\ wad_type_of (h_magic h) = Ok ty /\ read_directory checks file h wl = Ok sel) <->
   exists es, directory checks file ty es /\ sel = filter (wanted wl) es).
Proof.
  intros checks file ty wl sel Hf. split.
  - intros (h & Hh & Ht & Hd). apply read_header_ok in Hh as (hb & Hb & Hst); [|exact Hf]. apply wad_type_ok in Ht.
    apply read_directory_ok in Hd as (es & Hl & Hn & ->); [|exact Hf|apply Hb].
    exists es. split; [|reflexivity]. exists hb, (h_dir_offset h). split; [|split; [exact Hst|exact Hn]].
    rewrite Hl, <- Ht. destruct h; exact Hb.
  - intros (es & (hb & d & Hb & Hst & Hn) & ->).
    exists (Header (magic_of ty) (N.of_nat (length es)) d). split; [apply read_header_ok; eauto|].
    split; [apply wad_type_ok; reflexivity|]. apply read_directory_ok; [exact Hf|apply Hb|]. exists es. auto.
Qed.

Lemma read_ok : forall checks file wl ts, Forall byte file ->
  (read_textures checks (Some file) wl 1 = Ok ts <->
   exists ty es sel, directory checks file ty es /\ selected (selected_entry wl) es sel /\
     Forall2 (texture_at checks file ty) sel ts).
Proof.
  intros checks file wl ts Hf. rewrite read_stages by lia. split.
  - intros (h & ty & dir & mts & data & Hh & Ht & Hd & Hm & Hda & ->).
    destruct (proj1 (directory_stage checks file ty wl dir Hf)) as (es & He & ->); [eauto|].
    exists ty, es, (filter (wanted wl) es). split; [exact He|]. split; [apply selected_filter, wanted_spec|].
    apply Forall2_map_r. apply collect_map_ok in Hm, Hda.
    pose proof (Forall2_combine _ _ _ _ _ _ _ _ Hm Hda) as H. eapply Forall2_impl; [|exact H].
    intros e (m & d & po) [H1 H2]. simpl in *. apply texture_at_unfold. split.
    + apply read_mip_texture_ok; assumption.
    + apply read_mip_one in H2; assumption.
  - intros (ty & es & sel & Hd & Hsel & Ht).
    assert (sel = filter (wanted wl) es) by (eapply selected_fun; [exact Hsel|apply selected_filter, wanted_spec]). subst sel.
    destruct (proj2 (directory_stage checks file ty wl (filter (wanted wl) es) Hf)) as (h & H1 & H2 & H3); [eauto|].
    set (pairs := map (fun t => (tx_info t, (tx_data t, tx_palette t))) ts).
    assert (Hp : Forall2 (fun e bc => read_mip_texture file e = Ok (fst bc) /\ read_mip checks file ty 1 (e, fst bc) = Ok (snd bc))
                   (filter (wanted wl) es) pairs).
    { unfold pairs. apply Forall2_map_r. eapply Forall2_impl; [|exact Ht]. intros e [m d po] H. simpl.
      apply texture_at_unfold in H as [Ha Hb]. split; [apply read_mip_texture_ok; assumption|apply read_mip_one; assumption]. }
    apply (Forall2_uncombine _ _ _ (fun e m => read_mip_texture file e = Ok m) (fun em d => read_mip checks file ty 1 em = Ok d)) in Hp as [P1 P2].
    exists h, ty, (filter (wanted wl) es), (map fst pairs), (map snd pairs).
    repeat match goal with |- _ /\ _ => split end; auto.
    + apply collect_map_ok. exact P1.
    + apply collect_map_ok. exact P2.
    + rewrite combine_fst_snd. unfold pairs. rewrite map_map. simpl. clear. induction ts as [|[? ? ?] ts IH]; simpl; congruence.
Qed.

(** ** Uniqueness of what is stored *)
Lemma record_unique : forall A (p : parser A) R n file off x y bs bs', Forall byte file -> decodes p R -> exact_size R (N.to_nat n) ->
  R x bs -> stored file off bs -> R y bs' -> stored file off bs' -> x = y.
Proof.
  intros A p R n file off x y bs bs' Hf Hd Hn H1 H2 H3 H4.
  destruct (proj2 (read_record A p R n file off x Hf Hd Hn)) as (b & r & E1 & E2); [eauto|].
  destruct (proj2 (read_record A p R n file off y Hf Hd Hn)) as (b' & r' & E3 & E4); [eauto|].
  congruence.
Qed.

Lemma header_unique : forall file ty n d ty' n' d', Forall byte file ->
  has_header file ty n d -> has_header file ty' n' d' -> ty = ty' /\ n = n' /\ d = d'.
Proof.
  intros file ty n d ty' n' d' Hf (hb & H1 & H2) (hb' & H3 & H4).
  pose proof (record_unique _ _ _ 12 _ _ _ _ _ _ Hf decode_header header_size H1 H2 H3 H4) as H.
  injection H as E -> ->. split; [|auto]. destruct ty, ty'; try reflexivity; discriminate.
Qed.

Lemma miptex_unique : forall file e m m', Forall byte file -> has_miptex file e m -> has_miptex file e m' -> m = m'.
Proof.
  intros file e m m' Hf (hb & H1 & H2) (hb' & H3 & H4).
  exact (record_unique _ _ _ 40 _ _ _ _ _ _ Hf decode_miptex miptex_size H1 H2 H3 H4).
Qed.

Lemma directory_header : forall checks file ty es, directory checks file ty es ->
  exists d, has_header file ty (N.of_nat (length es)) d /\
    forall i e, nth_error es i = Some e -> entry_at checks file d (N.of_nat i) e.
Proof. intros checks file ty es (hb & d & H1 & H2 & H3). exists d. split; [exists hb; auto|exact H3]. Qed.

Lemma nth_error_ext : forall A (l l' : list A), length l = length l' ->
  (forall i x y, nth_error l i = Some x -> nth_error l' i = Some y -> x = y) -> l = l'.
Proof.
  induction l as [|a l IH]; intros [|b l'] Hl Hn; try discriminate; [reflexivity|]. f_equal.
  - apply (Hn 0%nat); reflexivity.
  - apply IH; [simpl in Hl; congruence|]. intros i x y H1 H2. apply (Hn (S i)); assumption.
Qed.

Lemma directory_unique : forall checks file ty es ty' es', Forall byte file ->
  directory checks file ty es -> directory checks file ty' es' -> ty = ty' /\ es = es'.
Proof.
  intros checks file ty es ty' es' Hf H H'. apply directory_header in H as (d & H1 & H2). apply directory_header in H' as (d' & H3 & H4).
  destruct (header_unique _ _ _ _ _ _ _ Hf H1 H3) as (-> & Hl & ->). split; [reflexivity|].
  apply nth_error_ext; [lia|]. intros i x y Hx Hy.
  apply H2 in Hx as (a & bs & A1 & A2 & A3). apply H4 in Hy as (a' & bs' & A4 & A5 & A6).
  rewrite (address_fun _ _ _ _ A4 A1) in A6.
  exact (record_unique _ _ _ 32 _ _ _ _ _ _ Hf decode_entry entry_size A2 A3 A5 A6).
Qed.

Lemma stored_inside : forall file off b, stored file off b -> inside file off (N.of_nat (length b)).
Proof.
  intros file off b [->|(pre & post & -> & H)]; [left; reflexivity|]. right. rewrite !app_length. lia.
Qed.

Lemma selected_in : forall wl es sel, selected (selected_entry wl) es sel -> forall e, In e es -> selected_entry wl e -> In e sel.
Proof. intros wl es sel H e H1 H2. apply (selected_In _ _ _ _ e H). auto. Qed.

Lemma unreadable_not_ok : forall checks file wl ts, Forall byte file -> unreadable checks file wl ->
  read_textures checks (Some file) wl 1 <> Ok ts.
Proof.
  intros checks file wl ts Hf Hu Hok. apply read_ok in Hok as (ty & es & sel & Hd & Hsel & Ht); [|exact Hf].
  pose proof (directory_header _ _ _ _ Hd) as (d & Hh & He).
  destruct Hu as [Hs|(ty' & n & d' & Hh' & Hu)].
  - destruct Hh as (hb & H1 & H2). apply stored_inside in H2. rewrite (header_size _ _ H1) in H2. destruct H2; lia.
  - destruct (header_unique _ _ _ _ _ _ _ Hf Hh' Hh) as (-> & -> & ->).
    destruct Hu as [(i & a & Hi & Ha & Hout)|(es' & e & Hd' & Hin & Hs & Hu)].
    + destruct (nth_error es (N.to_nat i)) as [e|] eqn:E; [|apply nth_error_None in E; lia].
      apply He in E as (a' & bs & H1 & H2 & H3). rewrite N2Nat.id in H1. rewrite (address_fun _ _ _ _ H1 Ha) in H3.
      apply stored_inside in H3. rewrite (entry_size _ _ H2) in H3. contradiction.
    + destruct (directory_unique _ _ _ _ _ _ Hf Hd' Hd) as [_ ->].
      destruct (Forall2_in_l _ _ _ _ _ e Ht) as (t & _ & Hta); [eapply selected_in; eassumption|].
      destruct t as [m dt po]. apply texture_at_unfold in Hta as [Hm (a & size & Ha & Hsz & Hl & Hst & _ & _ & _ & Hp)].
      destruct Hu as [Hout|(m' & size' & Hm' & Hsz' & Hb)].
      * destruct Hm as (hb & H1 & H2). apply stored_inside in H2. rewrite (miptex_size _ _ H1) in H2. contradiction.
      * rewrite (miptex_unique _ _ _ _ Hf Hm' Hm) in *. rewrite (address_fun _ _ _ _ Hsz' Hsz) in *.
        destruct Hb as [(a' & Ha' & Hout)|(-> & a' & Ha' & Hout)].
        -- rewrite (address_fun _ _ _ _ Ha' Ha) in Hout. apply Hout. rewrite <- Hl. apply stored_inside. exact Hst.
        -- destruct Hp as (p & pa & pb & _ & H1 & H2 & H3). rewrite (address_fun _ _ _ _ Ha' H2) in Hout.
           apply Hout. apply stored_inside in H3. rewrite (palette_size _ _ H1) in H3. exact H3.
Qed.

(** ** Panics *)
Definition tame {A} (checks : bool) (r : res A) : Prop :=
  (exists x, r = Ok x) \/ (exists e, r = Err e) \/ (checks = true /\ r = Panic overflow).

Lemma tame_bind : forall A B checks (r : res A) (f : A -> res B), tame checks r -> (forall x, r = Ok x -> tame checks (f x)) -> tame checks (bind r f).
Proof.
  intros A B checks r f [[x ->]|[[e ->]|[Hc ->]]] H; simpl.
  - apply H. reflexivity.
  - right. left. eauto.
  - right. right. auto.
Qed.

Lemma tame_u32 : forall checks x, tame checks (u32_fit checks x).
Proof. intros checks x. unfold u32_fit. destruct (x <? u32_modulus); [left; eauto|]. destruct checks; [right; right; auto|left; eauto]. Qed.

Lemma tame_collect : forall A checks (l : list (res A)), (forall r, In r l -> tame checks r) -> tame checks (collect_results l).
Proof.
  intros A checks l H. destruct (task_panic l) as [r|] eqn:E.
  - unfold collect_results. rewrite E. apply task_panic_some in E as (w & -> & Hi). destruct (H _ Hi) as [[x Hx]|[[e Hx]|[Hc Hx]]]; try discriminate.
    right. right. split; [exact Hc|]. congruence.
  - assert (Hn : (exists xs, collect_results l = Ok xs) \/ (exists e, collect_results l = Err e)).
    { apply collect_no_panic. intros r Hr. destruct (H r Hr) as [Hx|[Hx|[_ Hx]]]; auto. subst.
      exfalso. exact (proj1 (task_panic_none _ l) E _ Hr). }
    destruct Hn; [left|right; left]; assumption.
Qed.

Lemma tame_ok : forall A checks (x : A), tame checks (Ok x). Proof. intros. left. eauto. Qed.
Lemma tame_err : forall A checks e, @tame A checks (Err e). Proof. intros. right. left. eauto. Qed.
Global Hint Resolve tame_ok tame_err tame_u32 : tame.

Lemma tame_entry : forall checks file d wl i, tame checks (read_entry checks file d wl i).
Proof.
  intros. unfold read_entry, u32_mul, u32_add. apply tame_bind; [auto with tame|]. intros s _. apply tame_bind; [auto with tame|].
  intros a _. destruct (read_at file a 32) as [b|]; [|auto with tame]. destruct (entry_parser b) as [[? ?]|]; auto with tame.
Qed.

Lemma tame_directory : forall checks file h wl, tame checks (read_directory checks file h wl).
Proof.
  intros. unfold read_directory. apply tame_bind; [|auto with tame]. apply tame_collect. intros r H.
  apply in_map_iff in H as (i & <- & _). apply tame_entry.
Qed.

Lemma tame_mip_textures : forall checks file dir, tame checks (read_mip_textures file dir).
Proof.
  intros. unfold read_mip_textures. apply tame_collect. intros r H. apply in_map_iff in H as (e & <- & _).
  unfold read_mip_texture. destruct (read_at _ _ _) as [b|]; [|auto with tame]. destruct (mip_texture_parser b) as [[? ?]|]; auto with tame.
Qed.

Lemma tame_pal : forall checks file ty e m s, tame checks (read_pal checks file ty e m s).
Proof.
  intros. unfold read_pal, u32_add. destruct ty; [auto with tame|].
  repeat (apply tame_bind; [auto with tame|intros ? _]).
  destruct (read_at _ _ _) as [b|]; [|auto with tame]. destruct (palette_parser b) as [[? ?]|]; auto with tame.
Qed.

Lemma tame_mip : forall checks file ty em, tame checks (read_mip checks file ty 1 em).
Proof.
  intros checks file ty [e m]. rewrite read_mip_eq. unfold u32_add, u32_mul.
  apply tame_bind; [auto with tame|]. intros a _. apply tame_bind; [auto with tame|]. intros size _. rewrite fold_first.
  destruct (read_at file a size) as [b|] eqn:E; [|auto with tame]. apply read_at_spec in E as [Hl _].
  rewrite (slice_all _ _ Hl). cbn [bind]. rewrite (mip_level_all _ _ Hl). cbn [bind extra_level].
  change (1 <? 1) with false. change (2 <? 1) with false. change (3 <? 1) with false. cbn [bind extra_level].
  apply tame_bind; [apply tame_pal|]. auto with tame.
Qed.

Lemma tame_read : forall checks file wl, Forall byte file ->
  (forall h, read_header file = Ok h -> exists ty, h_magic h = magic_of ty) ->
  tame checks (read_textures checks (Some file) wl 1).
Proof.
  intros checks file wl Hf Hm. unfold read_textures, read_mip_data. change ((1 <=? 1) && (1 <=? 4))%bool with true. cbv iota.
  apply tame_bind.
  { unfold read_header. destruct (read_at _ _ _) as [b|]; [|auto with tame]. destruct (header_parser b) as [[? ?]|]; auto with tame. }
  intros h Hh. destruct (Hm h Hh) as [ty Ety]. apply wad_type_ok in Ety. rewrite Ety. cbn [bind].
  apply tame_bind; [apply tame_directory|]. intros dir _. apply tame_bind; [apply tame_mip_textures|]. intros mts _.
  apply tame_bind; [|auto with tame]. apply tame_collect. intros r H. apply in_map_iff in H as (em & <- & _). apply tame_mip.
Qed.

Lemma header_magic : forall file ty n d, Forall byte file -> has_header file ty n d ->
  read_header file = Ok (Header (magic_of ty) n d).
Proof. intros file ty n d Hf H. apply read_header_ok; [exact Hf|exact H]. Qed.

Lemma unreadable_err : forall checks file wl, Forall byte file -> unreadable checks file wl ->
  (exists e, read_textures checks (Some file) wl 1 = Err e) \/
  (checks = true /\ read_textures checks (Some file) wl 1 = Panic overflow).
Proof.
  intros checks file wl Hf Hu.
  assert (Ht : tame checks (read_textures checks (Some file) wl 1)).
  { apply tame_read; [exact Hf|]. intros h Hh. destruct Hu as [Hs|(ty & n & d & Hh' & _)].
    - unfold read_header in Hh. destruct (read_at file 0 12) as [b|] eqn:E; [|discriminate].
      apply read_at_spec in E as [Hl Hst]. apply stored_inside in Hst. destruct Hst; lia.
    - rewrite (header_magic _ _ _ _ Hf Hh') in Hh. injection Hh as <-. exists ty. reflexivity. }
  destruct Ht as [[ts Hx]|Ht]; [|exact Ht]. exfalso. eapply unreadable_not_ok; eassumption.
Qed.

Lemma bad_magic_panics : forall checks file wl h, Forall byte file -> read_header file = Ok h ->
  (forall ty, h_magic h <> magic_of ty) -> exists w, read_textures checks (Some file) wl 1 = Panic w.
Proof.
  intros checks file wl h Hf Hh Hm. unfold read_textures. simpl. rewrite Hh. simpl.
  destruct (wad_type_of (h_magic h)) as [ty| | |] eqn:E; simpl; eauto.
  - apply wad_type_ok in E. exfalso. eapply Hm. exact E.
  - unfold wad_type_of in E. repeat destruct (str_eqb _ _); discriminate.
  - unfold wad_type_of in E. repeat destruct (str_eqb _ _); discriminate.
Qed.

(** ** Overflow *)
Lemma u32_overflow : forall x, 2 ^ 32 <= x -> u32_fit true x = Panic overflow.
Proof. intros x H. unfold u32_fit, u32_modulus. destruct (N.ltb_spec x 4294967296); [lia|reflexivity]. Qed.

Lemma combine_in : forall A B (la : list A) (lb : list B) a b i, nth_error la i = Some a -> nth_error lb i = Some b -> In (a, b) (combine la lb).
Proof.
  induction la as [|x la IH]; intros [|y lb] a b [|i] H1 H2; simpl in *; try discriminate.
  - left. congruence.
  - right. eapply IH; eassumption.
Qed.

Lemma headers_stage : forall file sel, Forall byte file -> (forall e, In e sel -> exists m, has_miptex file e m) ->
  exists mts, read_mip_textures file sel = Ok mts /\ Forall2 (has_miptex file) sel mts.
Proof.
  intros file sel Hf H. assert (Hm : exists mts, Forall2 (has_miptex file) sel mts).
  { induction sel as [|e sel IH]; [exists []; constructor|]. destruct (H e (or_introl eq_refl)) as [m Hm].
    destruct IH as [mts Hms]; [intros; apply H; right; assumption|]. exists (m :: mts). constructor; assumption. }
  destruct Hm as [mts Hm]. exists mts. split; [|exact Hm]. apply collect_map_ok. eapply Forall2_impl; [|exact Hm].
  intros e m. apply read_mip_texture_ok. exact Hf.
Qed.

(** Common prefix of the stages when the directory and the headers are readable. *)
Lemma stages_to_data : forall checks file wl levels ty es, Forall byte file -> 1 <= levels <= 4 -> directory checks file ty es ->
  (forall e, In e es -> selected_entry wl e -> exists m, has_miptex file e m) ->
  exists mts, Forall2 (has_miptex file) (filter (wanted wl) es) mts /\
    read_textures checks (Some file) wl levels =
      (data <- collect_results (map (read_mip checks file ty levels) (combine (filter (wanted wl) es) mts)) ;;
       Ok (map (fun x => Texture (fst x) (fst (snd x)) (snd (snd x))) (combine mts data))).
Proof.
  intros checks file wl levels ty es Hf Hl Hd Hm.
  destruct (proj2 (directory_stage checks file ty wl (filter (wanted wl) es) Hf)) as (h & H1 & H2 & H3); [eauto|].
  destruct (headers_stage file (filter (wanted wl) es) Hf) as (mts & H4 & H5).
  { intros e He. apply filter_In in He as [Hi Hw]. apply wanted_spec in Hw. eauto. }
  exists mts. split; [exact H5|]. unfold read_textures, read_mip_data.
  replace ((1 <=? levels) && (levels <=? 4))%bool with true by (symmetry; apply andb_true_iff; lia).
  rewrite H1. cbn [bind]. rewrite H2. cbn [bind]. rewrite H3. cbn [bind]. rewrite H4. cbn [bind]. reflexivity.
Qed.

Lemma overflow_panics : forall file wl, Forall byte file -> overflows file wl ->
  read_textures true (Some file) wl 1 = Panic overflow.
Proof.
  intros file wl Hf (ty & n & d & Hh & Ho).
  assert (Ht : tame true (read_textures true (Some file) wl 1)).
  { apply tame_read; [exact Hf|]. intros h E. rewrite (header_magic _ _ _ _ Hf Hh) in E. injection E as <-. exists ty. reflexivity. }
  assert (Hp : exists w, read_textures true (Some file) wl 1 = Panic w).
  { destruct Ho as [(i & Hi & Hov)|(es & e & m & Hd & Hm & Hin & Hs & Hem & Hov)].
    - unfold read_textures. simpl. rewrite (header_magic _ _ _ _ Hf Hh). cbn [bind h_magic].
      rewrite (proj2 (wad_type_ok _ ty) eq_refl). cbn [bind]. unfold read_directory. cbn [h_dir_offset h_num_entries].
      destruct (collect_panic _ (map (read_entry true file d wl) (range n)) overflow) as (w & E & _); [|rewrite E; cbn [bind]; eauto].
      apply in_map_iff. exists i. split.
      + unfold read_entry, u32_mul, u32_add. destruct (N.ltb_spec (i * 32) (2 ^ 32)) as [Hlt|Hge].
        * rewrite (proj2 (u32_fit_spec true (i * 32) (i * 32))) by (split; [exact Hlt|reflexivity]). cbn [bind].
          rewrite u32_overflow by lia. reflexivity.
        * rewrite u32_overflow by exact Hge. reflexivity.
      + unfold range. apply in_map_iff. exists (N.to_nat i). split; [lia|]. apply in_seq. lia.
    - destruct (stages_to_data true file wl 1 ty es Hf ltac:(lia) Hd Hm) as (mts & Hmt & ->).
      assert (Hw : In e (filter (wanted wl) es)) by (apply filter_In; split; [exact Hin|apply wanted_spec; exact Hs]).
      destruct (Forall2_combine_in _ _ _ _ _ _ Hmt Hw) as (m' & Hm' & Hc).
      rewrite (miptex_unique _ _ _ _ Hf Hm' Hem) in *.
      match goal with |- context [collect_results ?l] => destruct (collect_panic _ l overflow) as (w & E & _) end;
        [|rewrite E; cbn [bind]; eauto].
      apply in_map_iff. exists (e, m). split; [|exact Hc]. rewrite read_mip_eq. unfold u32_add at 1, u32_mul.
      destruct (N.ltb_spec (en_offset e + mt_offset1 m) (2 ^ 32)) as [H1|H1]; [|rewrite u32_overflow by exact H1; reflexivity].
      rewrite (proj2 (u32_fit_spec true _ _) (conj H1 eq_refl)). cbn [bind].
      destruct (N.ltb_spec (mt_width m * mt_height m) (2 ^ 32)) as [H2|H2]; [|rewrite u32_overflow by exact H2; reflexivity].
      rewrite (proj2 (u32_fit_spec true _ _) (conj H2 eq_refl)). cbn [bind]. rewrite fold_first.
      destruct Hov as [Hov|[Hov|(-> & Hins & Hov)]]; [lia|lia|].
      destruct (read_at file (en_offset e + mt_offset1 m) (mt_width m * mt_height m)) as [b|] eqn:E.
      2:{ exfalso. unfold read_at in E. unfold inside in Hins. destruct (N.eqb_spec (mt_width m * mt_height m) 0); [discriminate|].
          destruct (N.leb_spec (en_offset e + mt_offset1 m + mt_width m * mt_height m) (N.of_nat (length file))); [discriminate|]. lia. }
      apply read_at_spec in E as [Hl _]. rewrite (slice_all _ _ Hl). cbn [bind]. rewrite (mip_level_all _ _ Hl).
      change (1 <? 1) with false. change (2 <? 1) with false. change (3 <? 1) with false. cbn [bind extra_level].
      unfold read_pal. rewrite quarters. unfold u32_modulus, u32_add.
      rewrite (N.mod_small (mt_width m * mt_height m / 64)) by (change 4294967296 with (2 ^ 32); lia).
      destruct (N.ltb_spec (en_offset e + mt_offset8 m) (2 ^ 32)) as [H3|H3]; [|rewrite u32_overflow by exact H3; reflexivity].
      rewrite (proj2 (u32_fit_spec true _ _) (conj H3 eq_refl)). cbn [bind].
      destruct (N.ltb_spec (en_offset e + mt_offset8 m + mt_width m * mt_height m / 64) (2 ^ 32)) as [H4|H4];
        [|rewrite u32_overflow by exact H4; reflexivity].
      rewrite (proj2 (u32_fit_spec true _ _) (conj H4 eq_refl)). cbn [bind]. rewrite u32_overflow by exact Hov. reflexivity. }
  destruct Hp as [w Hp]. rewrite Hp in *. destruct Ht as [[x Hx]|[[x Hx]|[_ Hx]]]; try discriminate. exact Hx.
Qed.

(** ** More than one mip level *)
Lemma levels_sum : forall size levels, 1 <= levels <= 4 ->
  fold_right N.add 0 (firstn (N.to_nat levels) [size; size / 4; size / 4 / 4; size / 4 / 4 / 4]) = levels_size size levels.
Proof.
  intros size levels H. assert (Hc : levels = 1 \/ levels = 2 \/ levels = 3 \/ levels = 4) by lia.
  rewrite quarters. replace (size / 4 / 4) with (size / 16) by (rewrite N.div_div by discriminate; reflexivity).
  destruct Hc as [->|[->|[->| ->]]]; cbv [levels_size N.to_nat Pos.to_nat Pos.iter_op firstn fold_right N.ltb N.compare Pos.compare Pos.compare_cont Nat.add]; lia.
Qed.

Lemma levels_panic : forall checks file ty levels e m a size, 2 <= levels <= 4 ->
  address checks (en_offset e + mt_offset1 m) a -> address checks (mt_width m * mt_height m) size ->
  0 < size -> inside file a (levels_size size levels) ->
  exists w, read_mip checks file ty levels (e, m) = Panic w.
Proof.
  intros checks file ty levels e m a size Hl Ha Hs Hpos Hin. rewrite read_mip_eq. unfold u32_add at 1, u32_mul.
  rewrite (proj2 (u32_fit_spec _ _ _) Ha). cbn [bind]. rewrite (proj2 (u32_fit_spec _ _ _) Hs). cbn [bind].
  rewrite levels_sum by lia.
  assert (Hge : size <= levels_size size levels) by (unfold levels_size; lia).
  destruct (read_at file a (levels_size size levels)) as [b|] eqn:E.
  2:{ exfalso. unfold read_at in E. unfold inside in Hin. destruct (N.eqb_spec (levels_size size levels) 0); [discriminate|].
      destruct (N.leb_spec (a + levels_size size levels) (N.of_nat (length file))); [discriminate|]. lia. }
  apply read_at_spec in E as [Hlen _].
  unfold slice at 1. destruct (N.leb_spec 0 size); [|lia]. destruct (N.leb_spec size (N.of_nat (length b))); [|lia].
  cbn [andb bind]. rewrite N.sub_0_r, mip_level_all by (rewrite firstn_length, skipn_length; lia).
  replace (1 <? levels) with true by (symmetry; apply N.ltb_lt; lia). unfold extra_level at 1, slice.
  destruct (N.leb_spec size (size / 4)); [lia|]. cbn [andb bind]. eauto.
Qed.

Lemma levels_ok : forall checks file ty levels e m d po, 2 <= levels <= 4 ->
  read_mip checks file ty levels (e, m) = Ok (d, po) -> address checks (mt_width m * mt_height m) 0 /\
    mip0 d = [] /\ mip1 d = Some [].
Proof.
  intros checks file ty levels e m d po Hl H.
  pose proof H as H0. rewrite read_mip_eq in H. unfold u32_add at 1, u32_mul in H.
  apply bind_ok in H as (a & Ha & H). apply bind_ok in H as (size & Hs & H). apply u32_fit_spec in Ha, Hs.
  rewrite levels_sum in H by lia.
  destruct (N.eq_dec size 0) as [->|Hne].
  - split; [exact Hs|]. replace (levels_size 0 levels) with 0 in H by (unfold levels_size; destruct (1 <? levels), (2 <? levels), (3 <? levels); reflexivity).
    simpl in H. replace (1 <? levels) with true in H by (symmetry; apply N.ltb_lt; lia). simpl in H.
    apply bind_ok in H as (m2 & _ & H). apply bind_ok in H as (m3 & _ & H). apply bind_ok in H as (pal & _ & H).
    injection H as <- <-. auto.
  - exfalso. destruct (read_at file a (levels_size size levels)) as [b|] eqn:E; [|discriminate].
    assert (Hin : inside file a (levels_size size levels)).
    { apply read_at_spec in E as [Hlen Hst]. rewrite <- Hlen. apply stored_inside. exact Hst. }
    destruct (levels_panic checks file ty levels e m a size Hl Ha Hs ltac:(lia) Hin) as [w Hw]. congruence.
Qed.

Lemma levels_read_ok : forall checks file wl levels ts, 2 <= levels <= 4 ->
  read_textures checks (Some file) wl levels = Ok ts ->
  forall t, In t ts -> address checks (mt_width (tx_info t) * mt_height (tx_info t)) 0 /\ mip0 (tx_data t) = [].
Proof.
  intros checks file wl levels ts Hl H t Ht. apply read_stages in H as (h & ty & dir & mts & data & _ & _ & _ & _ & Hda & ->); [|lia].
  apply collect_map_ok in Hda. apply in_map_iff in Ht as ((m & d & po) & <- & Hin). simpl.
  assert (He : exists e, read_mip checks file ty levels (e, m) = Ok (d, po)).
  { revert mts data Hda Hin. induction dir as [|e dir IH]; intros [|m' mts] data Hda Hin; simpl in *; try (inv Hda; simpl in Hin; contradiction); try contradiction.
    inv Hda. simpl in Hin. destruct Hin as [Hin|Hin]; [injection Hin as -> ->; eauto|eauto]. }
  destruct He as [e He]. apply levels_ok in He; [|exact Hl]. tauto.
Qed.

Lemma levels_read_panic : forall checks file wl levels ty es, Forall byte file -> 2 <= levels <= 4 -> directory checks file ty es ->
  (forall e, In e es -> selected_entry wl e -> exists m, has_miptex file e m) ->
  forall e m a size, In e es -> selected_entry wl e -> has_miptex file e m ->
    address checks (en_offset e + mt_offset1 m) a -> address checks (mt_width m * mt_height m) size ->
    0 < size -> inside file a (levels_size size levels) ->
  exists w, read_textures checks (Some file) wl levels = Panic w.
Proof.
  intros checks file wl levels ty es Hf Hl Hd Hm e m a size Hin Hs Hem Ha Hsz Hpos Hins.
  destruct (stages_to_data checks file wl levels ty es Hf ltac:(lia) Hd Hm) as (mts & Hmt & ->).
  assert (Hw : In e (filter (wanted wl) es)) by (apply filter_In; split; [exact Hin|apply wanted_spec; exact Hs]).
  destruct (Forall2_combine_in _ _ _ _ _ _ Hmt Hw) as (m' & Hm' & Hc).
  rewrite (miptex_unique _ _ _ _ Hf Hm' Hem) in *.
  destruct (levels_panic checks file ty levels e m a size Hl Ha Hsz Hpos Hins) as [w Ew].
  match goal with |- context [collect_results ?l] => destruct (collect_panic _ l w) as (w' & E & _) end;
    [|rewrite E; cbn [bind]; eauto].
  apply in_map_iff. exists (e, m). auto.
Qed.

(** ** Schedules *)
Section Schedule.
  Context {A B : Type} (f : A -> res B) (tasks : list A).

  Lemma run_schedule_ok : forall sched slots,
    NoDup sched -> (forall i, In i sched -> (i < length tasks)%nat) -> length slots = length tasks ->
    (forall i t, In i sched -> nth_error tasks i = Some t -> forall w, f t <> Panic w) ->
    exists slots', run_schedule f tasks sched slots = Ok slots' /\ length slots' = length tasks /\
      forall i, nth_error slots' i =
        if in_dec Nat.eq_dec i sched then option_map (fun t => Some (f t)) (nth_error tasks i) else nth_error slots i.
  Proof.
    induction sched as [|k sched IH]; intros slots Hnd Hlt Hl Hnp.
    - exists slots. split; [reflexivity|]. split; [exact Hl|]. intros i. reflexivity.
    - cbn [run_schedule]. assert (Hk : (k < length tasks)%nat) by (apply Hlt; left; reflexivity).
      destruct (nth_error tasks k) as [t|] eqn:Et; [|apply nth_error_None in Et; lia]. cbn [unwrap bind].
      destruct (set_nth_lt _ k (Some (f t)) slots ltac:(lia)) as [slots1 E1].
      pose proof (set_nth_some _ _ _ _ _ E1) as (_ & Hl1 & Hn1 & Ho1).
      inv Hnd. destruct (IH slots1) as (slots' & E & Hl' & Hn'); auto; [intros; apply Hlt; right; assumption|lia|intros; eapply Hnp; [right|]; eassumption|].
      exists slots'. split; [|split; [exact Hl'|]].
      + specialize (Hnp k t (or_introl eq_refl) Et). destruct (f t); try (rewrite E1; exact E). exfalso. eapply Hnp. reflexivity.
      + intros i. rewrite Hn'. destruct (in_dec Nat.eq_dec i sched) as [Hi|Hi]; destruct (in_dec Nat.eq_dec i (k :: sched)) as [Hj|Hj]; simpl in Hj; try tauto.
        * destruct Hj as [->|Hj]; [|contradiction]. rewrite Hn1, Et. reflexivity.
        * apply Ho1. intros ->. apply Hj. left. reflexivity.
  Qed.

  Lemma run_schedule_panic : forall sched slots,
    (forall i, In i sched -> (i < length tasks)%nat) -> length slots = length tasks ->
    (exists i t w, In i sched /\ nth_error tasks i = Some t /\ f t = Panic w) ->
    exists w, run_schedule f tasks sched slots = Panic w /\ In (Panic w) (map f tasks).
  Proof.
    induction sched as [|k sched IH]; intros slots Hlt Hl (i & t & w & Hi & Ht & Hw); [destruct Hi|].
    cbn [run_schedule]. assert (Hk : (k < length tasks)%nat) by (apply Hlt; left; reflexivity).
    destruct (nth_error tasks k) as [u|] eqn:Et; [|apply nth_error_None in Et; lia]. cbn [unwrap bind].
    destruct (set_nth_lt _ k (Some (f u)) slots ltac:(lia)) as [slots1 E1].
    pose proof (set_nth_some _ _ _ _ _ E1) as (_ & Hl1 & _ & _).
    destruct (f u) as [y|e|w'|] eqn:Ef.
    1,2,4: rewrite <- Ef in E1; rewrite Ef in E1; rewrite E1; cbn [unwrap bind]; apply IH;
           [intros; apply Hlt; right; assumption|lia|]; exists i, t, w; split; [|auto];
           destruct Hi as [->|Hi]; [|exact Hi]; rewrite Et in Ht; injection Ht as ->; congruence.
    exists w'. split; [reflexivity|]. rewrite <- Ef. apply in_map. eapply nth_error_In. exact Et.
  Qed.

  Lemma schedule_ok : forall sched, Permutation sched (seq 0 (length tasks)) ->
    (forall w, ~ In (Panic w) (map f tasks)) ->
    par_collect f tasks sched = mapM (fun r => r) (map f tasks).
  Proof.
    intros sched Hp Hn. unfold par_collect.
    assert (Hin : forall i, In i sched <-> (i < length tasks)%nat).
    { intros i. split; intros H.
      - apply (Permutation_in _ Hp) in H. apply in_seq in H. lia.
      - apply (Permutation_in _ (Permutation_sym Hp)). apply in_seq. lia. }
    destruct (run_schedule_ok sched (repeat None (length tasks))) as (slots & -> & Hl & Hs).
    - apply (Permutation_NoDup (Permutation_sym Hp)), seq_NoDup.
    - intros i. apply Hin.
    - apply repeat_length.
    - intros i t _ Ht w E. apply (Hn w). rewrite <- E. apply in_map. eapply nth_error_In. exact Ht.
    - cbn [bind]. assert (E : slots = map Some (map f tasks)).
      { apply nth_error_ext; [rewrite !map_length; exact Hl|]. intros i x y Hx Hy. rewrite Hs in Hx.
        rewrite !nth_error_map in Hy.
        destruct (in_dec Nat.eq_dec i sched) as [Hi|Hi].
        - destruct (nth_error tasks i); simpl in *; congruence.
        - exfalso. apply Hi, Hin. apply nth_error_Some. destruct (nth_error tasks i); [discriminate|discriminate Hy]. }
      rewrite E, mapM_unwrap. reflexivity.
  Qed.

  Lemma schedule_panic : forall sched w, Permutation sched (seq 0 (length tasks)) -> In (Panic w) (map f tasks) ->
    exists w', par_collect f tasks sched = Panic w' /\ In (Panic w') (map f tasks).
  Proof.
    intros sched w Hp Hw. unfold par_collect.
    destruct (run_schedule_panic sched (repeat None (length tasks))) as (w' & -> & Hi).
    - intros i H. apply (Permutation_in _ Hp) in H. apply in_seq in H. lia.
    - apply repeat_length.
    - apply in_map_iff in Hw as (t & E & Ht). apply In_nth_error in Ht as [i Hi]. exists i, t, w. split; [|auto].
      apply (Permutation_in _ (Permutation_sym Hp)), in_seq. assert (i < length tasks)%nat by (apply nth_error_Some; congruence). lia.
    - simpl. eauto.
  Qed.

  (** Every schedule gives the list of results in index order, or the first error in index order, or
      the panic of one of the tasks. *)
  Lemma schedule_result : forall sched, Permutation sched (seq 0 (length tasks)) ->
    (forall xs, all_ok (map f tasks) xs -> par_collect f tasks sched = Ok xs) /\
    (forall e, first_error (map f tasks) e -> (forall w, ~ In (Panic w) (map f tasks)) -> par_collect f tasks sched = Err e) /\
    (forall w, In (Panic w) (map f tasks) -> exists w', par_collect f tasks sched = Panic w' /\ In (Panic w') (map f tasks)).
  Proof.
    intros sched Hp. split; [|split].
    - intros xs H. unfold all_ok in H. rewrite schedule_ok; [apply mapM_id_ok; exact H|exact Hp|].
      rewrite H. intros w Hi. apply in_map_iff in Hi as (x & E & _). discriminate.
    - intros e (xs & post & H) Hn. rewrite schedule_ok by assumption. rewrite H. apply mapM_err.
      exists (map Ok xs), (Err e), post. split; [reflexivity|]. split; [|reflexivity].
      intros y Hy. apply in_map_iff in Hy as (x & <- & _). eauto.
    - intros w. apply schedule_panic. exact Hp.
  Qed.
End Schedule.

Lemma schedule_read : forall checks file wl levels sched, (forall n, Permutation (sched n) (seq 0 n)) ->
  read_textures_par checks file wl levels sched = read_textures checks file wl levels \/
  exists w w', read_textures_par checks file wl levels sched = Panic w /\ read_textures checks file wl levels = Panic w'.
Proof.
  intros checks file wl levels sched Hs. unfold read_textures_par, read_textures, read_mip_data.
  destruct ((1 <=? levels) && (levels <=? 4))%bool; [|auto].
  destruct file as [file|]; [|auto]. destruct (read_header file) as [h| | |]; cbn [bind]; auto.
  destruct (wad_type_of (h_magic h)) as [ty| | |]; cbn [bind]; auto.
  destruct (read_directory checks file h wl) as [dir| | |]; cbn [bind]; auto.
  destruct (read_mip_textures file dir) as [mts| | |]; cbn [bind]; auto.
  set (f := read_mip checks file ty levels). set (tasks := combine dir mts).
  destruct (task_panic (map f tasks)) as [r|] eqn:E.
  - right. apply task_panic_some in E as (w & -> & Hi).
    destruct (schedule_panic f tasks _ w (Hs _) Hi) as (w1 & -> & _). destruct (collect_panic _ _ w Hi) as (w2 & -> & _).
    simpl. eauto.
  - left. rewrite (schedule_ok f tasks _ (Hs _)) by (apply task_panic_none; exact E).
    unfold collect_results. rewrite E. reflexivity.
Qed.

(** ** RGB conversion *)
Lemma to_colors_ok : forall pal px, length pal = 256%nat -> Forall byte px ->
  exists cs, to_colors pal px = Ok cs /\ Forall2 (fun i c => nth_error pal (N.to_nat i) = Some c) px cs.
Proof.
  intros pal px Hp H. unfold to_colors. induction H as [|b px Hb H IH]; simpl; [exists []; split; [reflexivity|constructor]|].
  destruct (nth_error pal (N.to_nat b)) as [c|] eqn:E; [|apply nth_error_None in E; unfold byte in Hb; lia].
  destruct IH as (cs & -> & Hcs). simpl. eexists. split; [reflexivity|]. constructor; assumption.
Qed.

Lemma to_colors_opt_ok : forall pal px, length pal = 256%nat -> opt_bytes px ->
  exists o, to_colors_opt pal px = Ok o /\ colored_opt pal px o.
Proof.
  intros pal [px|] Hp H; simpl; [|exists None; split; [reflexivity|exact I]].
  destruct (to_colors_ok pal px Hp H) as (cs & -> & Hc). exists (Some cs). split; [reflexivity|exact Hc].
Qed.

Lemma rgb_with : forall t supplied pal, valid_texture t -> length pal = 256%nat ->
  (tx_palette t = Some pal \/ (tx_palette t = None /\ supplied = Some pal)) ->
  exists r, into_rgb t supplied = Ok r /\ tr_info r = tx_info t /\
    colored pal (mip0 (tx_data t)) (rgb0 (tr_data r)) /\ colored_opt pal (mip1 (tx_data t)) (rgb1 (tr_data r)) /\
    colored_opt pal (mip2 (tx_data t)) (rgb2 (tr_data r)) /\ colored_opt pal (mip3 (tx_data t)) (rgb3 (tr_data r)).
Proof.
  intros t supplied pal (H0 & H1 & H2 & H3 & _) Hp Hpal. unfold into_rgb.
  replace (match tx_palette t with Some own => Ok own | None => _ end) with (@Ok palette pal)
    by (destruct Hpal as [->|[-> ->]]; reflexivity).
  cbn [bind]. unfold from_indexed.
  destruct (to_colors_ok pal _ Hp H0) as (c0 & -> & C0). cbn [bind].
  destruct (to_colors_opt_ok pal _ Hp H1) as (c1 & -> & C1). cbn [bind].
  destruct (to_colors_opt_ok pal _ Hp H2) as (c2 & -> & C2). cbn [bind].
  destruct (to_colors_opt_ok pal _ Hp H3) as (c3 & -> & C3). cbn [bind].
  eexists. split; [reflexivity|]. simpl. auto.
Qed.

Lemma rgb_without : forall t, tx_palette t = None -> exists e, into_rgb t None = Err e.
Proof. intros t H. unfold into_rgb. rewrite H. simpl. eauto. Qed.

Lemma read_valid : forall checks file wl ts, Forall byte file -> read_textures checks (Some file) wl 1 = Ok ts ->
  Forall valid_texture ts.
Proof.
  intros checks file wl ts Hf H. apply read_ok in H as (ty & es & sel & _ & _ & Ht); [|exact Hf].
  apply Forall_forall. intros t Hin. destruct (Forall2_in_r _ _ _ _ _ _ Ht Hin) as (e & _ & He).
  destruct t as [m d po]. apply texture_at_unfold in He as (_ & a & size & _ & _ & _ & Hst & H1 & H2 & H3 & Hp).
  unfold valid_texture. simpl. rewrite H1, H2, H3. simpl. split; [eapply stored_byte; eassumption|]. repeat split; auto.
  intros p E. destruct ty; simpl in Hp; [congruence|]. destruct Hp as (p' & _ & _ & E' & [Hl _] & _). congruence.
Qed.

(** ** Palettes and names *)
Lemma read_palettes : forall checks file wl ts, Forall byte file -> read_textures checks (Some file) wl 1 = Ok ts ->
  exists ty n d es sel, has_header file ty n d /\ directory checks file ty es /\ selected (selected_entry wl) es sel /\
    (ty = WAD2 -> Forall (fun t => tx_palette t = None) ts) /\
    (ty = WAD3 -> Forall2 (fun e t => exists m size pal a pb, tx_info t = m /\ has_miptex file e m /\
        address checks (mt_width m * mt_height m) size /\ tx_palette t = Some pal /\ palette_bytes pal pb /\
        address checks (en_offset e + mt_offset8 m + size / 64 + 2) a /\ stored file a pb) sel ts).
Proof.
  intros checks file wl ts Hf H. apply read_ok in H as (ty & es & sel & Hd & Hs & Ht); [|exact Hf].
  destruct (directory_header _ _ _ _ Hd) as (d & Hh & _).
  exists ty, (N.of_nat (length es)), d, es, sel. split; [exact Hh|]. split; [exact Hd|]. split; [exact Hs|]. split; intros ->.
  - apply Forall_forall. intros t Hin. destruct (Forall2_in_r _ _ _ _ _ _ Ht Hin) as (e & _ & He).
    destruct t as [m dt po]. apply texture_at_unfold in He as (_ & a & size & _ & _ & _ & _ & _ & _ & _ & Hp). exact Hp.
  - eapply Forall2_impl; [|exact Ht]. intros e [m dt po] He. apply texture_at_unfold in He as (Hm & a & size & _ & Hsz & _ & _ & _ & _ & _ & Hp).
    destruct Hp as (p & pa & pb & -> & Hpb & Hpa & Hst). exists m, size, p, pa, pb. simpl. auto 10.
Qed.

Lemma whitelist_exact : forall checks file wl ts, Forall byte file -> read_textures checks (Some file) (Some wl) 1 = Ok ts ->
  exists ty es, directory checks file ty es /\
    forall name e, In name wl -> In e es -> (en_type e = 67 \/ en_type e = 68) -> en_name e = name ->
      exists t, In t ts /\ texture_at checks file ty e t.
Proof.
  intros checks file wl ts Hf H. apply read_ok in H as (ty & es & sel & Hd & Hs & Ht); [|exact Hf].
  exists ty, es. split; [exact Hd|]. intros name e Hn He Hty <-.
  apply (Forall2_in_l _ _ _ _ _ e Ht). eapply selected_in; [exact Hs|exact He|]. split; [exact Hty|].
  intros l E. injection E as <-. exact Hn.
Qed.

Lemma whitelist_lower : forall checks file wl ts, Forall byte file -> read_textures checks (Some file) (Some wl) 1 = Ok ts ->
  exists ty es, directory checks file ty es /\
    ((forall e, In e es -> map small (en_name e) = en_name e) ->
     forall name e, In name wl -> In e es -> (en_type e = 67 \/ en_type e = 68) -> map small (en_name e) = name ->
       exists t, In t ts /\ texture_at checks file ty e t).
Proof.
  intros checks file wl ts Hf H. destruct (whitelist_exact _ _ _ _ Hf H) as (ty & es & Hd & Hw).
  exists ty, es. split; [exact Hd|]. intros Hl name e Hn He Hty Hname. eapply Hw; eauto. rewrite <- Hname. symmetry. auto.
Qed.

(** ** Sizes *)
Lemma skipn_skipn : forall A n m (l : list A), skipn m (skipn n l) = skipn (n + m) l.
Proof. induction n as [|n IH]; intros m l; [reflexivity|]. destruct l as [|x l]; [destruct m; reflexivity|]. apply IH. Qed.


Lemma consumes_bind : forall A B (p : parser A) (f : A -> parser B) n m, consumes p n -> (forall x, consumes (f x) m) -> consumes (pbind p f) (n + m).
Proof.
  intros A B p f n m Hp Hf i. unfold pbind. split; intros H.
  - destruct (proj1 (Hp i) ltac:(lia)) as [x ->]. destruct (proj1 (Hf x (skipn n i))) as [y ->]; [rewrite skipn_length; lia|].
    exists y. rewrite skipn_skipn. reflexivity.
  - destruct (le_lt_dec n (length i)) as [Hn|Hn].
    + destruct (proj1 (Hp i) Hn) as [x ->]. apply Hf. rewrite skipn_length. lia.
    + rewrite (proj2 (Hp i) Hn). reflexivity.
Qed.
Lemma consumes_ret : forall A (x : A), consumes (pret x) 0.
Proof. intros A x i. split; intros H; [exists x; reflexivity|lia]. Qed.
Lemma consumes_u8 : consumes le_u8 1.
Proof. intros [|a i]; split; simpl; intros H; try lia; eauto. Qed.
Lemma consumes_u16 : consumes le_u16 2.
Proof. intros [|a [|b i]]; split; simpl; intros H; try lia; eauto. Qed.
Lemma consumes_u32 : consumes le_u32 4.
Proof. intros [|a [|b [|c [|d i]]]]; split; cbn [length]; intros H; try lia; try reflexivity. eexists. reflexivity. Qed.
Lemma consumes_count : forall A (p : parser A) k n, consumes p k -> consumes (count p n) (n * k).
Proof.
  intros A p k n Hp. induction n as [|n IH]; [apply consumes_ret|].
  intros i. cbn [count]. change (S n * k)%nat with (k + n * k)%nat. split; intros H.
  - destruct (proj1 (Hp i) ltac:(lia)) as [x ->]. destruct (proj1 (IH (skipn k i))) as [y ->]; [rewrite skipn_length; lia|].
    exists (x :: y). rewrite skipn_skipn. reflexivity.
  - destruct (le_lt_dec k (length i)) as [Hn|Hn].
    + destruct (proj1 (Hp i) Hn) as [x ->]. rewrite (proj2 (IH (skipn k i))); [reflexivity|]. rewrite skipn_length. lia.
    + rewrite (proj2 (Hp i) Hn). reflexivity.
Qed.

Ltac consume := repeat first [apply consumes_ret | apply consumes_u32 | apply consumes_u16 | apply consumes_u8
  | apply consumes_count | apply consumes_bind | intros ?].
Lemma header_consumes : consumes header_parser (4 * 1 + (4 + (4 + 0))). Proof. unfold header_parser, anychar. consume. Qed.
Lemma entry_consumes : consumes entry_parser (4 + (4 + (4 + (1 + (1 + (2 + (16 * 1 + 0))))))). Proof. unfold entry_parser, anychar. consume. Qed.
Lemma miptex_consumes : consumes mip_texture_parser (16 * 1 + (4 + (4 + (4 + (4 + (4 + (4 + 0))))))).
Proof. unfold mip_texture_parser, anychar. consume. Qed.
Lemma palette_consumes : consumes palette_parser (256 * (1 + (1 + (1 + 0)))).
Proof. unfold palette_parser, color_parser. consume. Qed.

(** Inversion of the encodings: decoding gives back exactly the record, and consumes exactly it. *)
Lemma decode_iff : forall A (p : parser A) R, decodes p R -> forall i rest x, Forall byte i ->
  (p i = Some (rest, x) <-> exists bs, i = bs ++ rest /\ R x bs).
Proof. intros A p R H. exact H. Qed.

Lemma read_palette_ok : forall file p, Forall byte file ->
  (read_palette (Some file) = Ok p <-> exists bs rest, file = bs ++ rest /\ palette_bytes p bs).
Proof.
  intros file p Hf. unfold read_palette. split.
  - destruct (palette_parser file) as [[rest p']|] eqn:E; [|discriminate]. intros H. injection H as ->.
    apply decode_palette in E as (bs & -> & HR); [|exact Hf]. eauto.
  - intros (bs & rest & -> & HR). assert (E : palette_parser (bs ++ rest) = Some (rest, p)) by (apply decode_palette; eauto).
    rewrite E. reflexivity.
Qed.

Lemma read_palette_err : forall file, (forall b, file = Some b -> (length b < 768)%nat) -> exists e, read_palette file = Err e.
Proof.
  intros [b|] H; unfold read_palette; [|eauto]. rewrite (proj2 (palette_consumes b)); [eauto|]. simpl. apply (H b eq_refl).
Qed.
