(** Text forms: the model's readers against [TextSpec]. *)
From Coq Require Import SpecFloat.
From Verif Require Import Prelude F32 Text TextSpec BaseProofs FloatProofs DecimalProofs.

(** ** Letters *)
Lemma small_iff : forall c, lower_latin1 c = small c.
Proof.
  intros c. unfold small. destruct (find _ letters) as [l|] eqn:E.
  - apply find_some in E as (I & E). apply N.eqb_eq in E. subst c. unfold letters in I. simpl in I.
    repeat (destruct I as [<-|I]; [reflexivity|]). destruct I.
  - pose proof (find_none _ _ E) as H. unfold lower_latin1.
    destruct ((65 <=? c) && (c <=? 90))%N eqn:A; [exfalso|destruct ((192 <=? c) && (c <=? 222) && negb (c =? 215))%N eqn:B; [exfalso|reflexivity]].
    all: assert (I : In c (map fst letters)) by (unfold letters; simpl; lia).
    all: apply in_map_iff in I as (l & <- & I); apply H in I; now rewrite N.eqb_refl in I.
Qed.
Lemma small_map : forall s, map lower_latin1 s = map small s.
Proof. intros s. apply map_ext. exact small_iff. Qed.

(** ** White space *)
Lemma white_iff : forall c, is_whitespace c = white c.
Proof.
  intros c. destruct (white c) eqn:E.
  - apply existsb_exists in E. destruct E as (x & I & E). apply N.eqb_eq in E. subst x. unfold white_space in I. simpl in I.
    repeat (destruct I as [<-|I]; [reflexivity|]). destruct I.
  - destruct (is_whitespace c) eqn:W; [|reflexivity]. exfalso. rewrite <- not_true_iff_false in E. apply E. apply existsb_exists.
    exists c. split; [|apply N.eqb_refl]. unfold is_whitespace in W. unfold white_space. simpl. lia.
Qed.

(** ** Integers *)
Lemma place_dvalue : forall ds, (forall c, In c ds -> (48 <= c <= 57)%N) -> Z.of_N (dvalue 0 ds) = place_value ds.
Proof.
  assert (G : forall ds acc, (forall c, In c ds -> (48 <= c <= 57)%N) ->
    Z.of_N (dvalue acc ds) = (Z.of_N acc * 10 ^ Z.of_nat (length ds) + place_value ds)%Z).
  { induction ds as [|c ds IH]; intros acc H; [simpl; lia|].
    change (dvalue acc (c :: ds)) with (dvalue (10 * acc + (c - 48)) ds).
    rewrite IH by (intros; apply H; simpl; auto). cbn [place_value length].
    pose proof (H c (or_introl eq_refl)). rewrite Nat2Z.inj_succ, Z.pow_succ_r by lia.
    rewrite N2Z.inj_add, N2Z.inj_mul, N2Z.inj_sub by lia. ring. }
  intros ds H. rewrite G by exact H. lia.
Qed.

Lemma digits_iff : forall ds, digits ds <-> all_digits ds.
Proof.
  intros ds. unfold digits, all_digits, is_digit. split; intros H c Hc; specialize (H c Hc).
  - apply andb_prop in H. destruct H as [A B]. apply N.leb_le in A. apply N.leb_le in B. lia.
  - apply andb_true_intro. split; apply N.leb_le; lia.
Qed.

(** Reading all digits. *)
Lemma read_digits_inv : forall s acc n v k, read_digits s acc n = (v, k, []) ->
  digits s /\ v = dvalue acc s /\ k = n + length s.
Proof.
  induction s as [|c s IH]; intros acc n v k H; simpl in H.
  - inv H. split; [intros c []|]. split; [reflexivity|simpl; lia].
  - destruct (is_digit c) eqn:D; [|discriminate]. apply IH in H. destruct H as (A & B & C).
    split; [intros x [<-|Hx]; auto|]. split; [exact B|simpl; lia].
Qed.

Lemma read_all : forall ds acc n, digits ds -> read_digits ds acc n = (dvalue acc ds, n + length ds, []).
Proof. intros ds acc n H. rewrite <- (app_nil_r ds) at 1. rewrite read_digits_app by exact H. reflexivity. Qed.

Definition signed (s : str) : bool * str :=
  match s with 45%N :: t => (true, t) | 43%N :: t => (false, t) | _ => (false, s) end.
Lemma parse_i32_signed : forall s, parse_i32 s =
  let '(neg, r) := signed s in
  let '(v, n, rest) := read_digits r 0 0 in
  match n, rest with
  | S _, [] =>
    let z := if neg then (- Z.of_N v)%Z else Z.of_N v in
    if ((i32_min <=? z) && (z <=? i32_max))%Z then Some z else None
  | _, _ => None
  end.
Proof. reflexivity. Qed.

Lemma signed_cases : forall s, (exists t, s = 45%N :: t /\ signed s = (true, t))
  \/ (exists t, s = 43%N :: t /\ signed s = (false, t))
  \/ ((forall t, s <> 45%N :: t /\ s <> 43%N :: t) /\ signed s = (false, s)).
Proof.
  intros [|c t]; [right; right; split; [split; discriminate|reflexivity]|].
  destruct (N.eq_dec c 45) as [->|A]; [left; eauto|]. destruct (N.eq_dec c 43) as [->|B]; [right; left; eauto|].
  right; right. split; [split; congruence|]. unfold signed.
  destruct c as [|q]; [reflexivity|]. do 6 (destruct q as [q|q|]; try reflexivity); congruence.
Qed.

Theorem parse_i32_iff : forall s z, parse_i32 s = Some z <-> integer_text s z.
Proof.
  intros s z. rewrite parse_i32_signed.
  assert (Step : forall (neg : bool) r, (let '(v, n, rest) := read_digits r 0 0 in
      match n, rest with
      | S _, [] => let z := if neg then (- Z.of_N v)%Z else Z.of_N v in
                   if ((i32_min <=? z) && (z <=? i32_max))%Z then Some z else None
      | _, _ => None
      end) = Some z <->
    (r <> [] /\ (forall c, In c r -> (48 <= c <= 57)%N) /\ z = (if neg then - place_value r else place_value r)%Z /\ i32_range z)).
  { intros neg r. split.
    - destruct (read_digits r 0 0) as [[v n] rest] eqn:R. destruct n as [|n]; [discriminate|]. destruct rest; [|discriminate].
      apply read_digits_inv in R. destruct R as (D & -> & L). pose proof (proj1 (digits_iff _) D) as D1. clear D. rename D1 into D. rewrite place_dvalue by exact D.
      cbv zeta. intros H. destruct (_ && _)%bool eqn:B in H; [|discriminate]. injection H as <-.
      apply andb_prop in B. destruct B as [B1 B2]. apply Z.leb_le in B1. apply Z.leb_le in B2.
      split; [intros ->; discriminate|]. split; [exact D|]. split; [reflexivity|]. split; assumption.
    - intros (N & D & Ez & B). rewrite read_all by (exact (proj2 (digits_iff _) D)). destruct r as [|c r]; [congruence|].
      cbn [length plus]. rewrite place_dvalue by exact D. cbv zeta. rewrite <- Ez.
      destruct B as [B1 B2]. change (-2147483648)%Z with i32_min in B1. change 2147483647%Z with i32_max in B2.
      apply Z.leb_le in B1. apply Z.leb_le in B2. now rewrite B1, B2. }
  destruct (signed_cases s) as [(t & -> & ->)|[(t & -> & ->)|(Ns & ->)]]; (eapply iff_trans; [first [exact (Step true _) | exact (Step false _)]|]); clear Step.
  - split.
    + intros (N & D & Ez & B). exists (lit "-"), t. split; [reflexivity|]. split; [exact N|]. split; [exact D|]. split; [auto|exact B].
    + intros (sg & ds & E & N & D & Sg & B).
      destruct Sg as [[-> Ez]|[[-> | ->] Ez]]; simpl in E.
      * injection E as ->. auto.
      * subst ds. exfalso. specialize (D 45%N (or_introl eq_refl)). lia.
      * discriminate.
  - split.
    + intros (N & D & Ez & B). exists (lit "+"), t. split; [reflexivity|]. split; [exact N|]. split; [exact D|]. split; [auto|exact B].
    + intros (sg & ds & E & N & D & Sg & B).
      destruct Sg as [[-> Ez]|[[-> | ->] Ez]]; simpl in E.
      * discriminate.
      * subst ds. exfalso. specialize (D 43%N (or_introl eq_refl)). lia.
      * injection E as ->. auto.
  - split.
    + intros (N & D & Ez & B). exists [], s. split; [reflexivity|]. split; [exact N|]. split; [exact D|]. split; [auto|exact B].
    + intros (sg & ds & E & N & D & Sg & B).
      destruct Sg as [[-> Ez]|[[-> | ->] Ez]]; simpl in E.
      * exfalso. now apply (proj1 (Ns ds)).
      * subst ds. auto.
      * exfalso. now apply (proj2 (Ns ds)).
Qed.

