(** The decoder accepts exactly the encodings of texts. *)
From Coq Require Import ZifyBool ZifyNat ZifyN.
From Verif Require Import Prelude F32 Text Utf8Spec.
Local Open Scope N_scope.
Ltac Zify.zify_post_hook ::= Z.div_mod_to_equations.

Lemma decode_encode : forall c t, scalar c -> utf8_decode (encode c ++ t) = option_map (cons c) (utf8_decode t).
Proof.
  intros c t [H1 H2]. unfold encode.
  destruct (c <? 0x80) eqn:E1; [cbn [app utf8_decode]; rewrite E1; reflexivity|].
  destruct (c <? 0x800) eqn:E2.
  { cbn [app utf8_decode].
    replace (192 + c / 64 <? 128) with false by lia.
    replace ((192 <=? 192 + c / 64) && (192 + c / 64 <? 224)) with true by lia.
    cbv zeta. unfold is_cont.
    replace ((192 + c / 64 - 192) * 64 + (128 + c mod 64 - 128)) with c by lia.
    replace ((128 <=? 128 + c mod 64) && (128 + c mod 64 <? 192) && (128 <=? c)) with true by lia. reflexivity. }
  destruct (c <? 0x10000) eqn:E3.
  { cbn [app utf8_decode].
    replace (224 + c / 4096 <? 128) with false by lia.
    replace ((192 <=? 224 + c / 4096) && (224 + c / 4096 <? 224)) with false by lia.
    replace ((224 <=? 224 + c / 4096) && (224 + c / 4096 <? 240)) with true by lia.
    cbv zeta. unfold is_cont, is_scalar.
    replace ((224 + c / 4096 - 224) * 4096 + (128 + c / 64 mod 64 - 128) * 64 + (128 + c mod 64 - 128)) with c by lia.
    replace ((128 <=? 128 + c / 64 mod 64) && (128 + c / 64 mod 64 <? 192) && ((128 <=? 128 + c mod 64) && (128 + c mod 64 <? 192))
      && (2048 <=? c) && ((c <? 55296) || (57344 <=? c) && (c <? 1114112))) with true by lia. reflexivity. }
  cbn [app utf8_decode].
  replace (240 + c / 262144 <? 128) with false by lia.
  replace ((192 <=? 240 + c / 262144) && (240 + c / 262144 <? 224)) with false by lia.
  replace ((224 <=? 240 + c / 262144) && (240 + c / 262144 <? 240)) with false by lia.
  replace ((240 <=? 240 + c / 262144) && (240 + c / 262144 <? 248)) with true by lia.
  cbv zeta. unfold is_cont, is_scalar.
  replace ((240 + c / 262144 - 240) * 262144 + (128 + c / 4096 mod 64 - 128) * 4096 + (128 + c / 64 mod 64 - 128) * 64
    + (128 + c mod 64 - 128)) with c by lia.
  replace ((128 <=? 128 + c / 4096 mod 64) && (128 + c / 4096 mod 64 <? 192)
    && ((128 <=? 128 + c / 64 mod 64) && (128 + c / 64 mod 64 <? 192)) && ((128 <=? 128 + c mod 64) && (128 + c mod 64 <? 192))
    && (65536 <=? c) && ((c <? 55296) || (57344 <=? c) && (c <? 1114112))) with true by lia. reflexivity.
Qed.

Lemma encode_two : forall a b, 192 <= a < 224 -> 128 <= b < 192 -> 128 <= (a - 192) * 64 + (b - 128) ->
  scalar ((a - 192) * 64 + (b - 128)) /\ encode ((a - 192) * 64 + (b - 128)) = [a; b].
Proof.
  intros a b Ha Hb Hc. set (c := (a - 192) * 64 + (b - 128)) in *. split; [unfold scalar; lia|]. unfold encode.
  replace (c <? 0x80) with false by lia. replace (c <? 0x800) with true by lia. repeat f_equal; lia.
Qed.
Lemma encode_three : forall a b d, 224 <= a < 240 -> 128 <= b < 192 -> 128 <= d < 192 ->
  let c := (a - 224) * 4096 + (b - 128) * 64 + (d - 128) in 2048 <= c -> is_scalar c = true ->
  scalar c /\ encode c = [a; b; d].
Proof.
  intros a b d Ha Hb Hd c Hc Hs. unfold is_scalar in Hs. split; [unfold scalar; lia|]. unfold encode.
  replace (c <? 0x80) with false by lia. replace (c <? 0x800) with false by lia. replace (c <? 0x10000) with true by (subst c; lia).
  assert (c / 4096 = a - 224) by (subst c; lia). assert (c / 64 = (a - 224) * 64 + (b - 128)) by (subst c; lia).
  assert (c mod 64 = d - 128) by (subst c; lia). repeat f_equal; lia.
Qed.
Lemma encode_four : forall a b d e, 240 <= a < 248 -> 128 <= b < 192 -> 128 <= d < 192 -> 128 <= e < 192 ->
  let c := (a - 240) * 262144 + (b - 128) * 4096 + (d - 128) * 64 + (e - 128) in 65536 <= c -> is_scalar c = true ->
  scalar c /\ encode c = [a; b; d; e].
Proof.
  intros a b d e Ha Hb Hd He c Hc Hs. unfold is_scalar in Hs. split; [unfold scalar; lia|]. unfold encode.
  replace (c <? 0x80) with false by lia. replace (c <? 0x800) with false by lia. replace (c <? 0x10000) with false by lia.
  assert (c / 262144 = a - 240) by (subst c; lia). assert (c / 4096 = (a - 240) * 64 + (b - 128)) by (subst c; lia).
  assert (c / 64 = ((a - 240) * 64 + (b - 128)) * 64 + (d - 128)) by (subst c; lia).
  assert (c mod 64 = e - 128) by (subst c; lia). repeat f_equal; lia.
Qed.

Lemma decode_sound : forall n bs text, (length bs <= n)%nat -> utf8_decode bs = Some text -> encodes bs text.
Proof.
  induction n as [|n IH]; intros bs text L E.
  - destruct bs; [|simpl in L; lia]. injection E as <-. split; [constructor|reflexivity].
  - destruct bs as [|a t]; [injection E as <-; split; [constructor|reflexivity]|]. cbn [length] in L. cbn [utf8_decode] in E.
    assert (Step : forall c pre t', option_map (cons c) (utf8_decode t') = Some text -> scalar c -> encode c = pre ->
      (length t' <= n)%nat -> encodes (pre ++ t') text).
    { intros c pre t' E' Sc Ec L'. destruct (utf8_decode t') as [s|] eqn:D; [|discriminate]. injection E' as <-.
      destruct (IH t' s L' D) as [F ->]. split; [constructor; assumption|]. cbn [flat_map]. rewrite Ec. reflexivity. }
    destruct (a <? 128) eqn:E1.
    { apply (Step a [a] t E); [unfold scalar; lia| |lia]. unfold encode. rewrite E1. reflexivity. }
    destruct ((192 <=? a) && (a <? 224)) eqn:E2.
    { destruct t as [|b t]; [discriminate|]. cbv zeta in E.
      destruct (is_cont b && (128 <=? (a - 192) * 64 + (b - 128))) eqn:C; [|discriminate]. unfold is_cont in C.
      destruct (encode_two a b) as [S2 E4]; [lia..|]. apply (Step _ [a; b] t E S2 E4). simpl in L. lia. }
    destruct ((224 <=? a) && (a <? 240)) eqn:E3.
    { destruct t as [|b [|d t]]; try discriminate. cbv zeta in E.
      match type of E with (if ?c then _ else _) = _ => destruct c eqn:C; [|discriminate] end.
      apply andb_prop in C. destruct C as [C Sc]. unfold is_cont in C.
      destruct (encode_three a b d) as [S2 E4]; [lia|lia|lia|lia|exact Sc|]. apply (Step _ [a; b; d] t E S2 E4). simpl in L. lia. }
    destruct ((240 <=? a) && (a <? 248)) eqn:E5; [|discriminate].
    destruct t as [|b [|d [|e t]]]; try discriminate. cbv zeta in E.
    match type of E with (if ?c then _ else _) = _ => destruct c eqn:C; [|discriminate] end.
    apply andb_prop in C. destruct C as [C Sc]. unfold is_cont in C.
    destruct (encode_four a b d e) as [S2 E4]; [lia|lia|lia|lia|lia|exact Sc|]. apply (Step _ [a; b; d; e] t E S2 E4). simpl in L. lia.
Qed.

Theorem decode_iff : forall bs text, utf8_decode bs = Some text <-> encodes bs text.
Proof.
  intros bs text. split; [apply decode_sound with (n := length bs); lia|].
  intros [F ->]. induction F as [|c l Sc F IH]; [reflexivity|]. cbn [flat_map]. rewrite decode_encode, IH by assumption. reflexivity.
Qed.
