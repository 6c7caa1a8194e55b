(** Enumeration codes (C57). *)
From Verif Require Import Prelude F32 Text MapModel GameDataModel BaseProofs.
Local Open Scope Z_scope.

Definition codes_ok {A} (code : A -> Z) (of_code : Z -> res A) : Prop :=
  (forall t, of_code (code t) = Ok t) /\
  (forall a b, code a = code b -> a = b) /\
  (forall i, (exists t, i = code t /\ of_code i = Ok t)
             \/ (~ (exists t, i = code t) /\ exists w, of_code i = Panic w)).

Lemma collision_codes : codes_ok collision_code collision_of_code.
Proof.
  split; [|split].
  - intros []; reflexivity.
  - intros [] [] H; try reflexivity; discriminate H.
  - intros i. destruct (Z.eq_dec i 0) as [->|A]; [left; exists CNone; auto|].
    destruct (Z.eq_dec i 1) as [->|B]; [left; exists CConvex; auto|].
    destruct (Z.eq_dec i 2) as [->|C]; [left; exists CConcave; auto|].
    right. split; [intros [[] H]; simpl in H; congruence|].
    destruct i as [|[p|[p|p|]|]|p]; try congruence; simpl; eauto.
Qed.

Lemma visual_codes : codes_ok visual_code visual_of_code.
Proof.
  split; [|split].
  - intros []; reflexivity.
  - intros [] [] H; try reflexivity; discriminate H.
  - intros i. destruct (Z.eq_dec i 0) as [->|A]; [left; exists VNone; auto|].
    destruct (Z.eq_dec i 1) as [->|B]; [left; exists VMesh; auto|].
    right. split; [intros [[] H]; simpl in H; congruence|].
    destruct i as [|[p|p|]|p]; try congruence; simpl; eauto.
Qed.

Lemma class_codes : codes_ok class_code class_of_code.
Proof.
  split; [|split].
  - intros []; reflexivity.
  - intros [] [] H; try reflexivity; discriminate H.
  - intros i. destruct (Z.eq_dec i 0) as [->|A]; [left; exists BaseClass; auto|].
    destruct (Z.eq_dec i 1) as [->|B]; [left; exists PointClass; auto|].
    destruct (Z.eq_dec i 2) as [->|C]; [left; exists SolidClass; auto|].
    right. split; [intros [[] H]; simpl in H; congruence|].
    destruct i as [|[p|[p|p|]|]|p]; try congruence; simpl; eauto.
Qed.

(** Enumerations with payload only have codes: the code tells the variant. *)
Lemma variant_codes :
  (forall a b, entity_type_code a = entity_type_code b <->
     match a, b with EPlaceholder, EPlaceholder | EClass _, EClass _ | EPrefab _, EPrefab _ => True | _, _ => False end) /\
  (forall a b, component_code a = component_code b <->
     match a, b with CompNone, CompNone | CompScript _, CompScript _ => True | _, _ => False end) /\
  (forall a b : metadata f32, metadata_code a = metadata_code b <->
     match a, b with MBase _, MBase _ | MColor _, MColor _ | MSize _ _, MSize _ _ => True | _, _ => False end).
Proof. repeat split; intros; destruct a, b; simpl in *; auto; try discriminate; contradiction. Qed.
