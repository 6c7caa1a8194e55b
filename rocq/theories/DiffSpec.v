(** Independent statements about the token diff. *)
From Verif Require Import Prelude F32 Text MapModel.

(** [s] is a subsequence of [l]: obtained by dropping elements. *)
Inductive subseq {A} : list A -> list A -> Prop :=
| SubNil : subseq [] []
| SubSkip x s l : subseq s l -> subseq s (x :: l)
| SubTake x s l : subseq s l -> subseq (x :: s) (x :: l).

(** [s] is a longest common subsequence of [a] and [b]. *)
Definition longest_common {A} (s a b : list A) : Prop :=
  subseq s a /\ subseq s b /\ forall s', subseq s' a -> subseq s' b -> length s' <= length s.

(** The elements of [l] satisfying [P], in order and with repetitions. *)
Inductive selected {A} (P : A -> Prop) : list A -> list A -> Prop :=
| SelNil : selected P [] []
| SelTake x l r : P x -> selected P l r -> selected P (x :: l) (x :: r)
| SelDrop x l r : ~ P x -> selected P l r -> selected P (x :: l) r.
