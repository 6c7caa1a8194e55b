(** Which of the longest common subsequences a diff keeps: specification of C136. *)
From Coq Require Import Sorting.Sorted.
From Verif Require Import Prelude F32 Text MapModel DiffSpec.

(** [s] is what [l] has at the increasing positions [ps]. *)
Definition chosen {A} (l : list A) (ps : list nat) (s : list A) : Prop := StronglySorted lt ps /\ map (nth_error l) ps = map Some s.
(** Read from the end, the first position in which [ps] and [qs] differ is later in [ps]. *)
Fixpoint ahead (ps qs : list nat) : Prop :=
  match ps, qs with p :: ps', q :: qs' => q < p \/ q = p /\ ahead ps' qs' | _, _ => False end.
Definition later (ps qs : list nat) : Prop := ahead (rev ps) (rev qs).

(** [s] is a longest common subsequence of [a] and [b], and of these the one that takes the latest elements of [a]. *)
Definition latest_common {A} (s a b : list A) : Prop :=
  longest_common s a b /\ exists ps, chosen a ps s /\ forall s' qs, longest_common s' a b -> chosen a qs s' -> qs = ps \/ later ps qs.

(** Two lists have just one longest common subsequence. *)
Definition one_common {A} (a b : list A) : Prop := forall s s', longest_common s a b -> longest_common s' a b -> s = s'.
