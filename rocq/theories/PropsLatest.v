(** C136: exactly what a diff reports. *)
From Verif Require Import Prelude F32 Text MapModel DiffModel GeoModel LayerModel GameDataModel SceneModel RunModel MapSpec DiffSpec LatestSpec Utf8Spec RunSpec DiffProofs LatestProofs LatestFinal.
Local Notation tp s := (TProperty (lit "k") s).

(** C136: there is one subsequence a diff can keep, the longest common one of the tokens without the last ones that takes the latest
    tokens of the first list, and the result is exactly what is not in it. *)
Theorem C136_unique : forall A (s s' a b : list A), latest_common s a b -> latest_common s' a b -> s = s'.
Proof. exact latest_unique. Qed.
Print Assumptions C136_unique.

Theorem C136_exactly : forall a b d, diff_tokens a b = Ok d <-> a <> [] /\ b <> [] /\ exists kept, latest_common kept (removelast a) (removelast b)
  /\ selected (fun t => ~ In t kept) a (d_removed d) /\ selected (fun t => ~ In t kept) b (d_added d).
Proof. exact diff_exactly. Qed.
Print Assumptions C136_exactly.

(** The same for files. *)
Theorem C136_files : forall p a b d, run_diff p a b = Ok d <-> exists s t x y kept, file_text a s /\ file_text b t /\ text_tokens p s x /\ text_tokens p t y /\ x <> [] /\ y <> []
  /\ latest_common kept (removelast x) (removelast y) /\ selected (fun k => ~ In k kept) x (d_removed d) /\ selected (fun k => ~ In k kept) y (d_added d).
Proof. exact files_exactly. Qed.
Print Assumptions C136_files.

(** Swapping the files swaps what is added and what is removed if there is only one longest common subsequence, but not always. *)
Theorem C136_swapped : forall a b d d', one_common (removelast a) (removelast b) -> diff_tokens a b = Ok d -> diff_tokens b a = Ok d' ->
  d_added d' = d_removed d /\ d_removed d' = d_added d.
Proof. exact diff_swapped. Qed.
Print Assumptions C136_swapped.
Theorem C136_swapped_refuted : exists a b d d', diff_tokens a b = Ok d /\ diff_tokens b a = Ok d' /\ d_added d' <> d_removed d.
Proof. exact swapped_refuted. Qed.
Print Assumptions C136_swapped_refuted.

(** Nothing is reported exactly if all tokens of both lists are among the kept ones; so a missing line goes unnoticed if it has an equal elsewhere. *)
Theorem C136_nothing : forall a b, diff_tokens a b = Ok (Diff [] []) <-> a <> [] /\ b <> [] /\ exists kept, latest_common kept (removelast a) (removelast b)
  /\ (forall t, In t a <-> In t kept) /\ forall t, In t b <-> In t kept.
Proof. exact diff_nothing. Qed.
Print Assumptions C136_nothing.
Theorem C136_nothing_refuted : exists a b, diff_tokens a b = Ok (Diff [] []) /\ a <> b.
Proof. exact nothing_refuted. Qed.
Print Assumptions C136_nothing_refuted.

(** Two lines change places: the second one is kept. *)
Example C136_example : diff_tokens [tp (lit "a"); tp (lit "b"); TClose] [tp (lit "b"); tp (lit "a"); TClose] = Ok (Diff [tp (lit "a"); TClose] [tp (lit "a"); TClose])
  /\ latest_common [tp (lit "b")] (removelast [tp (lit "a"); tp (lit "b"); TClose]) (removelast [tp (lit "b"); tp (lit "a"); TClose]).
Proof. exact changed_places. Qed.
(** One line replaced: only one longest common subsequence. *)
Example C136_example_swapped : one_common (removelast [TOpen; tp (lit "a"); TClose; TClose]) (removelast [TOpen; tp (lit "b"); TClose; TClose]).
Proof. exact one_replaced. Qed.
(** A whole entity less. *)
Example C136_example_nothing : diff_tokens [TOpen; TClose; TOpen; TClose; TOpen; TClose] [TOpen; TClose; TOpen; TClose] = Ok (Diff [] []).
Proof. vm_compute. reflexivity. Qed.
