(** C10 to C13: token diff. *)
From Verif Require Import Prelude F32 Text MapModel DiffModel DiffSpec DiffProofs Witness.

(** * C10 Token diff never panics on non-empty inputs *)
Theorem C10_no_panic : forall a b, a <> [] -> b <> [] -> exists d, diff_tokens a b = Ok d.
Proof. exact DiffProofs.diff_no_panic. Qed.
Print Assumptions C10_no_panic.

Theorem C10_empty_panics : forall a b, a = [] \/ b = [] -> exists w, diff_tokens a b = Panic w.
Proof. exact DiffProofs.diff_empty. Qed.
Print Assumptions C10_empty_panics.

(** * C11 The diff is based on a longest common subsequence of the inputs without their last tokens *)
Theorem C11_longest_common : forall a b, a <> [] -> b <> [] ->
  exists kept d, diff_tokens a b = Ok d /\ longest_common kept (removelast a) (removelast b) /\
    selected (fun t => ~ In t kept) a (d_removed d) /\ selected (fun t => ~ In t kept) b (d_added d).
Proof. exact DiffProofs.diff_ok. Qed.
Print Assumptions C11_longest_common.

Definition tp (s : str) : token := TProperty (lit "k") s.
Example C11_example :
  diff_tokens [TOpen; tp (lit "a"); tp (lit "b"); tp (lit "c"); TClose; TComment []] [TOpen; tp (lit "b"); tp (lit "x"); tp (lit "c"); tp (lit "a"); TClose] =
  Ok (Diff [tp (lit "x"); tp (lit "a"); TClose] [tp (lit "a"); TClose; TComment []]).
Proof. vm_compute. reflexivity. Qed.

(** * C12 Diff reports every token that is new or gone *)
Theorem C12_reports : forall a b d, diff_tokens a b = Ok d ->
  (forall t, In t a -> ~ In t b -> In t (d_removed d)) /\
  (forall t, In t b -> ~ In t a -> In t (d_added d)) /\
  (forall t, In t (d_removed d) -> In t a) /\ (forall t, In t (d_added d) -> In t b).
Proof. exact DiffProofs.diff_reports. Qed.
Print Assumptions C12_reports.

Example C12_example : exists d, diff_tokens [TOpen; tp (lit "a"); TClose] [TOpen; tp (lit "b"); TClose] = Ok d /\
  In (tp (lit "a")) (d_removed d) /\ In (tp (lit "b")) (d_added d).
Proof. eexists. split; [vm_compute; reflexivity|]. simpl. auto. Qed.

(** * C13 A file does not differ from itself.  Full statement:
    forall a, a <> [] -> diff_tokens a a = Ok (Diff [] []).  It is false: a token that occurs only as
    the last one is reported as both added and removed. *)
Theorem C13_self_diff_refuted : exists a, a <> [] /\ diff_tokens a a <> Ok (Diff [] []).
Proof. exact DiffProofs.self_diff_refuted. Qed.
Print Assumptions C13_self_diff_refuted.

(** What does hold: at most the last token is reported, and nothing is if it occurs before. *)
Theorem C13_self_diff_partial : forall c x,
  exists d, diff_tokens (c ++ [x]) (c ++ [x]) = Ok d /\
    (In x c -> d_added d = [] /\ d_removed d = []) /\
    (~ In x c -> d_added d = [x] /\ d_removed d = [x]).
Proof. exact DiffProofs.diff_self. Qed.
Print Assumptions C13_self_diff_partial.

Example C13_example : diff_tokens [TOpen; TClose; TOpen; TClose] [TOpen; TClose; TOpen; TClose] = Ok (Diff [] []) /\
  diff_tokens [TOpen; TClose] [TOpen; TClose] = Ok (Diff [TClose] [TClose]).
Proof. vm_compute. split; reflexivity. Qed.
