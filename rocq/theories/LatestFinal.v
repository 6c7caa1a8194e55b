(** Comparing two files, exactly: proofs of C136. *)
From Verif Require Import Prelude F32 Text MapModel DiffModel GeoModel LayerModel GameDataModel SceneModel RunModel
  MapSpec DiffSpec LatestSpec Utf8Spec RunSpec BaseProofs TokenProofs DiffProofs RunProofs RunDiffProofs LatestProofs.

Lemma spec_good : forall l k, token_spec l k -> ~ bad_line l.
Proof.
  intros l k S ((r & E) & Q). subst l. inversion S as [(r' & E)|(r' & E)|(r' & E)|(r' & E)|k' sep v rest E _ _ _ _|N]; try discriminate.
  - injection E as E. subst r. simpl app in Q. rewrite quotes_cons, quotes_app, quotes_cons, quotes_app, quotes_cons in Q. lia.
  - apply (N 34%N); [simpl; auto|]. now exists r.
Qed.
Theorem files_exactly : forall p a b d, run_diff p a b = Ok d <-> exists s t x y kept, file_text a s /\ file_text b t /\ text_tokens p s x /\ text_tokens p t y /\ x <> [] /\ y <> []
  /\ latest_common kept (removelast x) (removelast y) /\ selected (fun k => ~ In k kept) x (d_removed d) /\ selected (fun k => ~ In k kept) y (d_added d).
Proof.
  intros p a b d. split.
  - intros E. unfold run_diff in E. apply bind_ok in E as (s & Es & E). apply bind_ok in E as (t & Et & E). apply bind_ok in E as (x & Ex & E). apply bind_ok in E as (y & Ey & E).
    apply diff_exactly in E as (Hx & Hy & kept & Lc & R1 & R2). exists s, t, x, y, kept. split; [now apply read_text|]. split; [now apply read_text|].
    split; [now apply tokenize_tokens|]. split; [now apply tokenize_tokens|]. auto 8.
  - intros (s & t & x & y & kept & Fs & Ft & Tx & Ty & Hx & Hy & Lc & R1 & R2). rewrite (run_diff_read p a b s t Fs Ft).
    assert (Tk : forall u z, text_tokens p u z -> tokenize p u = Ok z).
    { intros u z (ls & Ls & F). apply (tokenize_lines_ok p u ls z Ls). split; [|exact F]. intros l Hl. destruct (Forall2_in_l _ _ _ _ _ _ F Hl) as (k & _ & K). eapply spec_good; eassumption. }
    rewrite (Tk s x Tx), (Tk t y Ty). cbn [bind]. apply diff_exactly. eauto 8.
Qed.

(** ** Examples *)
Local Notation tp s := (TProperty (lit "k") s).
Lemma swapped_refuted : exists a b d d', diff_tokens a b = Ok d /\ diff_tokens b a = Ok d' /\ d_added d' <> d_removed d.
Proof.
  exists [tp (lit "a"); tp (lit "b"); TClose], [tp (lit "b"); tp (lit "a"); TClose]. do 2 eexists. split; [vm_compute; reflexivity|]. split; [vm_compute; reflexivity|]. discriminate.
Qed.
Lemma nothing_refuted : exists a b, diff_tokens a b = Ok (Diff [] []) /\ a <> b.
Proof. exists [TOpen; TClose; TOpen; TClose; TOpen; TClose], [TOpen; TClose; TOpen; TClose]. split; [vm_compute; reflexivity|discriminate]. Qed.
Lemma changed_places : diff_tokens [tp (lit "a"); tp (lit "b"); TClose] [tp (lit "b"); tp (lit "a"); TClose] = Ok (Diff [tp (lit "a"); TClose] [tp (lit "a"); TClose])
  /\ latest_common [tp (lit "b")] (removelast [tp (lit "a"); tp (lit "b"); TClose]) (removelast [tp (lit "b"); tp (lit "a"); TClose]).
Proof.
  assert (E : lcs_tokens [tp (lit "a"); tp (lit "b"); TClose] [tp (lit "b"); tp (lit "a"); TClose] = Ok [tp (lit "b")]) by (vm_compute; reflexivity).
  split; [vm_compute; reflexivity|]. destruct (lcs_latest [tp (lit "a"); tp (lit "b"); TClose] [tp (lit "b"); tp (lit "a"); TClose]) as (s & Es & L); [discriminate..|]. rewrite E in Es. injection Es as <-. exact L.
Qed.
Lemma one_replaced : one_common (removelast [TOpen; tp (lit "a"); TClose; TClose]) (removelast [TOpen; tp (lit "b"); TClose; TClose]).
Proof.
  assert (K : forall s, longest_common s [TOpen; tp (lit "a"); TClose] [TOpen; tp (lit "b"); TClose] -> s = [TOpen; TClose]).
  { intros s (A & B & M). assert (Ln : 2 <= length s) by (apply (M [TOpen; TClose]); repeat constructor).
    assert (Na : ~ In (tp (lit "a")) s) by (intros H; apply (subseq_In _ _ _ _ B) in H; cbn in H; intuition discriminate).
    inversion A as [|? ? ? A1|? ? ? A1]; subst; inversion A1 as [|? ? ? A2|? ? ? A2]; subst; inversion A2 as [|? ? ? A3|? ? ? A3]; subst; inversion A3; subst; cbn in Ln, Na; try lia; try reflexivity; exfalso; apply Na; auto. }
  intros s s' H H'. rewrite (K s H). symmetry. exact (K s' H').
Qed.
