(** Centres in exact arithmetic do not depend on the order of brushes (C117). *)
From Coq Require Import Reals Permutation.
From Verif Require Import Prelude F32 Text MapModel GeoModel GeoSpec RealSpec BaseProofs SiblingProofs RealProofs.
Local Open Scope R_scope.

Section Centre.
Context (parse : str -> option R) (cosine radians : R -> R) (atan2 : R -> R -> R) (quat : vec3 R -> R -> vec3 R -> vec3 R) (mat2 : R -> vec2 R -> vec2 R).
Local Notation O := (real_num parse cosine radians atan2 quat mat2).

Lemma sum_moved : forall l l', Permutation l l' -> forall acc, fold_left (v3_add O) l acc = fold_left (v3_add O) l' acc.
Proof.
  intros l l' P. induction P as [|x l l' P IH|x y l|l l' l'' P IH P' IH']; intros acc; [reflexivity|apply IH| |now rewrite IH, IH'].
  cbn [fold_left]. f_equal. destruct acc, x, y. unfold v3_add. cbn. f_equal; ring.
Qed.
Lemma mean_moved : forall l l', Permutation l l' -> mean O l = mean O l'.
Proof. intros l l' P. unfold mean. now rewrite (sum_moved l l' P), (Permutation_length P). Qed.
Theorem exact_centre : forall tx props b b' g, Permutation b b' -> build_entity_geo O tx (Entity props b) = Ok g ->
  exists g', build_entity_geo O tx (Entity props b') = Ok g' /\ eg_center g = eg_center g' /\ Permutation (eg_brushes g) (eg_brushes g').
Proof.
  intros tx props b b' g P E. unfold build_entity_geo in *. cbn [e_brushes e_props] in *. apply bind_ok in E. destruct E as (bs & Eb & E). injection E as <-.
  assert (X : forall q, build_brush O tx (Entity props b) q = build_brush O tx (Entity props b') q) by reflexivity.
  rewrite (mapM_ext _ _ _ _ _ (fun q _ => X q)) in Eb. destruct (mapM_moved _ _ _ _ _ _ P Eb) as (bs' & Eb' & Q). rewrite Eb'. eexists. split; [reflexivity|]. cbn [eg_center eg_brushes]. split; [|exact Q].
  destruct (hget props (lit "origin")); [reflexivity|]. now apply mean_moved, Permutation_map.
Qed.
End Centre.
