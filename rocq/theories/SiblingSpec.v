(** Trees that differ in the order of nodes only (C112). *)
From Coq Require Import Permutation.
From Verif Require Import Prelude F32 Text SceneModel MapSpec InvarianceSpec.

(** The same node, but for the order of the nodes below it. *)
Inductive rearranged : node f32 -> node f32 -> Prop :=
| ReActor o a ch ch' mid : Permutation ch mid -> Forall2 rearranged mid ch' -> rearranged (NActor o a ch) (NActor o a ch')
| ReVisual o v : rearranged (NVisual o v) (NVisual o v)
| ReCollision o k : rearranged (NCollision o k) (NCollision o k).
Definition rearranged_all (l l' : list (node f32)) : Prop := exists mid, Permutation l mid /\ Forall2 rearranged mid l'.

(** Two documents with the same entities in any order, written in any way. *)
Definition reordered (d d' : doc) : Prop := exists mid, Permutation d mid /\ Forall2 doc_alike mid d'.
