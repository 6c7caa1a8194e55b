(** Maps with further entities (C114). *)
From Verif Require Import Prelude F32 Text MapModel GeoModel SceneModel MapSpec InvarianceSpec.

(** The second list is the first with further elements. *)
Inductive merged {A B} (R : A -> B -> Prop) (New : B -> Prop) : list A -> list B -> Prop :=
| MergedNil : merged R New [] []
| MergedKept x y l m : R x y -> merged R New l m -> merged R New (x :: l) (y :: m)
| MergedNew y l m : New y -> merged R New l m -> merged R New l (y :: m).

(** [d'] is [d] with entities described by [New], none of them a world. *)
Definition extended (New : doc_entity -> Prop) (d d' : doc) : Prop :=
  merged doc_alike (fun e => New e /\ doc_value e (lit "classname") <> Some (lit "worldspawn")) d d'.

Definition stands_for (e : doc_entity) (n : node f32) : Prop := exists o a ch, n = NActor o a ch /\ doc_value e (lit "classname") = Some (a_name a).
Definition no_actor (n : node f32) : Prop := match n with NActor _ _ _ => False | _ => True end.

(** The second node is the first with further nodes below, all of grouped new entities. *)
Inductive grown (New : doc_entity -> Prop) : node f32 -> node f32 -> Prop :=
| Grown o a g l l' : Forall no_actor g ->
    merged (grown New) (fun n => exists e, New e /\ doc_value e (lit "_tb_group") <> None /\ stands_for e n) l l' ->
    grown New (NActor o a (g ++ l)) (NActor o a (g ++ l')).
