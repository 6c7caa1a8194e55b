(** Where the actors of a run stand (C109). *)
From Coq Require Import Reals.
From Verif Require Import Prelude F32 Text MapModel GeoModel SceneModel MapSpec GeoSpec NumberSpec RealSpec WindSpec ErrorSpec PointsSpec.
Local Open Scope R_scope.

Definition children {T} (n : node T) : list (node T) := match n with NActor _ _ ch => ch | _ => [] end.
Definition shift (a b : vec3 R) : vec3 R := V3 (vx a + vx b) (vy a + vy b) (vz a + vz b).

(** The actors from a top node down to one, that one first, and the sum of their origins. *)
Inductive stands (nodes : list (node f32)) : list (node f32) -> vec3 R -> Prop :=
| StandsTop o a ch : In (NActor o a ch) nodes -> stands nodes [NActor o a ch] (point_of o)
| StandsBelow n path x o a ch : stands nodes (n :: path) x -> In (NActor o a ch) (children n) ->
    stands nodes (NActor o a ch :: n :: path) (shift x (point_of o)).

(** The written entities from the worldspawn, or one without group, down to one by groups, that one first. *)
Inductive lineage (d : doc) : list doc_entity -> Prop :=
| LineageTop e : In e d -> doc_value e (lit "classname") = Some (lit "worldspawn") \/ doc_value e (lit "_tb_group") = None -> lineage d [e]
| LineageBelow e' e l g : lineage d (e :: l) -> In e' d -> doc_value e' (lit "classname") <> Some (lit "worldspawn") ->
    doc_value e' (lit "_tb_group") = Some g -> doc_value e (lit "_tb_id") = Some g -> lineage d (e' :: e :: l).

(** The centre of a written entity: its "origin", or the mean of the centres of its brushes. *)
Definition centre_of (p : platform) (tx : texture_info) (e : doc_entity) (c : vec3 f32) : Prop :=
  exists x gs, entity_agrees (reads_as p) e x /\ Forall2 (fun b g => build_brush (f32_num p) tx x b = Ok g) (e_brushes x) gs
    /\ entity_center (f32_num p) x gs c.

(** An actor for the entity with this centre; its own geometry, if any, has that centre. *)
Definition actor_for (e : doc_entity) (c : vec3 f32) (n : node f32) : Prop :=
  exists o a ch, n = NActor o a ch /\ doc_value e (lit "classname") = Some (a_name a)
    /\ (forall o' v, In (NVisual o' v) ch -> o' = c) /\ (forall o' k, In (NCollision o' k) ch -> o' = c).

(** Finite, and far from overflow. *)
Definition tame (c : vec3 f32) : Prop :=
  finite_point c /\ Rabs (vx (point_of c)) <= 2 ^ 60 /\ Rabs (vy (point_of c)) <= 2 ^ 60 /\ Rabs (vz (point_of c)) <= 2 ^ 60.
(** Integer coordinates below 2^22. *)
Definition whole_point (c : vec3 f32) : Prop :=
  finite_point c /\ exists i j k : Z, point_of c = V3 (IZR i) (IZR j) (IZR k) /\ (Z.abs i < 2 ^ 22 /\ Z.abs j < 2 ^ 22 /\ Z.abs k < 2 ^ 22)%Z.

(** The length of the way through the points. *)
Fixpoint way (l : list (vec3 R)) : R :=
  match l with
  | a :: ((b :: _) as t) => norm (minus a b) + way t
  | _ => 0
  end.

(** The actor of a lineage stands at the first of the centres. *)
Definition stands_at (cs : list (vec3 f32)) (x : vec3 R) : Prop :=
  match cs with
  | [] => False
  | c :: _ => (Forall tame cs -> norm (minus x (point_of c)) <= / 2 ^ 24 * way (map point_of cs)) /\ (Forall whole_point cs -> x = point_of c)
  end.

(** Entities with their centres, their actors, and where the first one's stands. *)
Definition family (p : platform) (tx : texture_info) (es : list doc_entity) (cs : list (vec3 f32)) (path : list (node f32)) (x : vec3 R) : Prop :=
  Forall2 (centre_of p tx) es cs /\ Forall2 (fun ec n => actor_for (fst ec) (snd ec) n) (combine es cs) path /\ stands_at cs x.

(** An "origin" of three numbers. *)
Definition origin_at (p : platform) (e : doc_entity) (c : vec3 f32) : Prop :=
  exists x y z, doc_value e (lit "origin") = Some (joined [x; y; z]) /\ (forall t, In t [x; y; z] -> ~ In 32%N t)
    /\ float_text (p_modern_parse p) x (vx c) /\ float_text (p_modern_parse p) y (vy c) /\ float_text (p_modern_parse p) z (vz c).
