(** Specification of the scene tree: group forest and its rendering (C25 to C29, C38 to C40). *)
From Coq Require Import SpecFloat.
From Verif Require Import Prelude F32 Text MapModel GeoModel GameDataModel SceneModel GatherSpec SurfaceSpec.

Inductive tree := Tree (i : nat) (kids : list tree).
Definition root_of (t : tree) : nat := match t with Tree i _ => i end.
Fixpoint flatten (t : tree) : list nat := match t with Tree i kids => i :: flat_map flatten kids end.

Section Groups.
  Context {T : Type} (data : list (entity T * entity_geo T)).

  Definition prop_of (i : nat) (k : str) : option str :=
    match nth_error data i with Some (e, _) => hget (e_props e) k | None => None end.
  Definition id_of (i : nat) : option str := prop_of i (lit "_tb_id").
  Definition group_of (i : nat) : option str := prop_of i (lit "_tb_group").

  (** The ids present are pairwise different. *)
  Definition distinct_ids : Prop :=
    forall i j x, id_of i = Some x -> id_of j = Some x -> i = j.

  (** Entity [j] (not the first one) is in the group of entity [i]. *)
  Definition in_group (i j : nat) : Prop :=
    1 <= j < length data /\ exists g, group_of j = Some g /\ id_of i = Some g.
  Definition in_group_b (i j : nat) : bool :=
    match group_of j with Some g => if opt_dec (id_of i) (Some g) then true else false | None => false end.
  (** In file order. *)
  Definition members (i : nat) : list nat := filter (in_group_b i) (seq 1 (length data - 1)).

  (** The roots: the first entity, and the others without group. *)
  Definition ungrouped (i : nat) : bool := match group_of i with None => true | Some _ => false end.
  Definition roots : list nat := firstn 1 (seq 0 (length data)) ++ filter ungrouped (seq 1 (length data - 1)).

  (** Entities connected to a root by group links. *)
  Inductive reaches : nat -> Prop :=
  | ReachRoot : forall i, In i roots -> reaches i
  | ReachGroup : forall i j, reaches i -> in_group i j -> reaches j.

  Inductive group_tree : tree -> Prop :=
  | GroupTree : forall i kids, i < length data -> map root_of kids = members i ->
      Forall group_tree kids -> group_tree (Tree i kids).

  (** An actor node, and everything else. *)
  Definition geometry_node (n : node T) : Prop := match n with NActor _ _ _ => False | _ => True end.
End Groups.

(** Same f32 datum, or zeros of different sign. *)
Definition same_f32 (x y : f32) : Prop := x = y \/ exists s t, x = S754_zero s /\ y = S754_zero t.
Definition same_vec3 (a b : vec3 f32) : Prop :=
  same_f32 (vx a) (vx b) /\ same_f32 (vy a) (vy b) /\ same_f32 (vz a) (vz b).
Definition minus (a b : vec3 f32) : vec3 f32 :=
  V3 (f32_sub (vx a) (vx b)) (f32_sub (vy a) (vy b)) (f32_sub (vz a) (vz b)).

(** Where a node sits: at its entity's centre, relative to the parent's centre if it has a parent. *)
Definition placed (data : list (entity f32 * entity_geo f32)) (parent : option nat) (i : nat) (o : vec3 f32) : Prop :=
  exists e g, nth_error data i = Some (e, g) /\
  match parent with
  | None => same_vec3 o (eg_center g)
  | Some j => exists e' g', nth_error data j = Some (e', g') /\ same_vec3 o (minus (eg_center g) (eg_center g'))
  end.

(** Node [n] shows the tree [t]: one actor per entity, named by its class, its geometry first, then
    the actors of its group members in file order. *)
Inductive shows (data : list (entity f32 * entity_geo f32)) : option nat -> tree -> node f32 -> Prop :=
| Shows : forall parent i kids o a geometry nodes,
    placed data parent i o ->
    prop_of data i (lit "classname") = Some (a_name a) ->
    Forall geometry_node geometry -> length geometry <= 2 ->
    Forall2 (shows data (Some i)) kids nodes ->
    shows data parent (Tree i kids) (NActor o a (geometry ++ nodes)).

(** First element satisfying a property. *)
Definition first_with {A} (P : A -> Prop) (l : list A) (x : A) : Prop :=
  exists l1 l2, l = l1 ++ x :: l2 /\ P x /\ forall y, In y l1 -> ~ P y.
Definition only_one {A} (P : A -> Prop) (l : list A) (x : A) : Prop :=
  exists l1 l2, l = l1 ++ x :: l2 /\ P x /\ (forall y, In y l1 -> ~ P y) /\ (forall y, In y l2 -> ~ P y).

Definition point_part {T} (d : entity_def T) : point_data T :=
  match ed_data d with DPoint q => q | DBrush q _ => q end.
Definition is_point {T} (d : entity_def T) : Prop := exists q, ed_data d = DPoint q.
Definition component_name (c : component_type) : option str :=
  match c with CompNone => None | CompScript s => Some s end.

(** Class names of all actors below a node, in preorder. *)
Fixpoint actor_names {T} (n : node T) : list str :=
  match n with NActor _ a ch => a_name a :: flat_map actor_names ch | _ => [] end.
Definition is_actor {T} (n : node T) : Prop := ~ geometry_node n.

(** Only the positions of [shows]. *)
Inductive positioned (data : list (entity f32 * entity_geo f32)) : option nat -> tree -> node f32 -> Prop :=
| Positioned : forall parent i kids o a geometry nodes,
    placed data parent i o -> Forall geometry_node geometry ->
    Forall2 (positioned data (Some i)) kids nodes ->
    positioned data parent (Tree i kids) (NActor o a (geometry ++ nodes)).

(** The definition used for an entity: the first one of its class. *)
Definition defined_by {T} (gd : game_data T) (e : entity T) (d : entity_def T) : Prop :=
  exists c, hget (e_props e) (lit "classname") = Some c /\ first_with (fun d => ed_classname d = c) (gd_entities gd) d.
Definition undefined {T} (gd : game_data T) (e : entity T) : Prop :=
  forall d c, In d (gd_entities gd) -> hget (e_props e) (lit "classname") = Some c -> ed_classname d <> c.

(** Nodes for a visual and a collision geometry; none for an empty one. *)
Definition geometry_nodes_of {T} (c : vec3 T) (v : visual T) (k : collision T) (l : list (node T)) : Prop :=
  exists lv lk, l = lv ++ lk
    /\ ((v = VisNone /\ lv = []) \/ (v <> VisNone /\ lv = [NVisual c v]))
    /\ ((k = ColNone /\ lk = []) \/ (k <> ColNone /\ lk = [NCollision c k])).

(** A layer definition that draws something for the brushes of its layer. *)
Definition has_corner {T} (P : face T -> Prop) (bs : list (brush_geo T)) : Prop :=
  exists b f, In b bs /\ In f (bg_faces b) /\ P f /\ f_vertices f <> [].
Definition layer_draws {T} (l : worldspawn_layer) (bs : list (brush_geo T)) : Prop :=
  (wl_visual l = VMesh /\ has_corner (fun f => f_texture f = Some (wl_texture l)) bs)
  \/ wl_collision l = CConvex
  \/ (wl_collision l = CConcave /\ has_corner (fun _ => True) bs).
