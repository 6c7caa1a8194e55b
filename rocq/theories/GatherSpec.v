(** Specification vocabulary for geometry gathering (C30 to C32). *)
From Coq Require Import Sorted.
From Verif Require Import Prelude F32 Text MapModel GeoModel.

(** Equality of f32 data as Rust's [==]: NaN differs from everything, the zeros are equal. *)
Section Spec.
  Context {T : Type} (O : num T).
  Definition num_eq (a b : T) : Prop := n_cmp O a b = Some Eq.
  Definition pos_eq (a b : vec3 T) : Prop :=
    num_eq (vx a) (vx b) /\ num_eq (vy a) (vy b) /\ num_eq (vz a) (vz b).
  Definition opt_eq {A} (R : A -> A -> Prop) (a b : option A) : Prop :=
    match a, b with Some x, Some y => R x y | None, None => True | _, _ => False end.
  (** Equality in every attribute. *)
  Definition vertex_eq (a b : vertex T) : Prop :=
    pos_eq (vt_pos a) (vt_pos b) /\ pos_eq (vt_normal a) (vt_normal b)
    /\ pos_eq (fst (vt_tangent a)) (fst (vt_tangent b)) /\ num_eq (snd (vt_tangent a)) (snd (vt_tangent b))
    /\ opt_eq (fun x y => num_eq (ux x) (ux y) /\ num_eq (uy x) (uy y)) (vt_uv a) (vt_uv b)
    /\ opt_eq (fun x y => num_eq (c_r x) (c_r y) /\ num_eq (c_g x) (c_g y) /\ num_eq (c_b x) (c_b y))
         (vt_color a) (vt_color b).
  Definition vertex_pos_eq (a b : vertex T) : Prop := pos_eq (vt_pos a) (vt_pos b).

  (** The corners an index list refers to. *)
  Definition corners (vs : list (vertex T)) (ix : list nat) : list (option (vertex T)) := map (nth_error vs) ix.
  Definition face_corners (f : face T) : list (option (vertex T)) := corners (f_vertices f) (f_indices f).
  Definition in_bounds (f : face T) : Prop := forall i, In i (f_indices f) -> i < length (f_vertices f).

  (** The faces selected from an entity. *)
  Definition selected_faces (brush_pred : brush_geo T -> bool) (face_pred : face T -> bool) (g : entity_geo T)
    : list (face T) :=
    flat_map (fun b => filter face_pred (bg_faces b)) (filter brush_pred (eg_brushes g)).

  (** The first element of a list satisfying [P]. *)
  Definition first_such {A} (P : A -> Prop) (l : list A) (k : nat) (x : A) : Prop :=
    nth_error l k = Some x /\ P x /\ forall j y, j < k -> nth_error l j = Some y -> ~ P y.

  (** No earlier vertex of the list is related to the one at position [i]. *)
  Definition first_of_equals (R : vertex T -> vertex T -> Prop) (vs : list (vertex T)) (i : nat) : Prop :=
    exists v, nth_error vs i = Some v /\ forall j w, j < i -> nth_error vs j = Some w -> ~ R w v.

  (** All vertices of a list of faces, and the positions in that list of the faces' triangle corners. *)
  Definition face_vertices (faces : list (face T)) : list (vertex T) := flat_map f_vertices faces.
  Definition corner_positions (faces : list (face T)) : list nat :=
    flat_map (fun kf => map (fun i => length (face_vertices (firstn (fst kf) faces)) + i) (f_indices (snd kf)))
      (combine (seq 0 (length faces)) faces).

  (** What a corner at position [i] of [vs] becomes: itself when it has no earlier equal, else the
      first vertex at its position. *)
  Definition resolves (R : vertex T -> vertex T -> Prop) (vs : list (vertex T)) (i : nat) (v : vertex T) : Prop :=
    (first_of_equals R vs i /\ nth_error vs i = Some v)
    \/ (~ first_of_equals R vs i /\ exists w k, nth_error vs i = Some w
         /\ first_such (fun c => vertex_pos_eq c w) vs k v).

  (** [out] lists the elements of [l] at the positions satisfying [P], in order. *)
  Definition restriction {A} (P : nat -> Prop) (l out : list A) : Prop :=
    exists sel, StronglySorted lt sel /\ (forall i, In i sel <-> i < length l /\ P i)
      /\ map (nth_error l) sel = map Some out.

  (** No two different positions of a list hold related elements. *)
  Definition pairwise_not {A} (R : A -> A -> Prop) (l : list A) : Prop :=
    forall i j a b, i < j -> nth_error l i = Some a -> nth_error l j = Some b -> ~ R a b.
End Spec.

(** The laws of [==] the gathering relies on; f32 has them. *)
Record eq_laws {T} (O : num T) : Prop := EqLaws {
  law_sym : forall a b, n_cmp O a b = Some Eq -> n_cmp O b a = Some Eq;
  law_trans : forall a b c, n_cmp O a b = Some Eq -> n_cmp O b c = Some Eq -> n_cmp O a c = Some Eq
}.
