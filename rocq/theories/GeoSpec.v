(** Specification of built geometry (C14 to C21, C63, C64). *)
From Coq Require Import Sorted Permutation.
From Verif Require Import Prelude F32 Text MapModel GeoModel GatherSpec.

(** ** Triangles *)
(** The triangles (0, 1, 2), (0, 2, 3), ... of [n] corners. *)
Definition is_fan (n : nat) (l : list nat) : Prop :=
  length l = 3 * (n - 2) /\ (forall i, In i l -> i < n)
  /\ forall i, i < n - 2 -> nth_error l (3 * i) = Some 0 /\ nth_error l (3 * i + 1) = Some (i + 1)
       /\ nth_error l (3 * i + 2) = Some (i + 2).

(** Texts separated by single spaces. *)
Fixpoint joined (ps : list str) : str :=
  match ps with [] => [] | [q] => q | q :: t => q ++ lit " " ++ joined t end.

Section Spec.
  Context {T : Type} (O : num T).

  (** ** Corners *)
  Definition greater (a b : T) : Prop := n_cmp O a b = Some Gt.
  (** Not in front of a plane by more than the tolerance. *)
  Definition behind (x : vec3 T) (q : brush_plane T) : Prop :=
    ~ (greater (v3_dot O (plane_normal O q) x) (plane_dist O q)
       /\ greater (n_sub O (v3_dot O (plane_normal O q) x) (plane_dist O q)) (n_eps O)).
  Definition inside (planes : list (brush_plane T)) (x : vec3 T) : Prop := forall q, In q planes -> behind x q.
  (** A meeting point of the plane and two planes of the brush that is inside the brush. *)
  Definition meets (planes : list (brush_plane T)) (plane p1 p2 : brush_plane T) (x : vec3 T) : Prop :=
    In p1 planes /\ In p2 planes /\ intersect_planes O plane p1 p2 = Some x /\ inside planes x.
  Definition meeting_point planes plane x : Prop := exists p1 p2, meets planes plane p1 p2 x.

  (** Moving a vertex by a change of its position. *)
  Definition displaced (f : vec3 T -> vec3 T) (a b : vertex T) : Prop :=
    vt_pos b = f (vt_pos a) /\ vt_normal b = vt_normal a /\ vt_tangent b = vt_tangent a /\ vt_uv b = vt_uv a
    /\ vt_color b = vt_color a.

  (** The corners of a face before sorting: one for each meeting point up to equality. *)
  Definition corner_set (planes : list (brush_plane T)) (plane : brush_plane T) (raw : list (vertex T)) : Prop :=
    (forall v, In v raw -> meeting_point planes plane (vt_pos v))
    /\ (forall x, meeting_point planes plane x -> exists v, In v raw /\ (vt_pos v = x \/ pos_eq O x (vt_pos v)))
    /\ pairwise_not (fun a b => pos_eq O (vt_pos a) (vt_pos b)) raw.

  (** [n_cmp] orders the numbers satisfying [P]. *)
  Definition not_above (a b : T) : Prop := n_cmp O a b = Some Lt \/ n_cmp O a b = Some Eq.
  Record order_laws (P : T -> Prop) : Prop := {
    law_total : forall a b, P a -> P b -> not_above a b \/ greater a b;
    law_flip : forall a b, greater a b -> not_above b a;
    law_chain : forall a b c, not_above a b -> not_above b c -> not_above a c
  }.

  (** The angle of a corner around the face's centre, in the frame of the plane's first edge. *)
  Definition first_edge (pl : brush_plane T) : vec3 T := n_normalize O (v3_sub O (bp_v1 pl) (bp_v0 pl)).
  Definition second_axis (pl : brush_plane T) : vec3 T := v3_cross O (plane_normal O pl) (first_edge pl).
  Definition angle_of (pl : brush_plane T) (v : vertex T) : T :=
    n_atan2 O (v3_dot O (vt_pos v) (second_axis pl)) (v3_dot O (vt_pos v) (first_edge pl)).

  (** Left to right sum over the number of summands, at least one. *)
  Inductive sum_from : vec3 T -> list (vec3 T) -> vec3 T -> Prop :=
  | SumNil : forall s, sum_from s [] s
  | SumCons : forall s x l r, sum_from (v3_add O s x) l r -> sum_from s (x :: l) r.
  Definition is_mean (l : list (vec3 T)) (c : vec3 T) : Prop :=
    exists s, sum_from (V3 (n_zero O) (n_zero O) (n_zero O)) l s
      /\ c = v3_divs O s (n_of_N O (N.of_nat (Nat.max (length l) 1))).

  (** ** Attributes *)
  Definition phong (e : entity T) : Prop := hget (e_props e) (lit "_phong") = Some (lit "1").

  (** The last pair of planes, in row order, that meets the plane in the place [x]. *)
  Definition last_pair (planes : list (brush_plane T)) (plane p1 p2 : brush_plane T) (x : vec3 T) : Prop :=
    exists l1 l2, list_prod planes planes = l1 ++ (p1, p2) :: l2 /\ meets planes plane p1 p2 x
      /\ forall q1 q2 y, In (q1, q2) l2 -> meets planes plane q1 q2 y -> ~ pos_eq O x y.
  (** The smoothed normal of a meeting point: without a readable angle the sum of the three normals,
      otherwise the plane's own normal plus those of the planes within the angle. *)
  Definition taken (limit : T) (n0 q s s' : vec3 T) : Prop :=
    (greater (v3_dot O n0 q) limit /\ s' = v3_add O s q) \/ (~ greater (v3_dot O n0 q) limit /\ s' = s).
  Definition smooth (angle : option str) (p0 p1 p2 : brush_plane T) (n : vec3 T) : Prop :=
    match (match angle with Some s => n_parse O s | None => None end) with
    | Some a =>
      let limit := n_cos O (n_mul O (n_add O a (n_centi O)) (n_degree O)) in
      exists s1 s2, taken limit (plane_normal O p0) (plane_normal O p1) (plane_normal O p0) s1
        /\ taken limit (plane_normal O p0) (plane_normal O p2) s1 s2 /\ n = n_normalize O s2
    | None => n = n_normalize O (v3_add O (v3_add O (plane_normal O p0) (plane_normal O p1)) (plane_normal O p2))
    end.

  (** ** Entities *)
  (** Component [i] of a space separated list; absent or unreadable ones are zero. *)
  Definition component (zero : T) (ps : list str) (i : nat) : T :=
    match nth_error ps i with
    | Some t => match n_parse O t with Some x => x | None => zero end
    | None => zero
    end.
  Definition spaced_pieces (s : str) (ps : list str) : Prop :=
    joined ps = s /\ ps <> [] /\ forall q, In q ps -> ~ In 32%N q.
  Definition entity_center (e : entity T) (brushes : list (brush_geo T)) (c : vec3 T) : Prop :=
    match hget (e_props e) (lit "origin") with
    | Some s => exists ps, spaced_pieces s ps
        /\ c = V3 (component (n_zero O) ps 0) (component (n_zero O) ps 1) (component (n_zero O) ps 2)
    | None => is_mean (map bg_center brushes) c
    end.
End Spec.

(** ** Single precision *)
Definition finite (x : f32) : Prop := f32_finite x = true.
Definition finite_vec (v : vec3 f32) : Prop := finite (vx v) /\ finite (vy v) /\ finite (vz v).
