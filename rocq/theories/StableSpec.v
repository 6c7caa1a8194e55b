(** Specification of sorting (C133). *)
From Coq Require Import SpecFloat Sorted Permutation.
From Verif Require Import Prelude F32 Text MapModel GeoModel GeoSpec NumberSpec.

Section Spec.
Context {A : Type} (before : A -> A -> Prop).
(** Neither comes before the other. *)
Definition tied (a b : A) : Prop := ~ before a b /\ ~ before b a.

(** What [slice::sort_by] asks of a comparison, for the elements of [l]: one of two elements comes first or they count as
    equal, and both relations are transitive. Otherwise the order of the result is unspecified, and it may panic. *)
Record total_order (l : list A) : Prop := {
  order_once : forall a b, In a l -> In b l -> before a b -> ~ before b a;
  order_chain : forall a b c, In a l -> In b l -> In c l -> before a b -> before b c -> before a c;
  order_tied : forall a b c, In a l -> In b l -> In c l -> tied a b -> tied b c -> tied a c
}.

(** The elements of [l], each with its place, in an order in which every element comes before the later ones or is tied with
    them and was in front of them in [l]. *)
Definition stable_order (x y : nat * A) : Prop := before (snd x) (snd y) \/ (tied (snd x) (snd y) /\ fst x < fst y).
Definition stably_sorted (l s : list A) : Prop :=
  exists placed, Permutation (combine (seq 0 (length l)) l) placed /\ map snd placed = s /\ StronglySorted stable_order placed.
End Spec.

(** Corners by decreasing angle. *)
Definition ahead (p : platform) (plane : brush_plane f32) (a b : vertex f32) : Prop :=
  greater (f32_num p) (angle_of (f32_num p) plane a) (angle_of (f32_num p) plane b).

(** The corners of a face relative to its centre, in the order in which they are found. *)
Definition gathered (p : platform) (planes : list (brush_plane f32)) (plane : brush_plane f32) (f : face f32) (centred : list (vertex f32)) : Prop :=
  exists raw, corner_set (f32_num p) planes plane raw /\ is_mean (f32_num p) (map vt_pos raw) (f_center f)
    /\ Forall2 (displaced (fun x => v3_sub (f32_num p) x (f_center f))) raw centred.

(** Angles of finite numbers are numbers. *)
Definition total_angle (atan2 : f32 -> f32 -> f32) : Prop :=
  forall y x, NumberSpec.finite y -> NumberSpec.finite x -> atan2 y x <> S754_nan.
(** Angles are NaN exactly where an argument is, and in the upper half plane they are larger on the left than on the right. *)
Definition usual_angle (atan2 : f32 -> f32 -> f32) : Prop :=
  (forall y x, atan2 y x = S754_nan <-> y = S754_nan \/ x = S754_nan)
  /\ forall y y' x x', f32_cmp y f32_zero = Some Gt -> f32_cmp y' f32_zero = Some Gt -> f32_cmp x f32_zero = Some Lt -> f32_cmp x' f32_zero = Some Gt ->
       f32_cmp (atan2 y x) (atan2 y' x') = Some Gt.
