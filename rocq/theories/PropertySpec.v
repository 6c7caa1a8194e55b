(** Specification of delivered entity properties (C36, C37, C53, C54, C60, C62). *)
From Coq Require Import SpecFloat.
From Verif Require Import Prelude F32 Text MapModel GameDataModel GameDataSpec TreeSpec.

(** ** Text forms *)
(** Three numbers, each followed by one space or, the last one, by the end; anything may follow. *)
Definition three_text {T} (reads : str -> T -> Prop) (s : str) (a b c : T) : Prop :=
  exists x y z rest, s = x ++ lit " " ++ y ++ lit " " ++ z ++ rest
    /\ ~ In 32%N x /\ ~ In 32%N y /\ ~ In 32%N z /\ (rest = [] \/ exists r, rest = lit " " ++ r)
    /\ reads x a /\ reads y b /\ reads z c.

(** ** Values *)
(** The value read from the text if there is a readable text, otherwise the default. *)
Definition read_or {A} (reads : str -> A -> Prop) (raw : option str) (default v : A) : Prop :=
  (exists s, raw = Some s /\ reads s v)
  \/ (v = default /\ forall s, raw = Some s -> forall w, ~ reads s w).

Section Delivered.
  Context (p : platform).
  Definition number_text (s : str) (x : f32) : Prop := parse_f32 (p_modern_parse p) s = Some x.
  Definition vector_reads (s : str) (v : vec3 f32) : Prop := three_text number_text s (vx v) (vy v) (vz v).
  Definition color_reads (s : str) (c : color f32) : Prop := three_text number_text s (c_r c) (c_g c) (c_b c).

  (** What a property declared as [d] with text [raw] in the map should be. *)
  Inductive delivered : property_data f32 -> option str -> property f32 -> Prop :=
  | DelInteger : forall d raw v, read_or integer_text raw d v -> delivered (FInteger d) raw (PrInteger v)
  | DelFloat : forall d raw v, read_or number_text raw d v -> delivered (FFloat d) raw (PrFloat v)
  | DelVector : forall d raw v, read_or vector_reads raw d v -> delivered (FVector3 d) raw (PrVector3 v)
  | DelString : forall d raw v, read_or eq raw d v -> delivered (FString d) raw (PrString v)
  | DelColor : forall d raw v, read_or color_reads raw d v -> delivered (FColor d) raw (PrColor v)
  | DelChoices : forall cs d raw v, read_or integer_text raw d v -> delivered (FChoices cs d) raw (PrChoices v)
  | DelFlags : forall fs d raw v, read_or integer_text raw d v -> delivered (FFlags fs d) raw (PrFlags v)
  | DelSource : forall raw, delivered FTargetSource raw PrTargetSource
  | DelDestination : forall raw, delivered FTargetDestination raw PrTargetDestination.
End Delivered.

(** ** Definitions *)
Definition class_of {T} (e : entity T) : option str := hget (e_props e) (lit "classname").
(** The FGD definition used: the first one of the entity's class. *)
Definition forge_by {T} (fd : forge_data T) (e : entity T) (fe : forge_entity T) : Prop :=
  exists c, class_of e = Some c /\ first_with (fun fe => fe_name fe = c) (fd_definitions fd) fe.
Definition forge_none {T} (fd : forge_data T) (e : entity T) : Prop :=
  forall fe c, In fe (fd_definitions fd) -> class_of e = Some c -> fe_name fe <> c.

(** The last property declared under a name. *)
Definition last_named {T} (k : str) (l : list (forge_property T)) (x : forge_property T) : Prop :=
  exists l1 l2, l = l1 ++ x :: l2 /\ fp_name x = k /\ forall y, In y l2 -> fp_name y <> k.
Definition declares {T} (fe : forge_entity T) (k : str) : Prop := exists x, In x (fe_properties fe) /\ fp_name x = k.
Definition is_flags {T} (d : property_data T) : Prop := exists fs v, d = FFlags fs v.

(** The editor's own keys. *)
Definition internal_integer (k : str) : Prop := k = lit "_tb_id" \/ k = lit "_tb_group".
Definition internal_string (k : str) : Prop := k = lit "_tb_type" \/ k = lit "_tb_name".
Definition undeclared_value {T} (raw : option str) (k : str) (v : option (property T)) : Prop :=
  (internal_integer k /\ ((raw = None /\ v = None) \/ exists s z, raw = Some s /\ integer_text s z /\ v = Some (PrInteger z)))
  \/ (internal_string k /\ v = match raw with Some s => Some (PrString s) | None => None end)
  \/ (~ internal_integer k /\ ~ internal_string k /\ v = None).
Definition integral_ids {T} (e : entity T) : Prop :=
  forall k s, internal_integer k -> hget (e_props e) k = Some s -> exists z, integer_text s z.

(** ** Defaults in the FGD text *)
(** The default an FGD file shows for a property, if it shows one. *)
Definition fgd_default (b : fgd_property) : option str :=
  match b with
  | AInteger _ v _ | AFloat _ v _ | AString _ v _ | AColor255 _ v _ => Some v
  | AChoices _ v _ => Some v
  | _ => None
  end.
(** The sum of the flags that are on by default. *)
Definition flag_sum (l : list (str * str * str)) : Z -> Prop := fun z =>
  exists vs, Forall2 (fun '(v, _, d) x => (d = lit "1" /\ integer_text v x) \/ (d = lit "0" /\ x = 0%Z)) l vs
    /\ z = fold_right Z.add 0%Z vs.

(** Two entities of one class, the first without the key [k], the second with value [s]. *)
Definition omits_and_spells {T} (e1 e2 : entity T) (k s : str) : Prop :=
  class_of e1 = class_of e2 /\ hget (e_props e1) k = None /\ hget (e_props e2) k = Some s.

(** Equality of colours as Rust's [==]. *)
Definition eq32 (x y : f32) : Prop := f32_cmp x y = Some Eq.
Definition color_eq (a b : color f32) : Prop := eq32 (c_r a) (c_r b) /\ eq32 (c_g a) (c_g b) /\ eq32 (c_b a) (c_b b).
Definition unit_component (x : f32) : Prop := f32_valid x = true /\ le32 f32_zero x = true /\ le32 x f32_one = true.
Definition unit_color (c : color f32) : Prop := unit_component (c_r c) /\ unit_component (c_g c) /\ unit_component (c_b c).
Definition black (c : color f32) : Prop := color_eq c (Color f32_zero f32_zero f32_zero).

(** Defaults the FGD spells exactly: finite f32 data and 32-bit integers. *)
Definition finite32 (x : f32) : Prop := f32_valid x = true /\ f32_finite x = true.
Definition exact_default (d : property_data f32) : Prop :=
  match d with
  | FInteger i => i32_range i
  | FFloat x => finite32 x
  | FVector3 v => finite32 (vx v) /\ finite32 (vy v) /\ finite32 (vz v)
  | FString _ => True
  | _ => False
  end.
(** Equal properties; zeros may differ in sign when the platform prints -0.0 without sign. *)
Inductive same_delivery (p : platform) : property f32 -> property f32 -> Prop :=
| SameRefl : forall x, same_delivery p x x
| SameFloat : forall x y, same_number p x y -> same_delivery p (PrFloat x) (PrFloat y)
| SameVec : forall v w, same_vec p v w -> same_delivery p (PrVector3 v) (PrVector3 w).
