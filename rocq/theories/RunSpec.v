(** Specification of whole runs (C58, C59, C67 to C69). *)
From Coq Require Import SpecFloat.
From Verif Require Import Prelude F32 Text MapModel GeoModel GameDataModel SceneModel RunModel MapSpec GeoSpec LayerSpec TreeSpec
  GameDataSpec PropertySpec Utf8Spec.

(** ** Loading *)
Section Loading.
  Context (p : platform).
  Let number := parse_f32 (p_modern_parse p).

  (** A plane line that can be read, and one that is rejected: readable up to the extra words, which are none
      of those allowed (a single unreadable word is not rejected, it panics). *)
  Definition plane_readable (l : str) : Prop := exists ws pl, written ws l /\ plane_words number (to_lowercase p) ws pl.
  Definition plane_rejected (l : str) : Prop :=
    exists ws front extra pl, written ws l /\ ws = front ++ extra /\ plane_words number (to_lowercase p) front pl
      /\ bp_extra pl = ExNone /\ length extra <> 1 /\ forall x, ~ extra_words number extra x.

  Definition orderly (ts : list token) : Prop :=
    forall pre t post, ts = pre ++ t :: post ->
      legal (depth_after pre) t = true /\ forall l, t = TPlane l -> plane_readable l.

  (** The first token that is not in order is in the wrong scope or a rejected plane. *)
  Definition map_rejected (text : str) : Prop :=
    exists ls ts pre t post, lines_spec (p_keep_bare_cr p) text ls /\ (forall l, In l ls -> ~ bad_line l)
      /\ Forall2 token_spec ls ts /\ ts = pre ++ t :: post /\ orderly pre
      /\ (legal (depth_after pre) t = false
          \/ exists l, t = TPlane l /\ legal (depth_after pre) t = true /\ plane_rejected l).
End Loading.

(** ** Building *)
(** The entity has a class, and integer ids if its class is declared. *)
Definition usable (fd : forge_data f32) (e : entity f32) : Prop :=
  (exists c, hget (e_props e) (lit "classname") = Some c) /\ (forall fe, forge_by fd e fe -> integral_ids e).

(** All entities of the tree are. *)
Definition all_usable (fd : forge_data f32) (data : list (entity f32 * entity_geo f32)) : Prop :=
  forall i e g, reaches data i -> nth_error data i = Some (e, g) -> usable fd e.

Section Groups.
  Context {T : Type} (data : list (entity T * entity_geo T)).
  (** Going down [n] group links from one entity to another. *)
  Inductive walk : nat -> nat -> nat -> Prop :=
  | WalkHere : forall i, walk i 0 i
  | WalkDown : forall i j k n, in_group data i j -> walk j n k -> walk i (S n) k.
  (** Some entity of the tree is in its own group, directly or through others. *)
  Definition cyclic : Prop := exists i n, reaches data i /\ walk i (S n) i.
End Groups.

(** Entities without geometry: group links do not depend on it. *)
Definition bare (es : list (entity f32)) : list (entity f32 * entity_geo f32) :=
  map (fun e => (e, EntityGeo (V3 (S754_zero false) (S754_zero false) (S754_zero false)) [])) es.

(** The only worldspawn, moved to the front. *)
Definition world_first (es : list (entity f32)) (arranged : list (entity f32)) : Prop :=
  exists pre w post, es = pre ++ w :: post /\ arranged = w :: pre ++ post /\ worldspawn w
    /\ forall e, In e (pre ++ post) -> ~ worldspawn e.

(** The planes that need a normal to choose a projection have a finite one. *)
Definition finite_normals (p : platform) (es : list (entity f32)) : Prop :=
  forall e b pl u v, In e es -> In b (e_brushes e) -> In pl b -> bp_uv pl = UVQuake u v ->
    finite_vec (plane_normal (f32_num p) pl).

(** ** Documents *)
(** The document of a text, comments and unrecognised lines aside. *)
Definition text_document (p : platform) (text : str) (d : doc) : Prop :=
  exists ls ts, lines_spec (p_keep_bare_cr p) text ls /\ Forall2 token_spec ls ts /\ significant ts = doc_tokens d.

Definition doc_class (e : doc_entity) : option str := doc_value e (lit "classname").
Definition doc_planes (e : doc_entity) : list str := concat (doc_brushes e).

(** Every plane line is readable, and has a finite normal if it has standard texture coordinates. *)
Definition sound_planes (p : platform) (d : doc) : Prop :=
  forall e l, In e d -> In l (doc_planes e) -> plane_readable p l
    /\ forall ws pl u v, written ws l -> plane_words (parse_f32 (p_modern_parse p)) (to_lowercase p) ws pl ->
         bp_uv pl = UVQuake u v -> finite_vec (plane_normal (f32_num p) pl).
(** Ids of different entities differ. *)
Definition doc_distinct (d : doc) : Prop :=
  forall i j a b x, nth_error d i = Some a -> nth_error d j = Some b ->
    doc_value a (lit "_tb_id") = Some x -> doc_value b (lit "_tb_id") = Some x -> i = j.
(** Entities of declared classes have integer ids. *)
Definition doc_integral (fd : forge_data f32) (d : doc) : Prop :=
  forall e fe k s, In e d -> In fe (fd_definitions fd) -> doc_class e = Some (fe_name fe) -> internal_integer k ->
    doc_value e k = Some s -> exists z, integer_text s z.
Definition doc_classes (d : doc) : Prop := forall e, In e d -> exists c, doc_class e = Some c.
Definition doc_world (d others : doc) (w : doc_entity) : Prop :=
  exists pre post, d = pre ++ w :: post /\ others = pre ++ post /\ doc_class w = Some (lit "worldspawn")
    /\ forall e, In e others -> doc_class e <> Some (lit "worldspawn").

(** The classes of the entities without group, in order. *)
Definition ungrouped_classes (d : doc) : list (option str) :=
  map doc_class (filter (fun e => match doc_value e (lit "_tb_group") with None => true | Some _ => false end) d).

Definition actor_named (n : node f32) (c : option str) : Prop :=
  exists o a ch, n = NActor o a ch /\ c = Some (a_name a).
(** An actor made from a layer definition for water or slime. *)
Definition layer_actor (gd : game_data f32) (n : node f32) : Prop :=
  exists o a ch l, n = NActor o a ch /\ In l (gd_layers gd) /\ a_name a = wl_name l /\ (wl_texture l = water \/ wl_texture l = slime).

(** ** Printed maps *)
Inductive map_item := MProp (k v : str) | MBrush (b : brush f32).
Definition map_source := list (list map_item).

Section Print.
  Context (p : platform).
  Definition quote (s : str) : str := [34%N] ++ s ++ [34%N].
  Definition plane_line (pl : brush_plane f32) : str := joined (show_plane (show_f32 (p_neg_zero p)) pl).
  Definition item_lines (i : map_item) : list str :=
    match i with
    | MProp k v => [quote k ++ lit " " ++ quote v]
    | MBrush b => [lit "{"] ++ map plane_line b ++ [lit "}"]
    end.
  Definition map_lines (m : map_source) : list str :=
    flat_map (fun e => [lit "{"] ++ flat_map item_lines e ++ [lit "}"]) m.
  Definition map_text (m : map_source) : str := flat_map (fun l => l ++ [10%N]) (map_lines m).
  Definition map_bytes (m : map_source) : list N := flat_map encode (map_text m).

  Definition item_doc (i : map_item) : doc_item :=
    match i with MProp k v => DProp k v | MBrush b => DBrush (map plane_line b) end.
  Definition source_doc (m : map_source) : doc := map (map item_doc) m.

  (** Numbers that are printed exactly. *)
  Definition exact (x : f32) : Prop := f32_valid x = true /\ f32_finite x = true /\ (x = S754_zero true -> p_neg_zero p = true).
  Definition exact_vec (v : vec3 f32) : Prop := exact (vx v) /\ exact (vy v) /\ exact (vz v).
  Definition exact_plane (pl : brush_plane f32) : Prop :=
    exact_vec (bp_v0 pl) /\ exact_vec (bp_v1 pl) /\ exact_vec (bp_v2 pl)
    /\ match bp_uv pl with
       | UVQuake a b => exact a /\ exact b
       | UVValve a b c d => exact_vec a /\ exact b /\ exact_vec c /\ exact d
       end
    /\ exact (bp_rotation pl) /\ exact (ux (bp_scale pl)) /\ exact (uy (bp_scale pl))
    /\ match bp_extra pl with
       | ExNone => True
       | ExHexen2 x => exact x
       | ExQuake2 s => i32_range (sd_contents s) /\ i32_range (sd_flags s) /\ exact (sd_value s)
       | ExDaikatana s c => i32_range (sd_contents s) /\ i32_range (sd_flags s) /\ exact (sd_value s)
           /\ exact (c_r c) /\ exact (c_g c) /\ exact (c_b c)
       end.
  (** What can be printed and read back: no quotes or line feeds in properties, texture names that are words. *)
  Definition plain (s : str) : Prop := Forall scalar s /\ ~ In 34%N s /\ ~ In 10%N s.
  Definition printable_item (i : map_item) : Prop :=
    match i with
    | MProp k v => plain k /\ plain v
    | MBrush b => forall pl, In pl b -> exact_plane pl /\ word (bp_texture pl) /\ Forall scalar (bp_texture pl)
    end.
  Definition printable (m : map_source) : Prop := forall e i, In e m -> In i e -> printable_item i.
  (** The planes that need a normal to choose a projection have a finite one. *)
  Definition source_normals (m : map_source) : Prop :=
    forall e b pl u v, In e m -> In (MBrush b) e -> In pl b -> bp_uv pl = UVQuake u v -> finite_vec (plane_normal (f32_num p) pl).
End Print.

(** ** Comparing files *)
Definition file_text (f : file) (text : str) : Prop := exists bs, f = Contents bs /\ encodes bs text.
Definition has_bad_line (p : platform) (text : str) : Prop :=
  exists ls l, lines_spec (p_keep_bare_cr p) text ls /\ In l ls /\ bad_line l.
Definition text_tokens (p : platform) (text : str) (ts : list token) : Prop :=
  exists ls, lines_spec (p_keep_bare_cr p) text ls /\ Forall2 token_spec ls ts.
