(** Independent statements about map text, tokens, documents and plane lines. *)
From Verif Require Import Prelude F32 Text MapModel.
From Verif Require Export TextSpec.

(** ** Lines.  A text is a sequence of terminated lines followed by an unterminated rest. *)
Inductive ending := LF | CRLF.
Definition ending_text (e : ending) : str := match e with LF => [10%N] | CRLF => [13%N; 10%N] end.
Definition ends_with_cr (l : str) : Prop := exists l', l = l' ++ [13%N].
Definition one_line (l : str) : Prop := ~ In 10%N l.

(** A line ended by LF must not itself end in CR, otherwise it is a line ended by CRLF. *)
Definition wf_line (le : str * ending) : Prop :=
  one_line (fst le) /\ (snd le = LF -> ~ ends_with_cr (fst le)).
Definition render (ls : list (str * ending)) (rest : str) : str :=
  flat_map (fun le => fst le ++ ending_text (snd le)) ls ++ rest.

(** The lines of a text: the terminated ones and the rest if it is not empty.  A carriage return at
    the very end of the file belongs to the last line or not depending on the library version. *)
Inductive last_lines (keep_bare_cr : bool) : str -> list str -> Prop :=
| LastNone : last_lines keep_bare_cr [] []
| LastPlain l : l <> [] -> ~ ends_with_cr l -> last_lines keep_bare_cr l [l]
| LastKeep l : keep_bare_cr = true -> last_lines keep_bare_cr (l ++ [13%N]) [l ++ [13%N]]
| LastDrop l : keep_bare_cr = false -> last_lines keep_bare_cr (l ++ [13%N]) [l].

Inductive lines_spec (keep_bare_cr : bool) (text : str) : list str -> Prop :=
| LinesSpec ls rest last :
    Forall wf_line ls -> one_line rest -> last_lines keep_bare_cr rest last ->
    text = render ls rest -> lines_spec keep_bare_cr text (map fst ls ++ last).

(** ** Tokens *)
Definition quotes (l : str) : nat := count_occ N.eq_dec l 34%N.

Definition starts (c : N) (l : str) : Prop := exists t, l = c :: t.

(** What the token of a line is. *)
Inductive token_spec (l : str) : token -> Prop :=
| SpecComment : starts 47 l -> token_spec l (TComment l)
| SpecOpen : starts 123 l -> token_spec l TOpen
| SpecClose : starts 125 l -> token_spec l TClose
| SpecPlane : starts 40 l -> token_spec l (TPlane l)
| SpecProperty k sep v rest :
    l = [34%N] ++ k ++ [34%N] ++ sep ++ [34%N] ++ v ++ rest ->
    ~ In 34%N k -> ~ In 34%N sep -> ~ In 34%N v -> (rest = [] \/ starts 34 rest) ->
    token_spec l (TProperty k v)
| SpecOther : (forall c, In c [47; 34; 123; 125; 40]%N -> ~ starts c l) -> token_spec l (TUnrecognized l).

(** A property line that cannot be read: fewer than three quotes. *)
Definition bad_line (l : str) : Prop := starts 34 l /\ quotes l < 3.

(** ** Documents *)
Inductive doc_item := DProp (k v : str) | DBrush (planes : list str).
Definition doc_entity := list doc_item.
Definition doc := list doc_entity.

Definition item_tokens (i : doc_item) : list token :=
  match i with
  | DProp k v => [TProperty k v]
  | DBrush ps => TOpen :: map TPlane ps ++ [TClose]
  end.
Definition entity_tokens (e : doc_entity) : list token :=
  TOpen :: flat_map item_tokens e ++ [TClose].
Definition doc_tokens (d : doc) : list token := flat_map entity_tokens d.

Definition ignorable (t : token) : bool :=
  match t with TComment _ | TUnrecognized _ => true | _ => false end.
Definition significant (ts : list token) : list token := filter (fun t => negb (ignorable t)) ts.

(** The value a document entity gives to a key: that of the last line with that key. *)
Fixpoint doc_value (e : doc_entity) (k : str) : option str :=
  match e with
  | [] => None
  | DProp k' v :: t =>
    match doc_value t k with
    | Some w => Some w
    | None => if str_eqb k k' then Some v else None
    end
  | DBrush _ :: t => doc_value t k
  end.
Fixpoint doc_brushes (e : doc_entity) : list (list str) :=
  match e with
  | [] => []
  | DProp _ _ :: t => doc_brushes t
  | DBrush ps :: t => ps :: doc_brushes t
  end.

(** A parsed entity agrees with a document entity. *)
Definition entity_agrees {T} (read : str -> brush_plane T -> Prop) (d : doc_entity) (e : entity T) : Prop :=
  (forall k, get_property e k = doc_value d k) /\
  Forall2 (Forall2 read) (doc_brushes d) (e_brushes e).

(** ** Scopes: nesting depth 0 (file), 1 (entity), 2 (brush) *)
Definition legal (depth : nat) (t : token) : bool :=
  match t with
  | TOpen => depth <? 2
  | TClose => 0 <? depth
  | TProperty _ _ => depth =? 1
  | TPlane _ => depth =? 2
  | TComment _ | TUnrecognized _ => true
  end.
Definition next_depth (depth : nat) (t : token) : nat :=
  match t with TOpen => depth + 1 | TClose => depth - 1 | _ => depth end.
Definition depth_after (ts : list token) : nat := fold_left next_depth ts 0.

(** The message for a token in the wrong scope. *)
Definition scope_error (depth : nat) (t : token) : str :=
  match t, depth with
  | TOpen, _ => lit "Open brace in brush scope"
  | TClose, _ => lit "Close brace in file scope"
  | TProperty _ _, 0 => lit "Property in file scope"
  | TProperty _ _, _ => lit "Property in brush scope"
  | TPlane _, 0 => lit "Brushplane in file scope"
  | TPlane _, _ => lit "Brushplane in entity scope"
  | _, _ => []
  end.

(** Every token of the sequence is legal where it stands and every plane line is readable. *)
Definition well_scoped {T} (read : str -> res (brush_plane T)) (ts : list token) : Prop :=
  forall pre t post, ts = pre ++ t :: post ->
    legal (depth_after pre) t = true /\
    (forall line, t = TPlane line -> exists pl, read line = Ok pl).

(** [a] is [b] cut off somewhere: empty, or equal up to its last element, which may be a cut-off
    version (in the sense of [R]) of the corresponding element of [b]. *)
Definition cut_list {A} (R : A -> A -> Prop) (a b : list A) : Prop :=
  a = [] \/
  exists front last last' rest, a = front ++ [last] /\ b = front ++ last' :: rest /\ R last last'.
Definition cut_brush {T} (a b : brush T) : Prop := exists more, b = a ++ more.
Definition cut_entity {T} (a b : entity T) : Prop :=
  cut_list cut_brush (e_brushes a) (e_brushes b) /\
  (forall k, get_property a k <> None -> get_property b k <> None).
Definition cut_entities {T} : list (entity T) -> list (entity T) -> Prop := cut_list cut_entity.

(** Loading: tokens of the text, then the parser. *)
Definition load (p : platform) (text : str) :=
  ts <- tokenize p text ;; parse_tokens (f32_num p) (to_lowercase p) ts.

(** A line that is neither a property, a brace nor a plane. *)
Definition inert_line (l : str) : bool :=
  match l with
  | [] => true
  | c :: _ => negb (existsb (N.eqb c) [34; 123; 125; 40]%N)
  end.

(** ** Plane lines: the words of a line *)
Definition separator (s : str) : Prop := s <> [] /\ forallb white s = true.
Definition word (w : str) : Prop := w <> [] /\ forallb (fun c => negb (white c)) w = true.

(** Words written with arbitrary separators, optional white space at both ends. *)
Inductive written : list str -> str -> Prop :=
| WNil s : forallb white s = true -> written [] s
| WOne lead w trail : forallb white lead = true -> word w -> forallb white trail = true ->
    written [w] (lead ++ w ++ trail)
| WCons lead w s ws rest : forallb white lead = true -> word w -> separator s ->
    written ws rest -> ws <> [] -> written (w :: ws) (lead ++ w ++ s ++ rest).

Section PlaneSpec.
  Context {T : Type} (number : str -> option T) (lower : str -> str).

  Inductive extra_words : list str -> extra_data T -> Prop :=
  | XNone : extra_words [] ExNone
  | XHexen2 w x : number w = Some x -> extra_words [w] (ExHexen2 x)
  | XQuake2 wc wf wv c f v : integer_text wc c -> integer_text wf f -> number wv = Some v ->
      extra_words [wc; wf; wv] (ExQuake2 (SurfaceData c f v))
  | XDaikatana wc wf wv wr wg wb c f v r g b :
      integer_text wc c -> integer_text wf f -> number wv = Some v ->
      number wr = Some r -> number wg = Some g -> number wb = Some b ->
      extra_words [wc; wf; wv; wr; wg; wb] (ExDaikatana (SurfaceData c f v) (Color r g b)).

  (** The words of texture coordinates.  Brackets may be any word; the first word of the Valve form
      must not be a number (it is "["). *)
  Inductive uv_words : list str -> uv T -> Prop :=
  | UQuake wu wv u v : number wu = Some u -> number wv = Some v -> uv_words [wu; wv] (UVQuake u v)
  | UValve o1 x1 y1 z1 d1 c1 o2 x2 y2 z2 d2 c2 ax ay az ao bx by_ bz bo :
      number o1 = None ->
      number x1 = Some ax -> number y1 = Some ay -> number z1 = Some az -> number d1 = Some ao ->
      number x2 = Some bx -> number y2 = Some by_ -> number z2 = Some bz -> number d2 = Some bo ->
      uv_words [o1; x1; y1; z1; d1; c1; o2; x2; y2; z2; d2; c2]
               (UVValve (V3 ax ay az) ao (V3 bx by_ bz) bo).

  Inductive point_words : list str -> vec3 T -> Prop :=
  | PtWords o x y z c a b d : number x = Some a -> number y = Some b -> number z = Some d ->
      point_words [o; x; y; z; c] (V3 a b d).

  Inductive plane_words : list str -> brush_plane T -> Prop :=
  | PlWords p0 p1 p2 tex uvw wr wsx wsy ex v0 v1 v2 uv r sx sy extra :
      point_words p0 v0 -> point_words p1 v1 -> point_words p2 v2 ->
      uv_words uvw uv -> number wr = Some r -> number wsx = Some sx -> number wsy = Some sy ->
      extra_words ex extra ->
      plane_words (p0 ++ p1 ++ p2 ++ [tex] ++ uvw ++ [wr; wsx; wsy] ++ ex)
        (BrushPlane v0 v1 v2 (lower tex) uv r (V2 sx sy) extra).
End PlaneSpec.

(** The standard text of a plane for a given way of writing numbers. *)
Section PlanePrint.
  Context {T : Type} (show : T -> str).
  Definition show_point (v : vec3 T) : list str :=
    [lit "("; show (vx v); show (vy v); show (vz v); lit ")"].
  Definition show_uv (u : uv T) : list str :=
    match u with
    | UVQuake a b => [show a; show b]
    | UVValve ua uo va vo =>
      [lit "["; show (vx ua); show (vy ua); show (vz ua); show uo; lit "]";
       lit "["; show (vx va); show (vy va); show (vz va); show vo; lit "]"]
    end.
  Definition show_extra (x : extra_data T) : list str :=
    match x with
    | ExNone => []
    | ExHexen2 a => [show a]
    | ExQuake2 d => [show_Z (sd_contents d); show_Z (sd_flags d); show (sd_value d)]
    | ExDaikatana d c =>
      [show_Z (sd_contents d); show_Z (sd_flags d); show (sd_value d); show (c_r c); show (c_g c); show (c_b c)]
    end.
  Definition show_plane (p : brush_plane T) : list str :=
    show_point (bp_v0 p) ++ show_point (bp_v1 p) ++ show_point (bp_v2 p) ++ [bp_texture p]
    ++ show_uv (bp_uv p) ++ [show (bp_rotation p); show (ux (bp_scale p)); show (uy (bp_scale p))]
    ++ show_extra (bp_extra p).
End PlanePrint.

(** Planes all of whose numbers satisfy [good] and whose integers are in range. *)
Section GoodPlane.
  Context {T : Type} (good : T -> Prop).
  Definition good_v3 (v : vec3 T) := good (vx v) /\ good (vy v) /\ good (vz v).
  Definition good_uv (u : uv T) :=
    match u with
    | UVQuake a b => good a /\ good b
    | UVValve a b c d => good_v3 a /\ good b /\ good_v3 c /\ good d
    end.
  Definition good_sd (d : surface_data T) :=
    i32_range (sd_contents d) /\ i32_range (sd_flags d) /\ good (sd_value d).
  Definition good_extra (x : extra_data T) :=
    match x with
    | ExNone => True
    | ExHexen2 a => good a
    | ExQuake2 d => good_sd d
    | ExDaikatana d c => good_sd d /\ good (c_r c) /\ good (c_g c) /\ good (c_b c)
    end.
  Definition good_plane (p : brush_plane T) :=
    good_v3 (bp_v0 p) /\ good_v3 (bp_v1 p) /\ good_v3 (bp_v2 p) /\ good_uv (bp_uv p) /\
    good (bp_rotation p) /\ good (ux (bp_scale p)) /\ good (uy (bp_scale p)) /\ good_extra (bp_extra p).
End GoodPlane.
