(** Map text: tokenizer, brush plane reader and parser.  Models src/map/. *)
From Verif Require Import Prelude F32 Text.

(** ** Tokens: src/map/quake/tokenizer.rs:1-41 *)
Inductive token :=
| TComment (s : str)
| TOpen
| TClose
| TProperty (key value : str)
| TPlane (s : str)
| TUnrecognized (s : str).

(** Derived [PartialEq] on tokens, tokenizer.rs:1,29 *)
Definition token_eqb (a b : token) : bool :=
  match a, b with
  | TComment x, TComment y => str_eqb x y
  | TOpen, TOpen => true
  | TClose, TClose => true
  | TProperty k v, TProperty k' v' => str_eqb k k' && str_eqb v v'
  | TPlane x, TPlane y => str_eqb x y
  | TUnrecognized x, TUnrecognized y => str_eqb x y
  | _, _ => false
  end.

(** One line to one token: the closure of tokenizer.rs:48-62.  The property arm splits at double
    quotes and unwraps the second and fourth pieces. *)
Definition tokenize_line (line : str) : res token :=
  match line with
  | 47%N :: _ => Ok (TComment line)                         (* '/' *)
  | 34%N :: _ =>                                            (* double quote *)
    let comps := split_char 34 line in
    key <- unwrap (lit "property key") (nth_error comps 1) ;;
    value <- unwrap (lit "property value") (nth_error comps 3) ;;
    Ok (TProperty key value)
  | 123%N :: _ => Ok TOpen                                  (* '{' *)
  | 125%N :: _ => Ok TClose                                 (* '}' *)
  | 40%N :: _ => Ok (TPlane line)                           (* '(' *)
  | _ => Ok (TUnrecognized line)
  end.

(** tokenizer::run, tokenizer.rs:43-64 *)
Definition tokenize (p : platform) (text : str) : res (list token) :=
  mapM tokenize_line (str_lines (p_keep_bare_cr p) text).

(** ** Map types *)

(** src/types/color.rs:1-6 *)
Record color (T : Type) := Color { c_r : T; c_g : T; c_b : T }.
Arguments Color {T}. Arguments c_r {T}. Arguments c_g {T}. Arguments c_b {T}.

(** src/map/types/uv.rs *)
Inductive uv (T : Type) :=
| UVQuake (u v : T)
| UVValve (u_axis : vec3 T) (u_offset : T) (v_axis : vec3 T) (v_offset : T).
Arguments UVQuake {T}. Arguments UVValve {T}.

(** src/map/quake/types/brush_plane.rs:8-31 *)
Record surface_data (T : Type) := SurfaceData { sd_contents : Z; sd_flags : Z; sd_value : T }.
Arguments SurfaceData {T}. Arguments sd_contents {T}. Arguments sd_flags {T}. Arguments sd_value {T}.
Inductive extra_data (T : Type) :=
| ExNone
| ExHexen2 (x : T)
| ExQuake2 (d : surface_data T)
| ExDaikatana (d : surface_data T) (c : color T).
Arguments ExNone {T}. Arguments ExHexen2 {T}. Arguments ExQuake2 {T}. Arguments ExDaikatana {T}.

(** src/map/quake/types/brush_plane.rs:83-93 *)
Record brush_plane (T : Type) := BrushPlane {
  bp_v0 : vec3 T; bp_v1 : vec3 T; bp_v2 : vec3 T;
  bp_texture : str;
  bp_uv : uv T;
  bp_rotation : T;
  bp_scale : vec2 T;
  bp_extra : extra_data T
}.
Arguments BrushPlane {T}. Arguments bp_v0 {T}. Arguments bp_v1 {T}. Arguments bp_v2 {T}.
Arguments bp_texture {T}. Arguments bp_uv {T}. Arguments bp_rotation {T}. Arguments bp_scale {T}.
Arguments bp_extra {T}.

(** A brush is its list of planes: src/map/quake/types/brush.rs *)
Definition brush (T : Type) := list (brush_plane T).

(** src/map/quake/types/entity.rs:5-8 *)
Record entity (T : Type) := Entity { e_props : hmap str; e_brushes : list (brush T) }.
Arguments Entity {T}. Arguments e_props {T}. Arguments e_brushes {T}.

(** entity.rs:20-25 *)
Definition get_property {T} (e : entity T) (name : str) : option str := hget (e_props e) name.

(** ** Brush plane lines *)
Section Planes.
  Context {T : Type} (O : num T) (lower : str -> str).

  (** [comps.next().unwrap().parse().unwrap()] *)
  Definition next_num (comps : list str) : res (T * list str) :=
    match comps with
    | [] => Panic (lit "missing field")
    | c :: t => x <- unwrap (lit "number") (n_parse O c) ;; Ok (x, t)
    end.

  (** One iteration of the loop brush_plane.rs:103-120: skip, three numbers, skip. *)
  Definition next_point (comps : list str) : res (vec3 T * list str) :=
    let comps := tl comps in
    '(x, comps) <- next_num comps ;;
    '(y, comps) <- next_num comps ;;
    '(z, comps) <- next_num comps ;;
    Ok (V3 x y z, tl comps).

  (** ExtraData::quake_2, brush_plane.rs:34-55; [comps] has at least three elements. *)
  Definition parse_quake2 (comps : list str) : res (surface_data T) :=
    match comps with
    | c0 :: c1 :: c2 :: _ =>
      match parse_i32 c0 with
      | None => Err (lit "Failed to parse surface contents")
      | Some contents =>
        match parse_i32 c1 with
        | None => Err (lit "Failed to parse surface flags")
        | Some flags =>
          match n_parse O c2 with
          | None => Err (lit "Failed to parse surface value")
          | Some value => Ok (SurfaceData contents flags value)
          end
        end
      end
    | _ => Panic (lit "index out of bounds")
    end.

  (** ExtraData::daikatana, brush_plane.rs:57-79 *)
  Definition parse_daikatana (comps : list str) : res (surface_data T * color T) :=
    d <- parse_quake2 comps ;;
    match comps with
    | _ :: _ :: _ :: c3 :: c4 :: c5 :: _ =>
      match n_parse O c3 with
      | None => Err (lit "Failed to parse R color component")
      | Some r =>
        match n_parse O c4 with
        | None => Err (lit "Failed to parse G color component")
        | Some g =>
          match n_parse O c5 with
          | None => Err (lit "Failed to parse B color component")
          | Some b => Ok (d, Color r g b)
          end
        end
      end
    | _ => Panic (lit "index out of bounds")
    end.

  (** brush_plane.rs:155-162 *)
  Definition parse_extra (comps : list str) : res (extra_data T) :=
    match length comps with
    | 0 => Ok ExNone
    | 1 => '(x, _) <- next_num comps ;; Ok (ExHexen2 x)
    | 3 => d <- parse_quake2 comps ;; Ok (ExQuake2 d)
    | 6 => '(d, c) <- parse_daikatana comps ;; Ok (ExDaikatana d c)
    | _ => Err (lit "Unrecognized extra data")
    end.

  (** brush_plane.rs:124-147: a number starts the standard form, anything else the Valve form *)
  Definition parse_uv (comps : list str) : res (uv T * list str) :=
    match comps with
    | [] => Panic (lit "missing field")
    | c :: comps =>
      match n_parse O c with
      | Some u =>
        '(v, comps) <- next_num comps ;;
        Ok (UVQuake u v, comps)
      | None =>
        '(x1, comps) <- next_num comps ;;
        '(y1, comps) <- next_num comps ;;
        '(z1, comps) <- next_num comps ;;
        '(o1, comps) <- next_num comps ;;
        let comps := tl (tl comps) in
        '(x2, comps) <- next_num comps ;;
        '(y2, comps) <- next_num comps ;;
        '(z2, comps) <- next_num comps ;;
        '(o2, comps) <- next_num comps ;;
        Ok (UVValve (V3 x1 y1 z1) o1 (V3 x2 y2 z2) o2, tl comps)
      end
    end.

  (** BrushPlane::new, brush_plane.rs:96-174 *)
  Definition parse_plane (source : str) : res (brush_plane T) :=
    let comps := split_whitespace source in
    '(p0, comps) <- next_point comps ;;
    '(p1, comps) <- next_point comps ;;
    '(p2, comps) <- next_point comps ;;
    tex <- unwrap (lit "missing texture") (hd_error comps) ;;
    let comps := tl comps in
    '(uv, comps) <- parse_uv comps ;;
    '(rotation, comps) <- next_num comps ;;
    '(sx, comps) <- next_num comps ;;
    '(sy, comps) <- next_num comps ;;
    extra <- parse_extra comps ;;
    Ok (BrushPlane p0 p1 p2 (lower tex) uv rotation (V2 sx sy) extra).

  (** ** Parser: src/map/quake/parser.rs *)

  (** parser.rs:67-86 *)
  Inductive scope := SFile | SEntity (entity_idx : nat) | SBrush (entity_idx brush_idx : nat).

  (** parser.rs:88-112 *)
  Inductive token_path :=
  | PEntity (entity_idx : nat)
  | PProperty (entity_idx : nat) (name : str)
  | PBrush (entity_idx brush_idx : nat)
  | PPlane (entity_idx brush_idx plane_idx : nat).

  Record pstate := PState {
    ps_scope : scope;
    ps_paths : list (token * token_path);
    ps_entities : list (entity T)
  }.

  (** [HashMap<&Token, TokenPath>::insert]: keys compare by token value *)
  Fixpoint path_put (m : list (token * token_path)) (k : token) (v : token_path) :=
    match m with
    | [] => [(k, v)]
    | (k', v') :: t => if token_eqb k k' then (k', v) :: t else (k', v') :: path_put t k v
    end.

  Definition entity_new : entity T := Entity [] [].

  Definition last_entity (es : list (entity T)) : res (entity T) :=
    unwrap (lit "last_mut on empty") (nth_error es (length es - 1)).
  Definition set_last_entity (es : list (entity T)) (e : entity T) : res (list (entity T)) :=
    unwrap (lit "last_mut on empty") (upd_last (fun _ => e) es).

  (** Body of the loop, parser.rs:124-192 *)
  Definition parse_step (s : pstate) (t : token) : res pstate :=
    let es := ps_entities s in
    let paths := ps_paths s in
    match t with
    | TOpen =>
      match ps_scope s with
      | SFile =>
        let id := length es in
        Ok (PState (SEntity id) (path_put paths t (PEntity id)) (es ++ [entity_new]))
      | SEntity id =>
        e <- last_entity es ;;
        let b := length (e_brushes e) in
        es' <- set_last_entity es (Entity (e_props e) (e_brushes e ++ [[]])) ;;
        Ok (PState (SBrush id b) (path_put paths t (PBrush id b)) es')
      | SBrush _ _ => Err (lit "Open brace in brush scope")
      end
    | TClose =>
      match ps_scope s with
      | SFile => Err (lit "Close brace in file scope")
      | SEntity _ => Ok (PState SFile paths es)
      | SBrush id _ => Ok (PState (SEntity id) paths es)
      end
    | TProperty k v =>
      match ps_scope s with
      | SFile => Err (lit "Property in file scope")
      | SEntity id =>
        e <- last_entity es ;;
        es' <- set_last_entity es (Entity (hput (e_props e) k v) (e_brushes e)) ;;
        Ok (PState (SEntity id) (path_put paths t (PProperty id k)) es')
      | SBrush _ _ => Err (lit "Property in brush scope")
      end
    | TPlane line =>
      match ps_scope s with
      | SFile => Err (lit "Brushplane in file scope")
      | SEntity _ => Err (lit "Brushplane in entity scope")
      | SBrush id b =>
        e <- last_entity es ;;
        planes <- unwrap (lit "last_mut on empty")
                    (nth_error (e_brushes e) (length (e_brushes e) - 1)) ;;
        pl <- parse_plane line ;;
        bs <- unwrap (lit "last_mut on empty")
                (upd_last (fun _ => planes ++ [pl]) (e_brushes e)) ;;
        es' <- set_last_entity es (Entity (e_props e) bs) ;;
        Ok (PState (SBrush id b) (path_put paths t (PPlane id b (length planes))) es')
      end
    | TComment _ | TUnrecognized _ => Ok s
    end.

  Fixpoint parse_loop (s : pstate) (ts : list token) : res pstate :=
    match ts with
    | [] => Ok s
    | t :: ts' => s' <- parse_step s t ;; parse_loop s' ts'
    end.

  Definition parse_init : pstate := PState SFile [] [].

  (** parser::run, parser.rs:114-195 *)
  Definition parse_tokens (ts : list token)
    : res (list (token * token_path) * list (entity T)) :=
    s <- parse_loop parse_init ts ;; Ok (ps_paths s, ps_entities s).
End Planes.
