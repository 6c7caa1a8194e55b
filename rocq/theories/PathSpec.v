(** Where tokens stand in a map: counting braces and planes from the start of the file. *)
From Verif Require Import Prelude F32 Text MapModel MapSpec.

(** Entities begun so far, brushes begun in the current entity, planes in the current brush. *)
Record counts := Counts { n_entities : nat; n_brushes : nat; n_planes : nat }.
Definition count_token (pre_depth : nat) (c : counts) (t : token) : counts :=
  match t with
  | TOpen => if pre_depth =? 0 then Counts (n_entities c + 1) 0 0 else Counts (n_entities c) (n_brushes c + 1) 0
  | TPlane _ => Counts (n_entities c) (n_brushes c) (n_planes c + 1)
  | _ => c
  end.
Fixpoint counting (depth : nat) (c : counts) (ts : list token) : counts :=
  match ts with
  | [] => c
  | t :: ts' => counting (next_depth depth t) (count_token depth c t) ts'
  end.
Definition counts_after (ts : list token) : counts := counting 0 (Counts 0 0 0) ts.

(** The address of a token that follows [pre]. *)
Definition address (pre : list token) (t : token) : option token_path :=
  let c := counts_after pre in
  match t with
  | TOpen => Some (if depth_after pre =? 0 then PEntity (n_entities c) else PBrush (n_entities c - 1) (n_brushes c))
  | TProperty k _ => Some (PProperty (n_entities c - 1) k)
  | TPlane _ => Some (PPlane (n_entities c - 1) (n_brushes c - 1) (n_planes c))
  | TClose | TComment _ | TUnrecognized _ => None
  end.

(** What is found at an address. *)
Inductive found {T} (read : str -> res (brush_plane T)) (es : list (entity T)) : token -> token_path -> Prop :=
| FoundEntity i e : nth_error es i = Some e -> found read es TOpen (PEntity i)
| FoundBrush i e b ps : nth_error es i = Some e -> nth_error (e_brushes e) b = Some ps -> found read es TOpen (PBrush i b)
| FoundProperty i e k v w : nth_error es i = Some e -> get_property e k = Some w -> found read es (TProperty k v) (PProperty i k)
| FoundPlane i e b ps n line pl : nth_error es i = Some e -> nth_error (e_brushes e) b = Some ps -> nth_error ps n = Some pl ->
    read line = Ok pl -> found read es (TPlane line) (PPlane i b n).
