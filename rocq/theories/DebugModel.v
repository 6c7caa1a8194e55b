(** What run_diff prints: the derived [Debug] output of a diff in the alternate form [{:#?}].  Models
    src/lib.rs:96, the derives of src/map/quake/tokenizer.rs:1, 29 and 68, and the builders of core::fmt
    they expand to (Rust 1.37 or later, which put a comma after every field). *)
From Verif Require Import Prelude F32 Text MapModel DiffModel RunModel.
Local Open Scope N_scope.

(** Choices that depend on the version of the standard library and its Unicode tables: which characters
    print as themselves, whether NUL has a short form, whether single quotes are escaped in strings. *)
Record debug_style := DebugStyle { ds_plain : N -> bool; ds_nul : bool; ds_single : bool }.

Section Debug.
  Context (st : debug_style).

  (** [{:x}] *)
  Definition hex_digit (d : N) : N := if d <? 10 then 48 + d else 87 + d.
  Fixpoint hex_fuel (fuel : nat) (n : N) (acc : str) : str :=
    match fuel with
    | O => acc
    | S f => let acc' := hex_digit (n mod 16) :: acc in if n / 16 =? 0 then acc' else hex_fuel f (n / 16) acc'
    end.
  Definition show_hex (n : N) : str := hex_fuel (S (N.size_nat n)) n [].

  (** char::escape_debug_ext *)
  Definition escape (c : N) : str :=
    if (c =? 0) && ds_nul st then [92; 48]
    else if c =? 9 then [92; 116]
    else if c =? 13 then [92; 114]
    else if c =? 10 then [92; 110]
    else if (c =? 34) || (c =? 92) then [92; c]
    else if (c =? 39) && ds_single st then [92; c]
    else if ds_plain st c then [c]
    else [92; 117; 123] ++ show_hex c ++ [125].

  (** Debug for str *)
  Definition debug_str (s : str) : str := [34] ++ flat_map escape s ++ [34].

  (** core::fmt::builders::PadAdapter: four spaces before each line *)
  Fixpoint pad (on_newline : bool) (s : str) : str :=
    match s with
    | [] => []
    | c :: t => (if on_newline then lit "    " else []) ++ c :: pad (c =? 10) t
    end.

  (** DebugStruct, DebugTuple and DebugList in the alternate form *)
  Definition debug_struct (name : str) (fields : list (str * str)) : str :=
    name ++ match fields with
            | [] => []
            | _ => lit " {" ++ [10] ++ flat_map (fun f => pad true (fst f ++ lit ": " ++ snd f ++ lit "," ++ [10])) fields ++ lit "}"
            end.
  Definition debug_tuple (name : str) (value : str) : str :=
    name ++ lit "(" ++ [10] ++ pad true (value ++ lit "," ++ [10]) ++ lit ")".
  Definition debug_list (values : list str) : str :=
    lit "[" ++ match values with
               | [] => []
               | _ => [10] ++ flat_map (fun v => pad true (v ++ lit "," ++ [10])) values
               end ++ lit "]".

  (** Debug for Token and Property, tokenizer.rs:1-9 and 29-33 *)
  Definition debug_token (t : token) : str :=
    match t with
    | TComment s => debug_tuple (lit "Comment") (debug_str s)
    | TOpen => lit "OpenBrace"
    | TClose => lit "CloseBrace"
    | TProperty k v =>
      debug_tuple (lit "Property") (debug_struct (lit "Property") [(lit "key", debug_str k); (lit "value", debug_str v)])
    | TPlane s => debug_tuple (lit "BrushPlane") (debug_str s)
    | TUnrecognized s => debug_tuple (lit "Unrecognized") (debug_str s)
    end.

  (** Debug for Diff, tokenizer.rs:68-72 *)
  Definition debug_diff (d : diff) : str :=
    debug_struct (lit "Diff") [(lit "added", debug_list (map debug_token (d_added d)));
                               (lit "removed", debug_list (map debug_token (d_removed d)))].

  (** [println!("{:#?}", diff)], src/lib.rs:96; the progress line of each tokenizer run is left out *)
  Definition run_diff_output (p : platform) (a b : file) : res str :=
    d <- run_diff p a b ;; Ok (debug_diff d ++ [10]).
End Debug.
