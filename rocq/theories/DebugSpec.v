(** The printed diff, line by line. *)
From Verif Require Import Prelude MapModel DiffModel DebugModel.
Local Open Scope N_scope.

(** Hexadecimal numerals. *)
Definition hex_digits : str := lit "0123456789abcdef".
Fixpoint index_of (c : N) (s : str) : N := match s with [] => 0 | x :: t => if x =? c then 0 else 1 + index_of c t end.
Fixpoint hex_value (h : str) : N :=
  match h with [] => 0 | c :: t => index_of c hex_digits * 16 ^ N.of_nat (length t) + hex_value t end.
Definition hex_text (h : str) (n : N) : Prop :=
  h <> [] /\ (forall c, In c h -> In c hex_digits) /\ hex_value h = n /\ (hd 0 h = 48 -> h = [48]).

(** How a character may be written within quotes: visible ASCII as itself except for quotes and backslash,
    control characters never as themselves. *)
Inductive written_char (c : N) : str -> Prop :=
| WSelf : 32 <= c -> c <> 127 -> c <> 34 -> c <> 92 -> written_char c [c]
| WTab : c = 9 -> written_char c (lit "\t")
| WReturn : c = 13 -> written_char c (lit "\r")
| WNewline : c = 10 -> written_char c (lit "\n")
| WBackslash : c = 34 \/ c = 39 \/ c = 92 -> written_char c [92; c]
| WNul : c = 0 -> written_char c (lit "\0")
| WCode h : (c < 32 /\ c <> 9 /\ c <> 10 /\ c <> 13) \/ 127 <= c -> hex_text h c ->
    written_char c (lit "\u{" ++ h ++ lit "}").
Definition string_text (s w : str) : Prop := exists ws, Forall2 written_char s ws /\ w = [34] ++ concat ws ++ [34].

(** Visible ASCII characters print as themselves, control characters do not; the rest is left open. *)
Definition proper (s : debug_style) : Prop :=
  forall c, (32 <= c < 127 -> ds_plain s c = true) /\ (c < 32 \/ c = 127 -> ds_plain s c = false).

Section Lines.
  Context (shown : str -> str).
  Definition indent (n : nat) (l : str) : str := repeat 32 (4 * n) ++ l.
  Definition one (name s : str) : list str := [name ++ lit "("; indent 1 (shown s ++ lit ","); lit "),"].
  Definition token_lines (t : token) : list str :=
    match t with
    | TComment s => one (lit "Comment") s
    | TOpen => [lit "OpenBrace,"]
    | TClose => [lit "CloseBrace,"]
    | TProperty k v =>
      [lit "Property("; indent 1 (lit "Property {"); indent 2 (lit "key: " ++ shown k ++ lit ",");
       indent 2 (lit "value: " ++ shown v ++ lit ","); indent 1 (lit "},"); lit "),"]
    | TPlane s => one (lit "BrushPlane") s
    | TUnrecognized s => one (lit "Unrecognized") s
    end.
  Definition list_lines (name : str) (ts : list token) : list str :=
    match ts with
    | [] => [indent 1 (name ++ lit ": [],")]
    | _ => indent 1 (name ++ lit ": [") :: map (indent 2) (flat_map token_lines ts) ++ [indent 1 (lit "],")]
    end.
  Definition diff_lines (d : diff) : list str :=
    lit "Diff {" :: list_lines (lit "added") (d_added d) ++ list_lines (lit "removed") (d_removed d) ++ [lit "}"].
End Lines.

(** Every line with its end. *)
Definition unlines (ls : list str) : str := flat_map (fun l => l ++ [10]) ls.
