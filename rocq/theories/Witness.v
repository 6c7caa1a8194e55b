(** Concrete inputs for the examples beside the theorems. *)
From Verif Require Import Prelude F32 Text MapModel.

(** One platform: x86-64, current library, transcendental functions answering zero. *)
Definition demo : platform := {|
  p_simd := true; p_modern_parse := true; p_neg_zero := true; p_keep_bare_cr := true;
  p_overflow_checks := true;
  p_cos := fun _ => f32_zero; p_atan2 := fun _ _ => f32_zero; p_to_radians := fun x => x;
  p_quat_rotate := fun _ _ v => v; p_mat2_rotate := fun _ v => v; p_lower := fun s => s
|}.

Definition quoted (s : str) : str := [34%N] ++ s ++ [34%N].
Definition prop_line (k v : str) : str := quoted k ++ [32%N] ++ quoted v.
Definition unlines (ls : list str) : str := flat_map (fun l => l ++ [10%N]) ls.

(** One worldspawn with one (incomplete) brush, a comment and a point entity. *)
Definition demo_lines : list str := [
  lit "// demo";
  lit "{";
  prop_line (lit "classname") (lit "worldspawn");
  prop_line (lit "message") (lit "first");
  lit "// brush 0";
  lit "{";
  lit "( -16 -16 -16 ) ( -16 -15 -16 ) ( -16 -16 -15 ) Base 0 0 0 1 1";
  lit "( 16 16 16 ) ( 16 16 17 ) ( 16 17 16 ) base [ 0 -1 0 0.5 ] [ 0 0 -1 -2 ] 0 1 1 4 5 6.25";
  lit "}";
  prop_line (lit "message") (lit "second");
  lit "}";
  lit "{";
  prop_line (lit "classname") (lit "light") ++ lit " trailing";
  lit "}"
].
Definition demo_text : str := unlines demo_lines.
