(** Specification vocabulary for saved game data: the strings in them, each a sequence of Unicode scalar
    values as every Rust String is. *)
From Verif Require Import Prelude F32 MapModel GameDataModel.
From Verif Require Export Utf8Spec.

Definition choice_strings (c : choice f32) : list str :=
  ch_name c :: match ch_value c with ChString s => [s] | _ => [] end.
Definition property_strings (pr : forge_property f32) : list str :=
  [fp_name pr; fp_short pr; fp_long pr] ++
  match fp_data pr with
  | FString s => [s]
  | FChoices cs _ => flat_map choice_strings cs
  | FFlags fs _ => fs
  | _ => []
  end.
Definition meta_strings (m : metadata f32) : list str := match m with MBase cs => cs | _ => [] end.
Definition entity_strings (e : forge_entity f32) : list str :=
  [fe_name e; fe_description e] ++ flat_map meta_strings (fe_metadata e) ++ flat_map property_strings (fe_properties e).
Definition forge_strings (g : forge_data f32) : list str :=
  fd_name g :: fd_includes g ++ flat_map entity_strings (fd_definitions g).

Definition unicode (s : str) : Prop := Forall scalar s.
Definition unicode_forge (g : forge_data f32) : Prop := Forall unicode (forge_strings g).
