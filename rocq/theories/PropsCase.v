(** C85: names of textures do not depend on case. *)
From Verif Require Import Prelude F32 Text TextSpec MapModel WadModel MapSpec WadSpec BaseProofs TextProofs PlaneProofs CaseProofs Witness.
Local Open Scope N_scope.

Theorem C85_lower : forall p s, latin1 s -> to_lowercase p s = map small s.
Proof. exact lower_latin. Qed.
Print Assumptions C85_lower.

Theorem C85_same : forall p a b, latin1 a -> latin1 b -> (to_lowercase p a = to_lowercase p b <-> Forall2 same_letter a b).
Proof. exact same_lower. Qed.
Print Assumptions C85_same.

(** A texture of an archive has the name of the texture of a plane exactly if they are spelled with the same letters. *)
Theorem C85_textures : forall p line ws pl tex i rest m name field,
  written ws line -> parse_plane (f32_num p) (to_lowercase p) line = Ok pl -> nth_error ws 15 = Some tex -> latin1 tex ->
  Forall byte i -> mip_texture_parser i = Some (rest, m) -> field = firstn 16 i -> cut_at_nul name field ->
  (bp_texture pl = mt_name m <-> Forall2 same_letter tex name).
Proof. exact texture_names. Qed.
Print Assumptions C85_textures.

Example C85_example : exists line ws pl tex i rest m name,
  written ws line /\ parse_plane (f32_num demo) (to_lowercase demo) line = Ok pl /\ nth_error ws 15 = Some tex /\ latin1 tex /\
  Forall byte i /\ mip_texture_parser i = Some (rest, m) /\ cut_at_nul name (firstn 16 i) /\ Forall2 same_letter tex name /\ tex <> name.
Proof. exact wall. Qed.
