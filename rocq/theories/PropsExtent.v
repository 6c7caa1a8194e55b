(** Which bytes of an archive matter, and which textures are asked for (C139). *)
From Verif Require Import Prelude F32 Text TextSpec WadModel DiffSpec WadSpec ExtentSpec ExtentProofs WadWitness ExtentWitness.
Local Open Scope N_scope.

(** C139: only the bytes of the header, of the directory and of the textures asked for matter: an archive of any length that has
    the same bytes there is read with the same result, or fails as well. *)
Theorem C139_elsewhere : forall checks file file' wl, (forall k, needed checks file wl k -> byte_at file' k = byte_at file k) ->
  Forall byte file -> Forall byte file' -> forall ts, read_textures checks (Some file) wl 1 = Ok ts <-> read_textures checks (Some file') wl 1 = Ok ts.
Proof. exact elsewhere. Qed.
Print Assumptions C139_elsewhere.

(** Whatever follows an archive that can be read does not matter. *)
Theorem C139_appended : forall checks file more wl ts, Forall byte (file ++ more) ->
  read_textures checks (Some file) wl 1 = Ok ts -> read_textures checks (Some (file ++ more)) wl 1 = Ok ts.
Proof. exact appended. Qed.
Print Assumptions C139_appended.

(** An archive cut short is never read with a wrong result: if it is read at all, with that of the whole. *)
Theorem C139_cut : forall checks file n wl ts, Forall byte file ->
  read_textures checks (Some (firstn n file)) wl 1 = Ok ts -> read_textures checks (Some file) wl 1 = Ok ts.
Proof. exact cut_short. Qed.
Print Assumptions C139_cut.

(** Asking for fewer textures gives those textures of the same list whose name in the directory is asked for. *)
Theorem C139_chosen : forall checks file wl ts, Forall byte file -> read_textures checks (Some file) wl 1 = Ok ts ->
  exists ty es sel, directory checks file ty es /\ selected (selected_entry wl) es sel /\ length sel = length ts
  /\ forall l keep, (forall l0, wl = Some l0 -> incl l l0) -> selected (fun x => In (fst x) l) (combine (map en_name sel) ts) keep ->
     read_textures checks (Some file) (Some l) 1 = Ok (map snd keep).
Proof. exact chosen. Qed.
Print Assumptions C139_chosen.

(** Order and repetitions of the names asked for are irrelevant, also to failures and for any number of mip levels. *)
Theorem C139_names : forall checks file l l' levels, (forall s, In s l <-> In s l') ->
  read_textures checks file (Some l) levels = read_textures checks file (Some l') levels.
Proof. exact as_set. Qed.
Print Assumptions C139_names.

Example C139_example : Forall byte plain_wad /\ Forall byte noisy_wad /\ (forall k, needed true plain_wad None k -> byte_at noisy_wad k = byte_at plain_wad k)
  /\ byte_at noisy_wad 116 <> byte_at plain_wad 116 /\ length noisy_wad <> length plain_wad
  /\ read_textures true (Some noisy_wad) None 1 = Ok [Texture (demo_info (lit "wall")) (MipData demo_pixels None None None) None].
Proof. exact two_wads. Qed.
Example C139_example_chosen : exists a b, Forall byte pair_wad /\ read_textures true (Some pair_wad) None 1 = Ok [a; b] /\ mt_name (tx_info a) = lit "moss" /\ mt_name (tx_info b) = lit "sand"
  /\ read_textures true (Some pair_wad) (Some [lit "SAND"]) 1 = Ok [b] /\ read_textures true (Some pair_wad) (Some [lit "SAND"; lit "x"; lit "SAND"]) 1 = Ok [b].
Proof. exact pair_chosen. Qed.
